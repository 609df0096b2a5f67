(** A run of the soft site that is exhausted after three passes, none of them limited. *)
From Verif Require Import Common Proof.CommonFacts Model.Curve Model.Layer Model.Cplx Model.Waves Model.Eql
  Spec.LayerSpec Spec.WaveSpec Spec.EqlSpec Proof.EqlFacts Proof.EqlProps Proof.EqlResults Proof.EqlPhysical Proof.EqlRefute.
From Coq Require Import List.
Local Open Scope R_scope.

Definition rp_params : eql_params := mkEql 0.65 0 3 None.
Lemma rp_run : exists t ls' wv, eql_call (with_max rp_params 3) soft_motion soft_input true soft_site = (t, Ok (Exhausted, ls', wv)) /\
  length t = 3%nat /\ forall st, last_opt t = Some st -> st_limited st = false.
Proof.
  destruct (eql_call (with_max rp_params 3) soft_motion soft_input true soft_site) as [t r] eqn:E.
  assert (Hne : soft_site <> []) by discriminate.
  assert (HPk : answers soft_motion) by (intros tf _; now eexists).
  assert (HL : forall st, In st t -> st_limited st = false).
  { intros st Hin. destruct (st_limited st) eqn:El; [|reflexivity].
    assert (HA : true = false -> List.Forall assignable soft_site) by discriminate.
    destruct (eql_limited_flag _ _ _ _ _ _ _ Hne HA E st Hin El) as (x & l & [Q _] & _). discriminate. }
  pose proof (eql_stops _ _ _ _ _ _ _ E) as [_ HS].
  assert (HI : (loc_index soft_input < length soft_site)%nat) by (cbn; lia).
  assert (HW : loc_field soft_input <> Within) by discriminate.
  assert (HR : forall tf, m_peak soft_motion tf <> Err RuntimeError) by (intros tf; discriminate).
  destruct (eql_only_limit_error _ _ _ _ _ _ Hne soft_physical soft_clear HI HW HPk E) as [->|[[[stop ls'] wv] ->]].
  { exfalso. destruct (eql_limit_error _ _ _ _ _ _ _ Hne HR E) as [[A _] _].
    destruct (A eq_refl) as (pre & a & b & post & -> & La & _).
    rewrite (HL a) in La; [discriminate|]. apply in_or_app. right. now left. }
  destruct stop.
  { exfalso. pose proof (eql_bedrock_blocks _ _ _ _ _ _ stiff_layer (eq_refl : last_opt soft_site = Some stiff_layer) E) as B. cbv zeta in B.
    refine (B _ _ ls' wv eq_refl); unfold spec_G, soil_behaviour, density, pct; cbn; pose proof g_ne; unfold GRAVITY in *; [lra|].
    apply Req_le. field. all: lra. }
  exists t, ls', wv. split; [reflexivity|]. split; [apply HS|]. intros st L. apply HL. apply last_opt_In, L.
Qed.
