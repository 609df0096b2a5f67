(** Averages as integrals. *)
From Coquelicot Require Import Coquelicot.
From Verif Require Import Common Model.Curve Model.Layer Model.Averages
  Spec.StepSpec Spec.ProfileSpec Spec.AverageSpec
  Proof.CommonFacts Proof.ProfileFacts Proof.StepFacts Proof.AveragesFacts.
Local Open Scope R_scope.

Lemma nonneg_all ls :
  Forall (fun l => 0 < l_thick l) (removelast ls) ->
  (forall b, last_opt ls = Some b -> 0 <= l_thick b) ->
  Forall (fun l => 0 <= l_thick l) ls.
Proof.
  intros Hpos Hb. destruct (last_opt ls) as [bot|] eqn:El.
  - rewrite (last_opt_inv _ _ El). apply Forall_app. split.
    + eapply Forall_impl; [|exact Hpos]. cbn; intros; lra.
    + constructor; [now apply Hb|constructor].
  - apply last_opt_none in El. subst; constructor.
Qed.

Lemma time_average_integral ls d :
  ls <> [] -> depths_cumulative ls -> Forall (fun l => 0 < l_thick l) (removelast ls) ->
  (forall b, last_opt ls = Some b -> 0 <= l_thick b) -> 0 <= d ->
  time_average_vel ls d = Ok (d / RInt (step_fun (slowness ls)) 0 d).
Proof.
  intros Hne Hd Hpos Hb H0. rewrite time_average_step by assumption.
  rewrite step_int_RInt; [reflexivity| | |exact H0].
  - unfold slowness. intros E. apply map_eq_nil in E. contradiction.
  - apply slowness_nonneg. now apply nonneg_all.
Qed.

Lemma vs30_integral ls :
  ls <> [] -> depths_cumulative ls -> Forall (fun l => 0 < l_thick l) (removelast ls) ->
  (forall b, last_opt ls = Some b -> 0 <= l_thick b) -> 30 <= total_thick (removelast ls) ->
  vs30 ls = Ok (30 / RInt (step_fun (initial_slowness ls)) 0 30).
Proof.
  intros Hne Hd Hpos Hb H0. rewrite vs30_deep by assumption.
  rewrite step_int_RInt; [reflexivity| | |lra].
  - unfold initial_slowness. intros E. apply map_eq_nil in E. contradiction.
  - unfold initial_slowness. rewrite Forall_map. now apply nonneg_all.
Qed.
