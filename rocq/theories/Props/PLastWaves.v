(** Property C172: the waves a run leaves behind and the properties it reports. *)
From Verif Require Import Common Model.Curve Model.Layer Model.Cplx Model.Waves Model.Eql.
From Verif Require Import Spec.LayerSpec Spec.WaveSpec Spec.EqlSpec Proof.EqlProps Proof.EqlResults Proof.EqlPhysical Proof.EqlRefute Proof.LastWaves.
From Coq Require Import List.
Local Open Scope R_scope.
Local Open Scope R_scope.

(** C172: the waves left behind by an equivalent-linear run are those of the layers as
    they were before its last pass, not of the layers it reports. *)
Theorem C172_before : forall P m lin reset ls t stop ls' wv,
  ls <> nil -> t <> nil ->
  eql_call P m lin reset ls = (t, Ok (stop, ls', wv)) ->
  exists h0 before after, history (start_layers m reset ls) t = h0 ++ cons before (cons after nil) /\
    length before = length ls' /\ calc_waves m before = Ok wv.
Proof. exact waves_before. Qed.
Print Assumptions C172_before.
(** A run with one pass exists, so the hypotheses are met. *)
Example C172_before_ex : exists t ls' wv h0 before after,
  eql_call soft_params soft_motion soft_input true soft_site = (t, Ok (Converged, ls', wv)) /\
  history (start_layers soft_motion true soft_site) t = h0 ++ cons before (cons after nil) /\
  length before = length ls' /\ calc_waves soft_motion before = Ok wv.
Proof.
  destruct soft_converged as (t & ls' & wv & _ & _ & _ & H & bf & af & l & l' & E & _).
  assert (H0 : t <> nil) by (intros ->; discriminate E). assert (H1 : soft_site <> nil) by discriminate.
  destruct (C172_before _ _ _ _ _ _ _ _ _ H1 H0 H) as (h0 & b & a & A). exists t, ls', wv, h0, b, a. now split.
Qed.

(** C172: for a run on a physical site with a non-zero frequency, the waves are those of
    the reported layers exactly if the last pass changed neither the shear modulus nor
    the (limited) damping of any layer. *)
Theorem C172_iff : forall P m lin ls t stop ls' wv w,
  ls <> nil -> t <> nil -> List.Forall physical ls ->
  eql_call P m lin true ls = (t, Ok (stop, ls', wv)) -> In w (m_freqs m) -> w <> 0 ->
  exists h0 before after, history (start_layers m true ls) t = h0 ++ cons before (cons after nil) /\
    length before = length ls' /\
    (calc_waves m ls' = Ok wv <->
     forall i l l', nth_error before i = Some l -> nth_error ls' i = Some l' ->
       shear_mod l' = shear_mod l /\
       forall d d', limited_damping (damping l) d -> limited_damping (damping l') d' -> d' = d).
Proof. exact waves_reported_iff. Qed.
Print Assumptions C172_iff.
(** The hypotheses are met by the same run, whose last pass changed a modulus. *)
Example C172_iff_ex : exists t ls' wv, List.Forall physical soft_site /\ t <> nil /\
  eql_call soft_params soft_motion soft_input true soft_site = (t, Ok (Converged, ls', wv)) /\ In 1 (m_freqs soft_motion).
Proof.
  destruct soft_converged as (t & ls' & wv & HP & _ & _ & H & bf & af & l & l' & E & _).
  exists t, ls', wv. split; [exact HP|]. split; [intros ->; discriminate E|]. split; [exact H|now left].
Qed.

(** C172: a run on a physical site that stops as converged leaves waves that are not
    those of the layers it reports. *)
Theorem C172_refuted : exists P m lin ls t ls' wv, List.Forall physical ls /\ e_tol P = 0.01 /\
  eql_call P m lin true ls = (t, Ok (Converged, ls', wv)) /\ calc_waves m ls' <> Ok wv.
Proof. exact waves_stale. Qed.
Print Assumptions C172_refuted.
