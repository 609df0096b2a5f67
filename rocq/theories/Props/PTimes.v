(** Properties C67 and C71: the times of a record, the stresses after a run. *)
From Verif Require Import Common Model.Curve Model.Layer Model.Waves Model.Eql Model.Output Model.Motion.
From Verif Require Import Spec.CurveSpec Spec.LayerSpec Spec.EqlSpec Spec.MotionSpec Proof.EqlRefute Proof.MotionProps Proof.EqlProps Proof.EqlResults Proof.RecordTimes Proof.ModelSoils.
From Coq Require Import List.
Local Open Scope R_scope.

(** A record of three samples. *)
Definition pt_rec : list R := cons 1 (cons (-2) (cons 3 nil)).
Lemma pt_motion fa : match fa with Some n => (1 <= n)%Z | None => True end -> exists m, new_motion 0.01 pt_rec fa = Ok m.
Proof. intros H. apply new_motion_defined. split; [lra|exact H]. Qed.

(** C67: the times of the motion and the times a time-series output stores are the time
    step times the index, one per sample (the output has one per sample of the padded
    series), and for an even FFT length not below the record length the series without
    transfer function has at each time of the record the sample of that time. *)
Theorem C67_times : forall dt a fa m tf,
  new_motion dt a fa = Ok m -> exists n, fft_length (length a) fa n /\ length (ts_times m) = length a /\
  (Z.even n = true -> (length a <= Z.to_nat n)%nat -> unit_tf m tf -> exists ts, calc_time_series m tf = Ok ts /\
   forall k x, nth_error a k = Some x ->
     nth_error (ts_times m) k = Some (dt * INR k) /\ nth_error (times dt (length ts)) k = Some (Some (dt * INR k)) /\ nth_error ts k = Some x).
Proof. exact record_times. Qed.
Print Assumptions C67_times.
Example C67_times_ex : exists m n, new_motion 0.01 pt_rec (Some n) = Ok m /\ Z.even n = true /\ (List.length pt_rec <= Z.to_nat n)%nat /\ unit_tf m None.
Proof. destruct (pt_motion (Some 4%Z)) as [m H]; [cbn; lia|]. exists m, 4%Z. split; [exact H|]. split; [reflexivity|]. split; [cbn; lia|now left]. Qed.

(** C71: the maximum and the effective shear stress a layer reports are those of the
    secant modulus at the strain used; without a limit the effective stress is the
    strain ratio times the maximum stress. *)
Theorem C71_stresses : forall P m lin reset ls t stop ls' wv,
  ls <> nil -> (reset = false -> List.Forall assignable ls) -> t <> nil ->
  eql_call P m lin reset ls = (t, Ok (stop, ls', wv)) ->
  forall i l0, (i < length ls - 1)%nat -> nth_error ls i = Some l0 ->
  exists l mx s, nth_error ls' i = Some l /\ l_smax l = Some mx /\ used_strain P mx s /\
    let G := spec_G (density (l_soil l0)) (l_vs l0) (soil_behaviour (l_soil l0)) (Some s) in
    stress_shear_max l = Some (G * mx) /\ stress_shear_eff l = G * s /\
    ((forall x, ~ limit_on P x) -> stress_shear_eff l = e_ratio P * (G * mx)).
Proof. exact eql_stresses. Qed.
Print Assumptions C71_stresses.
Example C71_stresses_ex : exists t ls' wv, List.Forall physical soft_site /\ t <> nil /\
  eql_call soft_params soft_motion soft_input true soft_site = (t, Ok (Converged, ls', wv)).
Proof.
  destruct soft_converges as (t & ls' & wv & E). exists t, ls', wv. split; [exact soft_physical|]. split; [|exact E].
  destruct (eql_stops _ _ _ _ _ _ _ E) as [_ (t0 & st & -> & _)]. now destruct t0.
Qed.

(** C71: the modulus reduction a layer reports is the value of its soil type at the
    strain used, and is positive. *)
Theorem C71_reduction : forall P m lin reset ls t stop ls' wv,
  ls <> nil -> List.Forall physical ls -> (reset = false -> List.Forall assignable ls) -> t <> nil ->
  eql_call P m lin reset ls = (t, Ok (stop, ls', wv)) ->
  forall i l0, (i < length ls - 1)%nat -> nth_error ls i = Some l0 ->
  exists l, nth_error ls' i = Some l /\ shear_mod_reduc l = modred (soil_behaviour (l_soil l0)) (strain l) /\ 0 < shear_mod_reduc l.
Proof. exact eql_reduction. Qed.
Print Assumptions C71_reduction.
