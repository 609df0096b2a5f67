(** The times of a record and of the series reported for it; the stresses after a run. *)
From Verif Require Import Common Proof.CommonFacts Model.Curve Model.Layer Model.Waves Model.Eql Model.Output Model.Motion.
From Verif Require Import Spec.CurveSpec Spec.LayerSpec Spec.EqlSpec Spec.MotionSpec Proof.EqlProps Proof.EqlResults Proof.MotionProps.
From Coq Require Import List.
Local Open Scope R_scope.

Theorem record_times dt a fa m tf : new_motion dt a fa = Ok m -> exists n, fft_length (length a) fa n /\ length (ts_times m) = length a /\
  (Z.even n = true -> (length a <= Z.to_nat n)%nat -> unit_tf m tf -> exists ts, calc_time_series m tf = Ok ts /\
   forall k x, nth_error a k = Some x ->
     nth_error (ts_times m) k = Some (dt * INR k) /\ nth_error (times dt (length ts)) k = Some (Some (dt * INR k)) /\ nth_error ts k = Some x).
Proof.
  intros H. destruct (round_trip dt a fa m tf H) as (n & HL & HR). destruct (new_motion_inv _ _ _ _ H) as (_ & _ & _ & _ & Ed & Ea & _).
  assert (SQ : forall (B : Type) (f : nat -> B) N k, (k < N)%nat -> nth_error (map f (seq 0 N)) k = Some (f k)).
  { intros B f N k Hk. apply map_nth_error. rewrite (nth_error_nth' _ 0%nat) by (rewrite seq_length; exact Hk). now rewrite seq_nth. }
  exists n. split; [exact HL|]. split; [unfold ts_times; rewrite map_length, seq_length; now rewrite Ea|].
  intros He Hl Hu. destruct (HR He Hu) as (ts & Et & HP). exists ts. split; [exact Et|]. intros k x Hk.
  assert (K : (k < length a)%nat) by (apply nth_error_Some; congruence).
  destruct HP as [LT HP].
  split; [unfold ts_times; rewrite Ed, Ea; now apply (SQ _ (fun i => dt * INR i))|].
  split; [unfold times; apply (SQ _ (fun i => Some (dt * INR i))); lia|].
  rewrite HP by lia. now rewrite Hk.
Qed.

Theorem eql_stresses P m lin reset ls t stop ls' wv : ls <> nil -> (reset = false -> List.Forall assignable ls) -> t <> nil ->
  eql_call P m lin reset ls = (t, Ok (stop, ls', wv)) ->
  forall i l0, (i < length ls - 1)%nat -> nth_error ls i = Some l0 ->
  exists l mx s, nth_error ls' i = Some l /\ l_smax l = Some mx /\ used_strain P mx s /\
    let G := spec_G (density (l_soil l0)) (l_vs l0) (soil_behaviour (l_soil l0)) (Some s) in
    stress_shear_max l = Some (G * mx) /\ stress_shear_eff l = G * s /\
    ((forall x, ~ limit_on P x) -> stress_shear_eff l = e_ratio P * (G * mx)).
Proof.
  intros NE HA NT H i l0 Hi Hl. destruct (eql_compatible _ _ _ _ _ _ _ _ _ NE HA NT H) as [_ HC].
  destruct (HC i l0 Hi Hl) as (l & mx & E1 & _ & _ & _ & _ & E2 & E3 & E4 & _). exists l, mx, (strain l).
  split; [exact E1|]. split; [exact E2|]. split; [exact E3|]. cbv zeta. unfold stress_shear_max, stress_shear_eff. rewrite E2, E4.
  split; [reflexivity|]. split; [reflexivity|]. intros HL. destruct E3 as [_ E3]. rewrite E3 at 2 by (intros x Q; now elim (HL x)). ring.
Qed.
