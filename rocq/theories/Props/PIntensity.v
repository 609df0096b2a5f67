(** Properties C133-C138: intensity measures of motions. *)
From Verif Require Import Common Model.Layer Model.Averages Model.Output Model.Motion Model.MotionObject Spec.OutputSpec
  Spec.MotionSpec Spec.IntensitySpec Proof.MotionProps Proof.IntensityProps Proof.MotionObjectFacts.
From Coquelicot Require Import Coquelicot.
Local Open Scope R_scope.

(** The examples use a record of three samples. *)
Definition im_rec : list R := cons 1 (cons (-2) (cons 3 nil)).
Lemma im_motion a : exists m, new_motion 0.01 a None = Ok m.
Proof. apply new_motion_defined. split; [lra|exact I]. Qed.
Lemma im_length s : (3 <= s <= 4)%nat -> fft_length s None 4.
Proof.
  intros H. split; [lia|]. split; [now exists 2%nat|]. change (Z.to_nat 4) with 4%nat. split; [lia|]. intros [|[|j]] Hj; cbn in Hj; try lia.
  pose proof (Nat.pow_nonzero 2 j). cbn. lia.
Qed.

(** C133: multiplying the record by any number multiplies the peak acceleration, the
    peak velocity and the cumulative absolute velocity by its magnitude and the Arias
    intensity by its square, for every transfer function. *)
Theorem C133_scaled : forall dt c a fa m m' tf,
  new_motion dt a fa = Ok m -> new_motion dt (map (Rmult c) a) fa = Ok m' ->
  (forall p, calc_peak m tf = Ok p -> calc_peak m' tf = Ok (Rabs c * p)) /\
  (forall p, calc_pgv m tf = Ok p -> calc_pgv m' tf = Ok (Rabs c * p)) /\
  (forall p, motion_arias m tf = Ok p -> motion_arias m' tf = Ok (c ^ 2 * p)) /\
  (forall p, motion_cav m tf = Ok p -> motion_cav m' tf = Ok (Rabs c * p)).
Proof. exact intensity_scaled. Qed.
Print Assumptions C133_scaled.
Example C133_scaled_ex : exists m m', new_motion 0.01 im_rec None = Ok m /\ new_motion 0.01 (map (Rmult (-2)) im_rec) None = Ok m'.
Proof. destruct (im_motion im_rec) as [m H]. destruct (im_motion (map (Rmult (-2)) im_rec)) as [m' H']. now exists m, m'. Qed.

(** C134: zeros in front of the record, within the same even FFT length, turn the
    response of every transfer function by as many steps; exceptions are the same. *)
Theorem C134_series : forall dt a fa fa' n s m m',
  new_motion dt a fa = Ok m -> new_motion dt (repeat 0 s ++ a) fa' = Ok m' ->
  fft_length (length a) fa n -> fft_length (s + length a) fa' n -> Z.even n = true -> (Z.of_nat (s + length a) <= n)%Z ->
  t_freqs m' = t_freqs m /\ t_dt m' = t_dt m /\ forall tf,
  match calc_time_series m tf, calc_time_series m' tf with
  | Ok ts, Ok ts' => later s ts ts'
  | Err e, Err e' => e = e'
  | _, _ => False
  end.
Proof. exact delayed. Qed.
Print Assumptions C134_series.
Example C134_series_ex : exists m m', new_motion 0.01 im_rec None = Ok m /\ new_motion 0.01 (app (repeat 0 1) im_rec) None = Ok m' /\
  fft_length (length im_rec) None 4 /\ fft_length (1 + length im_rec) None 4.
Proof.
  destruct (im_motion im_rec) as [m H]. destruct (im_motion (app (repeat 0 1) im_rec)) as [m' H']. exists m, m'.
  split; [exact H|]. split; [exact H'|]. split; apply im_length; cbn; lia.
Qed.

(** C134: so the peak acceleration, the peak velocity and the response spectrum do not
    depend on when the record starts. *)
Theorem C134_measures : forall dt a fa fa' n s m m',
  new_motion dt a fa = Ok m -> new_motion dt (repeat 0 s ++ a) fa' = Ok m' ->
  fft_length (length a) fa n -> fft_length (s + length a) fa' n -> Z.even n = true -> (Z.of_nat (s + length a) <= n)%Z ->
  (forall tf, calc_peak m' tf = calc_peak m tf) /\ (forall tf, calc_pgv m' tf = calc_pgv m tf) /\
  (forall fs xi tf, calc_osc_accels m' fs xi tf = calc_osc_accels m fs xi tf).
Proof. exact delay_invisible. Qed.
Print Assumptions C134_measures.
Example C134_measures_ex : (Z.of_nat (1 + length im_rec) <= 4)%Z.
Proof. cbn. lia. Qed.

(** C135: the peak velocity is the largest magnitude, in cm/s, of a velocity without
    mean whose derivative goes through the samples of the record less their mean and
    less their alternating part at the highest frequency. Missing: that part. *)
Theorem C135_velocity_partial : forall dt a fa m n rec,
  0 < dt -> new_motion dt a fa = Ok m -> fft_length (length a) fa n -> Z.even n = true ->
  IZR n * dt <= 6e8 -> is_padded (Z.to_nat n) a rec ->
  exists acc v p, harmonics (IZR n * dt) (Z.to_nat n / 2) acc /\ harmonics (IZR n * dt) (Z.to_nat n / 2) v /\
    (forall t, is_derive v t (acc t)) /\
    (forall j, (j < Z.to_nat n)%nat -> acc (dt * INR j) = nth j rec 0 - mean_of rec - alternating j * alternating_mean rec) /\
    calc_pgv m None = Ok p /\ is_peak (map (fun j => 100 * GRAVITY * v (dt * INR j)) (seq 0 (Z.to_nat n))) p.
Proof. exact pgv_velocity. Qed.
Print Assumptions C135_velocity_partial.
Example C135_velocity_partial_ex : exists m rec, new_motion 0.01 im_rec None = Ok m /\ is_padded (Z.to_nat 4) im_rec rec /\ IZR 4 * 0.01 <= 6e8.
Proof.
  destruct (im_motion im_rec) as [m H]. exists m, (fit 4 im_rec). split; [exact H|]. split; [apply fit_padded|lra].
Qed.

(** C135: the peak velocity is zero exactly when the padded record is a constant plus an
    alternation. *)
Theorem C135_zero : forall dt a fa m n rec,
  0 < dt -> new_motion dt a fa = Ok m -> fft_length (length a) fa n -> Z.even n = true ->
  IZR n * dt <= 6e8 -> is_padded (Z.to_nat n) a rec ->
  (calc_pgv m None = Ok 0 <-> exists x y, forall j, (j < Z.to_nat n)%nat -> nth j rec 0 = x + alternating j * y).
Proof. exact pgv_zero. Qed.
Print Assumptions C135_zero.
Example C135_zero_ex : forall m, new_motion 0.01 im_rec None = Ok m -> calc_pgv m None <> Ok 0.
Proof.
  intros m H E. apply (pgv_zero 0.01 im_rec None m 4 (fit 4 im_rec)) in E; try assumption; try reflexivity; try lra; try apply fit_padded; try (apply im_length; cbn; lia).
  destruct E as (x & y & G). change (Z.to_nat 4) with 4%nat in G.
  pose proof (G 0%nat ltac:(lia)) as G0. pose proof (G 2%nat ltac:(lia)) as G2. cbn in G0, G2. lra.
Qed.

(** C135: the record 1, -1 has no mean and a peak acceleration of 1 g, but its peak
    velocity is computed as zero. *)
Theorem C135_refuted : exists m, new_motion 0.01 (1 :: -1 :: nil) None = Ok m /\ mean_of (1 :: -1 :: nil) = 0 /\
  calc_peak m None = Ok 1 /\ calc_pgv m None = Ok 0.
Proof. exact pgv_loses. Qed.
Print Assumptions C135_refuted.

(** C136: the Fourier amplitudes carry the energy of the record: the time step times the
    sum of squared samples is the frequency step times the sum of squared amplitudes
    over both signs of frequency. *)
Theorem C136_parseval : forall dt a fa m n rec,
  new_motion dt a fa = Ok m -> fft_length (length a) fa n -> Z.even n = true ->
  is_padded (Z.to_nat n) a rec ->
  exists F0 Fs Fn, fourier_amps m = F0 :: Fs ++ Fn :: nil /\
    dt * energy rec = (Cmod F0 ^ 2 + Cmod Fn ^ 2 + 2 * Rsum (map (fun F => Cmod F ^ 2) Fs)) / (IZR n * dt).
Proof. exact parseval. Qed.
Print Assumptions C136_parseval.
Example C136_parseval_ex : energy (fit 4 im_rec) = 14.
Proof. unfold energy. cbn. lra. Qed.

(** C136: the Arias intensity is that energy, less half of the squared first and last
    sample, times pi g / 2. *)
Theorem C136_arias : forall dt a fa m n rec x y,
  new_motion dt a fa = Ok m -> fft_length (length a) fa n -> Z.even n = true ->
  is_padded (Z.to_nat n) a rec -> hd_error rec = Some x -> hd_error (rev rec) = Some y ->
  motion_arias m None = Ok (PI * GRAVITY / 2 * (dt * energy rec - dt * (x ^ 2 + y ^ 2) / 2)).
Proof. exact arias_energy. Qed.
Print Assumptions C136_arias.
Example C136_arias_ex : exists m rec, new_motion 0.01 im_rec None = Ok m /\ is_padded (Z.to_nat 4) im_rec rec /\ hd_error rec = Some 1 /\ hd_error (rev rec) = Some 0.
Proof. destruct (im_motion im_rec) as [m H]. exists m, (fit 4 im_rec). split; [exact H|]. split; [apply fit_padded|]. now split. Qed.

(** C136: the cumulative absolute velocity is g times the time step times the sum of the
    magnitudes of the samples, less half of the first and last. *)
Theorem C136_cav : forall dt a fa m n rec x y,
  new_motion dt a fa = Ok m -> fft_length (length a) fa n -> Z.even n = true ->
  is_padded (Z.to_nat n) a rec -> hd_error rec = Some x -> hd_error (rev rec) = Some y ->
  motion_cav m None = Ok (GRAVITY * (dt * Rsum (map Rabs rec) - dt * (Rabs x + Rabs y) / 2)).
Proof. exact cav_sum. Qed.
Print Assumptions C136_cav.

(** C137: after any sequence of reads of the four measures and writes to the array of
    accelerations, every read gives the measure of the motion as constructed, and so
    does every response. *)
Theorem C137_kept : forall dt a fa m o cs rs o',
  new_motion dt a fa = Ok m -> new_object dt a fa = Ok o -> do_calls cs o = (rs, o') ->
  Forall2 (fun c r => forall q, c = Read q -> r = measured m q) cs rs /\
  forall tf, calc_time_series (o_motion o') tf = calc_time_series m tf.
Proof. exact measures_kept. Qed.
Print Assumptions C137_kept.
Example C137_kept_ex : exists m o rs o', new_motion 0.01 im_rec None = Ok m /\ new_object 0.01 im_rec None = Ok o /\
  do_calls (Read Pgv :: Write 0 7 :: Read Pga :: Read Pgv :: nil) o = (rs, o').
Proof.
  destruct (im_motion im_rec) as [m H]. destruct (do_calls (Read Pgv :: Write 0 7 :: Read Pga :: Read Pgv :: nil) (mkMO m None None None None)) as [rs o'] eqn:E.
  exists m, (mkMO m None None None None), rs, o'. split; [exact H|]. split; [unfold new_object; now rewrite H|exact E].
Qed.

(** C138: while nothing writes to the array of accelerations, the response without
    transfer function is the record shown, padded. Missing: records written to. *)
Theorem C138_agrees_partial : forall dt a fa n o cs rs o',
  new_object dt a fa = Ok o -> do_calls cs o = (rs, o') ->
  (forall c, In c cs -> exists q, c = Read q) -> fft_length (length a) fa n -> Z.even n = true ->
  exists ts, calc_time_series (o_motion o') None = Ok ts /\ is_padded (Z.to_nat n) (t_accels (o_motion o')) ts.
Proof. exact record_unwritten. Qed.
Print Assumptions C138_agrees_partial.
Example C138_agrees_partial_ex : exists o rs o', new_object 0.01 im_rec None = Ok o /\ do_calls (Read Pgv :: Read Pga :: nil) o = (rs, o').
Proof.
  destruct (im_motion im_rec) as [m H]. destruct (do_calls (Read Pgv :: Read Pga :: nil) (mkMO m None None None None)) as [rs o'] eqn:E.
  exists (mkMO m None None None None), rs, o'. split; [unfold new_object; now rewrite H|exact E].
Qed.

(** C138: the record shown holds the last value written to each entry. *)
Theorem C138_record : forall dt a fa o cs rs o' i x,
  new_object dt a fa = Ok o -> do_calls cs o = (rs, o') -> nth_error a i = Some x ->
  nth_error (t_accels (o_motion o')) i = Some (entry_after cs i x).
Proof. exact record_written. Qed.
Print Assumptions C138_record.
Example C138_record_ex : entry_after (Write 0 7 :: Read Pga :: Write 1 8 :: Write 0 9 :: nil) 0 1 = 9.
Proof. reflexivity. Qed.

(** C138: one write to the array given to the constructor, and the response is no longer
    the record shown. *)
Theorem C138_refuted : exists o i x rs o', new_object 1 (1 :: 2 :: nil) None = Ok o /\ do_calls (cons (Write i x) nil) o = (rs, o') /\
  exists ts, calc_time_series (o_motion o') None = Ok ts /\ ~ is_padded 2 (t_accels (o_motion o')) ts.
Proof. exact record_disagrees. Qed.
Print Assumptions C138_refuted.
