(** Properties C48, C49, C67 and C75: time-series motions. *)
From Verif Require Import Common Model.Layer Model.Averages Model.Output Model.Motion Spec.OutputSpec Spec.MotionSpec
  Proof.MotionProps.
From Coquelicot Require Import Coquelicot.
Local Open Scope R_scope.

(** The examples use a record of three samples. *)
Definition ex_rec : list R := cons 1 (cons (-2) (cons 3 nil)).
Lemma ex_motion fa : match fa with Some n => (1 <= n)%Z | None => True end -> exists m, new_motion 0.01 ex_rec fa = Ok m.
Proof. intros H. apply new_motion_defined. split; [lra|exact H]. Qed.

(** C48: a motion can be constructed exactly when the time step is not zero and the
    given FFT length, if any, is at least 1. *)
Theorem C48_defined : forall dt a fa,
  (exists m, new_motion dt a fa = Ok m) <->
  dt <> 0 /\ match fa with Some n => (1 <= n)%Z | None => True end.
Proof. exact new_motion_defined. Qed.
Print Assumptions C48_defined.

(** C48: there are n / 2 + 1 amplitudes; the number of frequencies is the same exactly
    when the FFT length n is even, and one more when it is odd. Without a given length n
    is the smallest power of two not below the number of samples. *)
Theorem C48_counts_partial : forall dt a fa m,
  new_motion dt a fa = Ok m -> exists n, fft_length (length a) fa n /\ (1 <= n)%Z /\
  length (t_amps m) = Z.to_nat (n / 2 + 1) /\
  (length (t_freqs m) = length (t_amps m) <-> Z.even n = true) /\
  (Z.even n = false -> length (t_freqs m) = S (length (t_amps m))).
Proof. exact frequency_count. Qed.
Print Assumptions C48_counts_partial.
Example C48_counts_ex : exists m n, new_motion 0.01 ex_rec None = Ok m /\ fft_length (length ex_rec) None n /\ n = 4%Z.
Proof.
  destruct (ex_motion None I) as [m H]. exists m, 4%Z. split; [exact H|]. split; [|reflexivity]. split; [lia|]. split; [now exists 2%nat|].
  split; [cbn; lia|]. intros [|[|j]] Hj; cbn in Hj; try lia. cbn [Nat.pow]. assert (2 ^ j <> 0)%nat by (apply Nat.pow_nonzero; lia). lia.
Qed.

(** C48: the i-th frequency is i / (n dt). *)
Theorem C48_step : forall dt a fa m,
  new_motion dt a fa = Ok m -> exists n, fft_length (length a) fa n /\
  forall i f, nth_error (t_freqs m) i = Some f -> f = INR i / (IZR n * dt).
Proof. exact frequency_step. Qed.
Print Assumptions C48_step.
Example C48_step_ex : exists m, new_motion 0.01 ex_rec (Some 6%Z) = Ok m.
Proof. apply ex_motion. lia. Qed.

(** C48: with an odd FFT length of 3 or more the frequencies outnumber the amplitudes,
    and no transfer function computed at the motion frequencies can be applied. *)
Theorem C48_refuted_odd : forall dt a n m tf,
  Z.odd n = true -> (3 <= n)%Z -> new_motion dt a (Some n) = Ok m ->
  length tf = length (t_freqs m) -> calc_time_series m (Some (OArray tf)) = Err ValueError.
Proof. exact odd_length_fails. Qed.
Print Assumptions C48_refuted_odd.
Example C48_refuted_odd_ex : exists m, new_motion 0.01 ex_rec (Some 3%Z) = Ok m /\ length (t_freqs m) = 3%nat /\ length (t_amps m) = 2%nat.
Proof.
  destruct (ex_motion (Some 3%Z)) as [m H]; [cbn; lia|]. exists m. split; [exact H|].
  destruct (frequency_count _ _ _ _ H) as (n & E & _ & L1 & _ & L2). cbn in E. subst n. specialize (L2 eq_refl). rewrite L2, L1. now split.
Qed.

(** C48,C67: a record of fewer than two samples gets FFT length 1, and its time series
    cannot be computed. *)
Theorem C48_refuted_short : forall dt a m,
  (length a < 2)%nat -> new_motion dt a None = Ok m -> calc_time_series m None = Err ValueError.
Proof. exact short_record. Qed.
Print Assumptions C48_refuted_short.
Example C48_refuted_short_ex : exists m, new_motion 0.01 (cons 1 nil) None = Ok m.
Proof. apply new_motion_defined. split; [lra|exact I]. Qed.

(** C67: for every even FFT length the time series without a transfer function, or with
    a unit one, is the record padded with zeros (or cropped) to the FFT length. *)
Theorem C67_round_trip : forall dt a fa m tf,
  new_motion dt a fa = Ok m -> exists n, fft_length (length a) fa n /\
  (Z.even n = true -> unit_tf m tf -> exists ts, calc_time_series m tf = Ok ts /\ is_padded (Z.to_nat n) a ts).
Proof. exact round_trip. Qed.
Print Assumptions C67_round_trip.
Example C67_round_trip_ex : exists m n, new_motion 0.01 ex_rec (Some n) = Ok m /\ Z.even n = true /\ unit_tf m None.
Proof. destruct (ex_motion (Some 4%Z)) as [m H]; [cbn; lia|]. exists m, 4%Z. split; [exact H|]. split; [reflexivity|now left]. Qed.

(** C67: and if the FFT length is not below the record length the peak is the largest
    absolute acceleration of the record. *)
Theorem C67_peak : forall dt a fa m tf,
  a <> [] -> new_motion dt a fa = Ok m -> exists n, fft_length (length a) fa n /\
  (Z.even n = true -> (Z.of_nat (length a) <= n)%Z -> unit_tf m tf ->
   exists p, calc_peak m tf = Ok p /\ is_peak a p).
Proof. exact peak_is_pga. Qed.
Print Assumptions C67_peak.
Example C67_peak_ex : is_peak ex_rec 3 /\ (Z.of_nat (length ex_rec) <= 4)%Z.
Proof.
  split; [|cbn; lia]. split.
  - exists 3. split; [cbn; tauto|]. rewrite Rabs_right; lra.
  - intros x [<-|[<-|[<-|[]]]]; unfold Rabs; destruct Rcase_abs; lra.
Qed.

(** C67: the Arias intensity of the motion is that of the record, plus one half step
    from the last sample down to zero when the record is padded. *)
Theorem C67_arias : forall dt xs x n m,
  (Z.of_nat (length (xs ++ (x :: nil))) <= n)%Z -> Z.even n = true ->
  new_motion dt (xs ++ (x :: nil)) (Some n) = Ok m ->
  motion_arias m None = Ok (PI * GRAVITY / 2 * (area dt (map (fun a => a ^ 2) (xs ++ (x :: nil))) +
    (if (Z.of_nat (length (xs ++ (x :: nil))) <? n)%Z then dt * x ^ 2 / 2 else 0))).
Proof. exact arias_of_record. Qed.
Print Assumptions C67_arias.
Example C67_arias_ex : exists m, new_motion 0.01 (app (cons 1 (cons (-2) nil)) (cons 3 nil)) (Some 4%Z) = Ok m.
Proof. apply new_motion_defined. split; [lra|cbn; lia]. Qed.

(** C75: for an even FFT length the response to a transfer function given at the motion
    frequencies has, at each of them, the Fourier sum of the padded record times the
    transfer function; only at zero and at the highest frequency the imaginary part is
    dropped. *)
Theorem C75_spectrum : forall dt a n m tf,
  Z.even n = true -> new_motion dt a (Some n) = Ok m ->
  length tf = length (t_freqs m) ->
  exists ts rec, calc_time_series m (Some (OArray tf)) = Ok ts /\ is_padded (Z.to_nat n) a rec /\ length ts = Z.to_nat n /\
  forall k t x z, nth_error tf k = Some t -> fourier_sum rec k x -> fourier_sum ts k z ->
    Re z = Re (Cmult t x) /\
    Im z = if (Nat.eqb k 0 || Nat.eqb (2 * k) (length ts))%bool then 0 else Im (Cmult t x).
Proof. exact response_spectrum. Qed.
Print Assumptions C75_spectrum.
Example C75_ex : exists m, new_motion 0.01 ex_rec (Some 4%Z) = Ok m /\ length (cons (RtoC 1) (cons Ci (cons (RtoC 2) nil))) = length (t_freqs m).
Proof.
  destruct (ex_motion (Some 4%Z)) as [m H]; [cbn; lia|]. exists m. split; [exact H|].
  destruct (frequency_count _ _ _ _ H) as (n & E & _ & L1 & L2 & _). cbn in E. subst n. rewrite (proj2 L2 eq_refl), L1. reflexivity.
Qed.

(** C49: the oscillator transfer function is 1 at zero frequency. *)
Theorem C49_zero : forall f0 xi,
  0 < f0 -> 0 < xi -> sdof_tf f0 xi 0 = RtoC 1.
Proof. exact sdof_zero. Qed.
Print Assumptions C49_zero.

(** C49: its squared magnitude is 1 / ((1 - r^2)^2 + (2 xi r)^2), whose denominator is
    positive. *)
Theorem C49_magnitude : forall f0 xi f,
  0 < f0 -> 0 < xi -> let r := f / f0 in
  0 < (1 - r ^ 2) ^ 2 + (2 * xi * r) ^ 2 /\
  Cmod (sdof_tf f0 xi f) ^ 2 = 1 / ((1 - r ^ 2) ^ 2 + (2 * xi * r) ^ 2).
Proof. exact sdof_magnitude. Qed.
Print Assumptions C49_magnitude.

(** C49: it is the response of the damped oscillator: for a harmonic ground acceleration
    the filtered signal is minus the squared angular frequency times a solution of the
    equation of motion. *)
Theorem C49_oscillator : forall f0 xi f phase,
  0 < f0 -> 0 < xi ->
  let w := 2 * PI * f in let w0 := 2 * PI * f0 in
  let a := fun t => cos (w * t + phase) in
  let u := fun t => - (Re (sdof_tf f0 xi f) * cos (w * t + phase) - Im (sdof_tf f0 xi f) * sin (w * t + phase)) / w0 ^ 2 in
  oscillates w0 xi a u.
Proof. exact sdof_oscillator. Qed.
Print Assumptions C49_oscillator.
Example C49_ex : 0 < 2 /\ 0 < 0.05 /\ Cmod (sdof_tf 2 0.05 2) ^ 2 = 100.
Proof.
  split; [lra|]. split; [lra|]. destruct (sdof_magnitude 2 0.05 2 ltac:(lra) ltac:(lra)) as [_ H]. rewrite H. replace (2 / 2) with 1 by field. lra.
Qed.

(** C49: for an even FFT length the response spectrum exists and each value is the peak
    of the response filtered by that oscillator. *)
Theorem C49_spectrum : forall dt a n m xi fs,
  Z.even n = true -> new_motion dt a (Some n) = Ok m ->
  exists ps, calc_osc_accels m fs xi None = Ok ps /\ length ps = length fs /\
  forall i f0 p, nth_error fs i = Some f0 -> nth_error ps i = Some p ->
    exists ts, calc_time_series m (Some (OArray (map (sdof_tf f0 xi) (t_freqs m)))) = Ok ts /\ is_peak ts p.
Proof. exact osc_accels_defined. Qed.
Print Assumptions C49_spectrum.
Example C49_spectrum_ex : exists m, new_motion 0.01 ex_rec (Some 4%Z) = Ok m.
Proof. apply ex_motion. cbn. lia. Qed.
