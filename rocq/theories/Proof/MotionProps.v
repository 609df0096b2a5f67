(** C48, C49, C67, C75: time-series motions. *)
From Verif Require Import Common Model.Layer Model.Averages Model.Output Model.Motion Spec.OutputSpec Spec.MotionSpec
  Proof.CommonFacts Proof.CurveFacts Proof.WaveFacts Proof.OutputValues Proof.MotionFacts.
From Coquelicot Require Import Coquelicot.
Local Open Scope R_scope.

(** * C48 *)
Lemma doubling_spec fuel : forall n size, (exists k, n = 2 ^ k)%nat -> (size <= n + fuel)%nat ->
  (exists k, doubling fuel n size = 2 ^ k)%nat /\ (size <= doubling fuel n size)%nat /\
  forall j, (n <= 2 ^ j)%nat -> (size <= 2 ^ j)%nat -> (doubling fuel n size <= 2 ^ j)%nat.
Proof.
  induction fuel as [|fuel IH]; intros n size [k Hk] Hs; cbn [doubling].
  - split; [now exists k|]. split; [lia|]. auto.
  - destruct (Nat.ltb_spec n size) as [L|L].
    + assert (1 <= n)%nat by (subst n; apply Nat.neq_0_lt_0, Nat.pow_nonzero; lia).
      destruct (IH (2 * n)%nat size) as (A & B & D).
      * exists (S k). cbn [Nat.pow]. lia.
      * lia.
      * split; [exact A|]. split; [exact B|]. intros j Hj Hs'. apply D; [|exact Hs'].
        assert (k < j)%nat. { apply (Nat.pow_lt_mono_r_iff 2); [lia|]. rewrite <- Hk. lia. }
        replace (2 * n)%nat with (2 ^ S k)%nat by (cbn [Nat.pow]; lia). apply Nat.pow_le_mono_r; lia.
    + split; [now exists k|]. split; [exact L|]. auto.
Qed.
Lemma next_length_spec size : smallest_power size (next_length size).
Proof.
  destruct (doubling_spec size 1 size) as (A & B & D); [now exists 0%nat|lia|]. split; [exact A|]. split; [exact B|].
  intros j Hj. apply D; [|exact Hj]. assert (2 ^ j <> 0)%nat by (apply Nat.pow_nonzero; lia). lia.
Qed.

Lemma smallest_power_unique s a b : smallest_power s a -> smallest_power s b -> a = b.
Proof. intros ([k ->] & H1 & H2) ([l ->] & H3 & H4). pose proof (H2 l H3). pose proof (H4 k H1). lia. Qed.

Lemma new_motion_inv dt a fa m : new_motion dt a fa = Ok m -> exists n, fft_length (length a) fa n /\ (1 <= n)%Z /\ dt <> 0 /\
  t_dt m = dt /\ t_accels m = a /\
  t_amps m = map (dft (Z.to_nat n) (fit (Z.to_nat n) a)) (seq 0 (S (Z.to_nat n / 2))) /\
  t_freqs m = map (fun i => 1 / (2 * dt * (IZR n / 2)) * INR i) (seq 0 (arange_count n)).
Proof.
  unfold new_motion. set (n := match fa with None => Z.of_nat (next_length (length a)) | Some n => n end).
  assert (HL : fft_length (length a) fa n).
  { unfold fft_length, n. destruct fa; [reflexivity|]. split; [lia|]. rewrite Nat2Z.id. apply next_length_spec. }
  unfold rfft. destruct (Z.ltb_spec n 1) as [L|L]; cbn [bind]; [discriminate|].
  destruct (Reqb (2 * dt * (IZR n / 2)) 0) eqn:E; [discriminate|]. intros H. apply Ok_inj in H. subst m.
  exists n. split; [exact HL|]. split; [exact L|]. split.
  { intros ->. assert (Reqb (2 * 0 * (IZR n / 2)) 0 = true) by (apply Reqb_true; field). congruence. }
  now repeat split.
Qed.

Theorem frequency_count dt a fa m : new_motion dt a fa = Ok m -> exists n, fft_length (length a) fa n /\ (1 <= n)%Z /\
  length (t_amps m) = Z.to_nat (n / 2 + 1) /\
  (length (t_freqs m) = length (t_amps m) <-> Z.even n = true) /\
  (Z.even n = false -> length (t_freqs m) = S (length (t_amps m))).
Proof.
  intros H. destruct (new_motion_inv _ _ _ _ H) as (n & HL & Hn & _ & _ & _ & EA & EF). exists n. split; [exact HL|]. split; [exact Hn|].
  assert (LA : length (t_amps m) = Z.to_nat (n / 2 + 1)).
  { rewrite EA, map_length, seq_length. replace (S (Z.to_nat n / 2)) with (Z.to_nat n / 2 + 1)%nat by lia.
    rewrite Z2Nat.inj_add by (try lia; apply Z.div_pos; lia). rewrite Z2Nat.inj_div by lia. reflexivity. }
  assert (LF : length (t_freqs m) = Z.to_nat (1 + (n + 1) / 2)).
  { rewrite EF, map_length, seq_length. reflexivity. }
  split; [exact LA|]. rewrite LA, LF. destruct (Z.even n) eqn:Ev.
  - apply Z.even_spec in Ev. destruct Ev as [q ->]. replace (2 * q)%Z with (q * 2)%Z by ring.
    rewrite Z.div_mul by lia. assert (D : ((q * 2 + 1) / 2 = q)%Z) by (rewrite Z.div_add_l by lia; change (1 / 2)%Z with 0%Z; lia).
    rewrite D. split; [|intros; discriminate]. split; intros; [reflexivity|]. f_equal. lia.
  - rewrite <- Z.negb_odd in Ev. apply Bool.negb_false_iff in Ev. apply Z.odd_spec in Ev. destruct Ev as [q ->].
    replace (2 * q + 1 + 1)%Z with ((q + 1) * 2)%Z by ring. rewrite Z.div_mul by lia.
    replace (2 * q + 1)%Z with (1 + q * 2)%Z by ring. rewrite Z.div_add by lia. change (1 / 2)%Z with 0%Z.
    split; [split; [intros G; lia|discriminate]|]. intros _. lia.
Qed.

Theorem frequency_step dt a fa m : new_motion dt a fa = Ok m -> exists n, fft_length (length a) fa n /\
  forall i f, nth_error (t_freqs m) i = Some f -> f = INR i / (IZR n * dt).
Proof.
  intros H. destruct (new_motion_inv _ _ _ _ H) as (n & HL & Hn & Hdt & _ & _ & _ & EF). exists n. split; [exact HL|].
  intros i f Hf. rewrite EF in Hf. rewrite nth_error_map in Hf. destruct (nth_error (seq 0 (arange_count n)) i) as [k|] eqn:E; [|discriminate].
  injection Hf as <-. assert (k = i).
  { pose proof (nth_error_nth _ _ 0%nat E) as G. rewrite seq_nth in G; [lia|]. rewrite <- (seq_length (arange_count n) 0). apply nth_error_Some. congruence. }
  subst k. assert (IZR n <> 0) by (apply not_0_IZR; lia). field. now split.
Qed.

Theorem new_motion_defined dt a fa : (exists m, new_motion dt a fa = Ok m) <->
  dt <> 0 /\ match fa with Some n => (1 <= n)%Z | None => True end.
Proof.
  split.
  - intros [m H]. destruct (new_motion_inv _ _ _ _ H) as (n & HL & Hn & Hdt & _). split; [exact Hdt|]. destruct fa; [|exact I]. cbn in HL. now subst.
  - intros [Hdt Hn]. unfold new_motion. set (n := match fa with None => Z.of_nat (next_length (length a)) | Some n => n end).
    assert (Hn' : (1 <= n)%Z).
    { unfold n. destruct fa; [exact Hn|]. destruct (next_length_spec (length a)) as ([k ->] & _).
      assert (2 ^ k <> 0)%nat by (apply Nat.pow_nonzero; lia). lia. }
    unfold rfft. destruct (Z.ltb_spec n 1); [lia|]. cbn [bind].
    destruct (Reqb (2 * dt * (IZR n / 2)) 0) eqn:E; [|now eexists]. apply Reqb_true in E.
    assert (IZR n <> 0) by (apply not_0_IZR; lia). exfalso. apply Hdt. apply (Rmult_eq_reg_r (IZR n)); [lra|assumption].
Qed.

(** * C67 *)
Lemma fit_padded n xs : is_padded n xs (fit n xs).
Proof.
  unfold fit. split.
  - rewrite app_length, firstn_length, repeat_length. lia.
  - intros j Hj. destruct (nth_error xs j) as [x|] eqn:E.
    + assert (j < length xs)%nat by (apply nth_error_Some; congruence).
      rewrite nth_error_app1 by (rewrite firstn_length; lia). rewrite nth_error_firstn_lt by exact Hj. exact E.
    + apply nth_error_None in E. rewrite nth_error_app2 by (rewrite firstn_length; lia). rewrite firstn_length.
      rewrite nth_error_repeat_lt by lia. reflexivity.
Qed.
Lemma fit_all n xs : (length xs <= n)%nat -> fit n xs = xs ++ repeat 0 (n - length xs).
Proof. intros H. unfold fit. now rewrite firstn_all2. Qed.
Lemma is_padded_unique n xs a b : is_padded n xs a -> is_padded n xs b -> a = b.
Proof.
  intros [La Ha] [Lb Hb]. apply nth_error_ext. intros j. destruct (Nat.lt_ge_cases j n) as [L|L].
  - now rewrite Ha, Hb.
  - rewrite !(proj2 (nth_error_None _ _)) by lia. reflexivity.
Qed.

Lemma even_half n : (1 <= n)%Z -> Z.even n = true -> exists h, (1 <= h)%nat /\ Z.to_nat n = (2 * h)%nat /\ n = (2 * Z.of_nat h)%Z.
Proof.
  intros Hn He. apply Z.even_spec in He. destruct He as [q ->]. exists (Z.to_nat q). lia.
Qed.

(** The response, in terms of the product of the transfer function and the
    spectrum. *)
Lemma response_of m A h : t_dt m <> 0 -> (1 <= h)%nat -> length A = S h ->
  irfft (map (fun z => Cdiv z (RtoC (t_dt m))) A) =
  Ok (map (inv_sample h (map (fun z => Cdiv z (RtoC (t_dt m))) A)) (seq 0 (2 * h))).
Proof.
  intros Hd Hh HA. unfold irfft. rewrite map_length, HA. destruct h as [|h]; [lia|]. reflexivity.
Qed.

Lemma dt_cancel dt (z : C) : dt <> 0 -> Cdiv (Cmult (RtoC dt) z) (RtoC dt) = z.
Proof. intros H. field. intros E. apply H. now injection E. Qed.

Lemma time_series_unit m n a h : t_dt m <> 0 -> (1 <= h)%nat -> n = (2 * h)%nat ->
  t_amps m = map (dft n (fit n a)) (seq 0 (S h)) ->
  irfft (map (fun z => Cdiv z (RtoC (t_dt m))) (fourier_amps m)) = Ok (fit n a).
Proof.
  intros Hd Hh -> HA. rewrite (response_of m _ h Hd Hh).
  2:{ unfold fourier_amps. now rewrite map_length, HA, map_length, seq_length. }
  f_equal. unfold fourier_amps. rewrite map_map.
  rewrite (map_ext (fun x => Cdiv (Cmult (RtoC (t_dt m)) x) (RtoC (t_dt m))) (fun x => x)) by (intros z; now apply dt_cancel).
  rewrite map_id, HA. apply nth_error_ext. intros j. destruct (fit_padded (2 * h) a) as [HL HP].
  destruct (Nat.lt_ge_cases j (2 * h)) as [L|L].
  - rewrite (map_nth_error _ _ _ (d := j)).
    + rewrite inverse_of_transform by assumption. symmetry. apply nth_error_nth'. now rewrite HL.
    + rewrite (nth_error_nth' _ 0%nat) by (now rewrite seq_length). now rewrite seq_nth.
  - rewrite !(proj2 (nth_error_None _ _)); [reflexivity|lia|rewrite map_length, seq_length; lia].
Qed.

Theorem round_trip dt a fa m tf : new_motion dt a fa = Ok m -> exists n, fft_length (length a) fa n /\
  (Z.even n = true -> unit_tf m tf -> exists ts, calc_time_series m tf = Ok ts /\ is_padded (Z.to_nat n) a ts).
Proof.
  intros H. destruct (frequency_count _ _ _ _ H) as (n' & HL' & Hn' & HA' & HF & _).
  destruct (new_motion_inv _ _ _ _ H) as (n & HL & Hn & Hdt & Ed & Ea & EA & EF).
  assert (n' = n).
  { unfold fft_length in *. destruct fa; [congruence|]. destruct HL as [P1 H1], HL' as [P2 H2]. pose proof (smallest_power_unique _ _ _ H1 H2). lia. }
  subst n'. exists n. split; [exact HL|]. intros He Hu. destruct (even_half n Hn He) as (h & Hh & En & Ez).
  assert (EA' : t_amps m = map (dft (Z.to_nat n) (fit (Z.to_nat n) a)) (seq 0 (S h))).
  { rewrite EA. do 2 f_equal. rewrite En. rewrite Nat.mul_comm, Nat.div_mul by lia. reflexivity. }
  exists (fit (Z.to_nat n) a). split; [|apply fit_padded].
  rewrite <- (time_series_unit m (Z.to_nat n) a h) by (try assumption; now rewrite Ed).
  destruct Hu as [-> |[-> | ->]]; unfold calc_time_series; [reflexivity| |].
  - cbn [np_mul bind]. do 2 f_equal. rewrite (map_ext (Cmult (RtoC 1)) (fun x => x)) by (intros z; apply Cmult_1_l). now rewrite map_id.
  - unfold np_mul. rewrite map_length. pose proof (proj2 HF He) as LF.
    assert (LE : length (t_freqs m) = length (fourier_amps m)) by (unfold fourier_amps; now rewrite map_length).
    rewrite LE, Nat.eqb_refl. cbn [bind]. do 2 f_equal.
    revert LE. generalize (fourier_amps m) as A, (t_freqs m) as F. clear. induction A as [|z A IH]; intros [|f F] LE; try discriminate; [reflexivity|].
    cbn [map map2 combine]. unfold map2 in *. cbn [combine map fst snd]. rewrite Cmult_1_l. f_equal. apply IH. now injection LE.
Qed.

Lemma peak_of_spec ts : ts <> [] -> is_peak ts (peak_of ts).
Proof.
  unfold peak_of. induction ts as [|x ts IH]; intros Hne; [congruence|]. cbn [map fold_right].
  destruct ts as [|y ts].
  - cbn. split; [exists x; split; [now left|]; apply Rmax_left, Rabs_pos|]. intros z [<-|[]]. apply Rmax_l.
  - destruct (IH ltac:(discriminate)) as [(z & Hz & Ez) HB]. split.
    + destruct (Rle_lt_dec (Rabs x) (fold_right Rmax 0 (map Rabs (y :: ts)))) as [L|L].
      * exists z. split; [now right|]. rewrite Rmax_right by exact L. exact Ez.
      * exists x. split; [now left|]. apply Rmax_left. lra.
    + intros u [<-|Hu]; [apply Rmax_l|]. eapply Rle_trans; [now apply HB|apply Rmax_r].
Qed.

Theorem peak_is_pga dt a fa m tf : a <> [] -> new_motion dt a fa = Ok m -> exists n, fft_length (length a) fa n /\
  (Z.even n = true -> (Z.of_nat (length a) <= n)%Z -> unit_tf m tf ->
   exists p, calc_peak m tf = Ok p /\ is_peak a p).
Proof.
  intros Hne H. destruct (round_trip dt a fa m tf H) as (n & HL & HR). exists n. split; [exact HL|]. intros He Hl Hu.
  destruct (HR He Hu) as (ts & E & Hp). unfold calc_peak. rewrite E. cbn [bind]. eexists. split; [reflexivity|].
  assert (Hts : ts = a ++ repeat 0 (Z.to_nat n - length a)).
  { apply (is_padded_unique (Z.to_nat n) a); [exact Hp|]. rewrite <- fit_all by lia. apply fit_padded. }
  assert (Hts' : ts <> []) by (rewrite Hts; destruct a; [congruence|discriminate]).
  destruct (peak_of_spec ts Hts') as [(x & Hx & Ex) HB]. split.
  - rewrite Hts in Hx. apply in_app_or in Hx. destruct Hx as [Hx|Hx]; [now exists x|].
    apply repeat_spec in Hx. subst x. destruct a as [|y a]; [congruence|]. exists y. split; [now left|].
    rewrite Ex. apply Rle_antisym.
    + rewrite Rabs_R0. apply Rabs_pos.
    + rewrite <- Ex. apply HB. rewrite Hts. now left.
  - intros y Hy. apply HB. rewrite Hts. apply in_or_app. now left.
Qed.

(** Records of fewer than two samples have no response at all. *)
Theorem short_record dt a m : (length a < 2)%nat -> new_motion dt a None = Ok m -> calc_time_series m None = Err ValueError.
Proof.
  intros Hl H. destruct (new_motion_inv _ _ _ _ H) as (n & HL & Hn & Hdt & Ed & Ea & EA & EF).
  assert (n = 1%Z).
  { destruct HL as [P HS]. assert (smallest_power (length a) 1).
    { split; [now exists 0%nat|]. split; [lia|]. intros j _. assert (2 ^ j <> 0)%nat by (apply Nat.pow_nonzero; lia). lia. }
    pose proof (smallest_power_unique _ _ _ HS H0). lia. }
  subst n. unfold calc_time_series. cbn [bind]. unfold irfft, fourier_amps. rewrite !map_length, EA, map_length, seq_length. reflexivity.
Qed.

(** With an odd FFT length of at least 3, arrays at the motion's frequencies are
    refused: no transfer function or oscillator can be applied. *)
Theorem odd_length_fails dt a n m tf : Z.odd n = true -> (3 <= n)%Z -> new_motion dt a (Some n) = Ok m ->
  length tf = length (t_freqs m) -> calc_time_series m (Some (OArray tf)) = Err ValueError.
Proof.
  intros Ho Hn H HL. destruct (frequency_count _ _ _ _ H) as (n' & E & _ & HA & _ & HF). cbn in E. subst n'.
  assert (He : Z.even n = false) by (rewrite <- Z.negb_odd, Ho; reflexivity). specialize (HF He).
  unfold calc_time_series, np_mul. assert (LA : length (fourier_amps m) = length (t_amps m)) by (unfold fourier_amps; now rewrite map_length).
  assert (H2 : (2 <= length (t_amps m))%nat).
  { rewrite HA. assert (1 <= n / 2)%Z by (apply Z.div_le_lower_bound; lia). lia. }
  destruct (Nat.eqb_spec (length tf) (length (fourier_amps m))) as [G|_]; [lia|].
  destruct tf as [|z [|z' tf]]; cbn in HL; try lia.
  destruct (fourier_amps m) as [|y [|y' A]] eqn:EA; cbn in LA; try lia. reflexivity.
Qed.

(** * C75: the spectrum of the response *)
Theorem response_spectrum dt a n m tf : Z.even n = true -> new_motion dt a (Some n) = Ok m ->
  length tf = length (t_freqs m) ->
  exists ts rec, calc_time_series m (Some (OArray tf)) = Ok ts /\ is_padded (Z.to_nat n) a rec /\ length ts = Z.to_nat n /\
  forall k t x z, nth_error tf k = Some t -> fourier_sum rec k x -> fourier_sum ts k z ->
    Re z = Re (Cmult t x) /\
    Im z = if (Nat.eqb k 0 || Nat.eqb (2 * k) (length ts))%bool then 0 else Im (Cmult t x).
Proof.
  intros He H HL. destruct (frequency_count _ _ _ _ H) as (n' & E & Hn & HA & HF & _). cbn in E. subst n'.
  pose proof (proj2 HF He) as LF.
  destruct (new_motion_inv _ _ _ _ H) as (n' & E & _ & Hdt & Ed & Ea & EA & EF). cbn in E. subst n'.
  destruct (even_half n Hn He) as (h & Hh & En & Ez).
  assert (EA' : t_amps m = map (dft (2 * h) (fit (2 * h) a)) (seq 0 (S h))).
  { rewrite EA, En. do 2 f_equal. rewrite Nat.mul_comm, Nat.div_mul by lia. reflexivity. }
  assert (LA : length (t_amps m) = S h) by (rewrite EA', map_length, seq_length; reflexivity).
  rewrite En. exists (map (inv_sample h (map (fun z => Cdiv z (RtoC (t_dt m))) (map2 Cmult tf (fourier_amps m)))) (seq 0 (2 * h))), (fit (2 * h) a).
  assert (LM : length (map2 Cmult tf (fourier_amps m)) = S h).
  { unfold map2, fourier_amps. rewrite map_length, combine_length, map_length. lia. }
  split.
  { unfold calc_time_series, np_mul. unfold fourier_amps at 1. rewrite map_length, HL, LF, Nat.eqb_refl. cbn [bind].
    apply response_of; [now rewrite Ed|exact Hh|exact LM]. }
  split; [apply fit_padded|]. split; [now rewrite map_length, seq_length|].
  intros k t x z Ht Hx Hz. destruct (fit_padded (2 * h) a) as [Lf _].
  unfold fourier_sum in Hx, Hz. cbv zeta in Hx, Hz. rewrite Lf in Hx. rewrite map_length, seq_length in Hz. rewrite map_length, seq_length.
  assert (Hk : (k <= h)%nat) by (assert (k < length tf)%nat by (apply nth_error_Some; congruence); lia).
  assert (Ez' : z = dft (2 * h) (map (inv_sample h (map (fun z => Cdiv z (RtoC (t_dt m))) (map2 Cmult tf (fourier_amps m)))) (seq 0 (2 * h))) k) by exact Hz.
  clear Hz. rewrite transform_of_inverse in Ez' by assumption.
  assert (Ex : nth k (map (fun z => Cdiv z (RtoC (t_dt m))) (map2 Cmult tf (fourier_amps m))) (RtoC 0) = Cmult t x).
  { apply nth_error_nth. rewrite (map_nth_error _ _ _ (d := Cmult t (Cmult (RtoC (t_dt m)) x))).
    - f_equal. rewrite <- (dt_cancel (t_dt m) (Cmult t x)) by (now rewrite Ed). f_equal. ring.
    - unfold map2. rewrite (map_nth_error _ _ _ (d := (t, Cmult (RtoC (t_dt m)) x))); [reflexivity|].
      apply nth_error_combine; [exact Ht|]. unfold fourier_amps. apply map_nth_error. rewrite EA'.
      rewrite (map_nth_error _ _ _ (d := k)); [now rewrite Hx|].
      rewrite (nth_error_nth' _ 0%nat) by (rewrite seq_length; lia). rewrite seq_nth by lia. reflexivity. }
  rewrite Ex in Ez'. subst z. cbn [Re Im fst snd]. split; [reflexivity|].
  replace (Nat.eqb (2 * k) (2 * h)) with (Nat.eqb k h); [reflexivity|].
  destruct (Nat.eqb_spec k h), (Nat.eqb_spec (2 * k) (2 * h)); try reflexivity; lia.
Qed.

(** * C49: the oscillator *)
Definition sdof_den (f0 xi f : R) : R := (f ^ 2 - f0 ^ 2) ^ 2 + (2 * xi * f0 * f) ^ 2.
Lemma sdof_den_pos f0 xi f : 0 < f0 -> 0 < xi -> 0 < sdof_den f0 xi f.
Proof.
  intros H0 Hx. unfold sdof_den. pose proof (pow2_ge_0 (f ^ 2 - f0 ^ 2)). pose proof (pow2_ge_0 (2 * xi * f0 * f)).
  destruct (Req_dec f 0) as [->|Nf].
  - assert (0 < (0 ^ 2 - f0 ^ 2) ^ 2) by (apply pow2_gt_0; nra). lra.
  - assert (0 < (2 * xi * f0 * f) ^ 2); [|lra]. apply pow2_gt_0.
    repeat apply Rmult_integral_contrapositive_currified; lra.
Qed.
Lemma sdof_pair f0 xi f : 0 < f0 -> 0 < xi ->
  sdof_tf f0 xi f = (f0 ^ 2 * (f0 ^ 2 - f ^ 2) / sdof_den f0 xi f, - (f0 ^ 2 * (2 * xi * f0 * f)) / sdof_den f0 xi f).
Proof.
  intros H0 Hx. pose proof (sdof_den_pos f0 xi f H0 Hx) as HD. unfold sdof_tf, sdof_den in *.
  unfold Cdiv, Cinv, Cmult, Cminus, Cplus, Copp, RtoC, Ci. cbn [fst snd].
  apply injective_projections; cbn [fst snd]; field; lra.
Qed.

Theorem sdof_zero f0 xi : 0 < f0 -> 0 < xi -> sdof_tf f0 xi 0 = RtoC 1.
Proof.
  intros H0 Hx. rewrite sdof_pair by assumption. unfold sdof_den, RtoC. apply injective_projections; cbn [fst snd]; field; lra.
Qed.
Theorem sdof_magnitude f0 xi f : 0 < f0 -> 0 < xi -> let r := f / f0 in
  0 < (1 - r ^ 2) ^ 2 + (2 * xi * r) ^ 2 /\
  Cmod (sdof_tf f0 xi f) ^ 2 = 1 / ((1 - r ^ 2) ^ 2 + (2 * xi * r) ^ 2).
Proof.
  intros H0 Hx r. pose proof (sdof_den_pos f0 xi f H0 Hx) as HD.
  assert (ED : sdof_den f0 xi f = f0 ^ 4 * ((1 - r ^ 2) ^ 2 + (2 * xi * r) ^ 2)) by (unfold sdof_den, r; field; lra).
  assert (HP : 0 < (1 - r ^ 2) ^ 2 + (2 * xi * r) ^ 2).
  { rewrite ED in HD. assert (0 < f0 ^ 4) by (apply pow_lt; lra). nra. }
  split; [exact HP|]. rewrite sdof_pair by assumption. unfold Cmod. cbn [fst snd]. rewrite <- Rsqr_pow2, Rsqr_sqrt by (apply Rplus_le_le_0_compat; apply pow2_ge_0).
  replace ((f0 ^ 2 * (f0 ^ 2 - f ^ 2) / sdof_den f0 xi f) ^ 2 + (- (f0 ^ 2 * (2 * xi * f0 * f)) / sdof_den f0 xi f) ^ 2)
    with (f0 ^ 4 / sdof_den f0 xi f) by (unfold sdof_den in *; field; lra).
  rewrite ED. field. split; lra.
Qed.

(** The real part of the transfer function applied to a harmonic ground
    acceleration is the pseudo-acceleration of the damped oscillator. *)
Theorem sdof_oscillator f0 xi f phase : 0 < f0 -> 0 < xi ->
  let w := 2 * PI * f in let w0 := 2 * PI * f0 in
  let a := fun t => cos (w * t + phase) in
  let u := fun t => - (Re (sdof_tf f0 xi f) * cos (w * t + phase) - Im (sdof_tf f0 xi f) * sin (w * t + phase)) / w0 ^ 2 in
  oscillates w0 xi a u.
Proof.
  intros H0 Hx. pose proof (sdof_den_pos f0 xi f H0 Hx) as HD. pose proof PI_RGT_0 as HPI.
  rewrite (sdof_pair f0 xi f H0 Hx). cbv beta iota delta [Re Im fst snd]. intros w w0 a u.
  set (p := f0 ^ 2 * (f0 ^ 2 - f ^ 2) / sdof_den f0 xi f) in *.
  set (q := - (f0 ^ 2 * (2 * xi * f0 * f)) / sdof_den f0 xi f) in *.
  assert (Hw0 : w0 <> 0) by (unfold w0; nra).
  exists (fun t => w * (p * sin (w * t + phase) + q * cos (w * t + phase)) / w0 ^ 2),
         (fun t => w ^ 2 * (p * cos (w * t + phase) - q * sin (w * t + phase)) / w0 ^ 2).
  split; [|split].
  - intros t. unfold u. auto_derive; [exact I|]. field. exact Hw0.
  - intros t. auto_derive; [exact I|]. field. exact Hw0.
  - intros t. unfold u, a. set (c := cos (w * t + phase)). set (s := sin (w * t + phase)).
    assert (E1 : w ^ 2 * p - w0 ^ 2 * p + 2 * xi * w0 * w * q = - w0 ^ 2).
    { unfold w, w0, p, q, sdof_den in *. field. lra. }
    assert (E2 : - w ^ 2 * q + w0 ^ 2 * q + 2 * xi * w0 * w * p = 0).
    { unfold w, w0, p, q, sdof_den in *. field. lra. }
    replace (w ^ 2 * (p * c - q * s) / w0 ^ 2 + 2 * xi * w0 * (w * (p * s + q * c) / w0 ^ 2) + w0 ^ 2 * (- (p * c - q * s) / w0 ^ 2))
      with (((w ^ 2 * p - w0 ^ 2 * p + 2 * xi * w0 * w * q) * c + (- w ^ 2 * q + w0 ^ 2 * q + 2 * xi * w0 * w * p) * s) / w0 ^ 2)
      by (field; exact Hw0).
    rewrite E1, E2. field. exact Hw0.
Qed.

(** For an even FFT length of at least two the oscillator responses exist, and
    each is the peak of the response with the oscillator's transfer function. *)
Theorem osc_accels_defined dt a n m xi fs : Z.even n = true -> new_motion dt a (Some n) = Ok m ->
  exists ps, calc_osc_accels m fs xi None = Ok ps /\ length ps = length fs /\
  forall i f0 p, nth_error fs i = Some f0 -> nth_error ps i = Some p ->
    exists ts, calc_time_series m (Some (OArray (map (sdof_tf f0 xi) (t_freqs m)))) = Ok ts /\ is_peak ts p.
Proof.
  intros He H. destruct (new_motion_inv _ _ _ _ H) as (n' & E & Hn & Hdt & Ed & Ea & EA & EF). cbn in E. subst n'.
  assert (H1 : forall f0, exists p ts, osc_accel m xi None f0 = Ok p /\
     calc_time_series m (Some (OArray (map (sdof_tf f0 xi) (t_freqs m)))) = Ok ts /\ is_peak ts p).
  { intros f0. destruct (response_spectrum dt a n m (map (sdof_tf f0 xi) (t_freqs m)) He H ltac:(now rewrite map_length)) as (ts & rec & E & _ & L & _).
    exists (peak_of ts), ts. split; [|split; [exact E|]].
    - unfold osc_accel, np_mul. rewrite !map_length, Nat.eqb_refl. cbn [bind].
      replace (map2 Cmult (map (fun _ => RtoC 1) (t_freqs m)) (map (sdof_tf f0 xi) (t_freqs m))) with (map (sdof_tf f0 xi) (t_freqs m)).
      + unfold calc_peak. now rewrite E.
      + clear. induction (t_freqs m) as [|x l IH]; [reflexivity|]. unfold map2 in *. cbn. rewrite Cmult_1_l. f_equal. exact IH.
    - apply peak_of_spec. intros ->. cbn in L. lia. }
  induction fs as [|f0 fs IH]; cbn [calc_osc_accels].
  - exists []. split; [reflexivity|]. split; [reflexivity|]. intros [|i]; discriminate.
  - destruct IH as (ps & Ep & Lp & Hp). destruct (H1 f0) as (p & ts & E1 & E2 & E3). rewrite E1, Ep. cbn [bind].
    exists (p :: ps). split; [reflexivity|]. split; [cbn; now rewrite Lp|]. intros [|i] g r Hg Hr.
    + injection Hg as <-. injection Hr as <-. now exists ts.
    + now apply (Hp i).
Qed.

(** Arias intensity of the motion: that of the record plus the last half step to
    zero when the record is padded. *)
Lemma area_zeros dt k : area dt (repeat 0 k) = 0.
Proof. induction k as [|k IH]; [reflexivity|]. cbn [repeat]. destruct k; [reflexivity|]. cbn [repeat] in *. cbn [area] in *. rewrite IH. field. Qed.
Lemma area_snoc dt xs x k : area dt ((xs ++ (x :: nil)) ++ repeat 0 (S k)) = area dt (xs ++ (x :: nil)) + dt * x / 2.
Proof.
  induction xs as [|y xs IH].
  - cbn [app]. change (repeat 0 (S k)) with (0 :: repeat 0 k). cbn [area]. fold (area dt (0 :: repeat 0 k)).
    pose proof (area_zeros dt (S k)) as Z. cbn [repeat] in Z. destruct k; cbn [repeat area] in *; lra.
  - cbn [app] in *. destruct xs as [|z xs].
    + cbn [app] in *. change (area dt (y :: x :: repeat 0 (S k))) with (dt * (y + x) / 2 + area dt (x :: repeat 0 (S k))).
      change (area dt (y :: x :: nil)) with (dt * (y + x) / 2 + area dt (x :: nil)). rewrite IH. ring.
    + cbn [app] in *.
      change (area dt (y :: z :: (xs ++ (x :: nil)) ++ repeat 0 (S k))) with (dt * (y + z) / 2 + area dt (z :: (xs ++ (x :: nil)) ++ repeat 0 (S k))).
      change (area dt (y :: z :: xs ++ (x :: nil))) with (dt * (y + z) / 2 + area dt (z :: xs ++ (x :: nil))). rewrite IH. ring.
Qed.

Theorem arias_of_record dt xs x n m : (Z.of_nat (length (xs ++ (x :: nil))) <= n)%Z -> Z.even n = true ->
  new_motion dt (xs ++ (x :: nil)) (Some n) = Ok m ->
  motion_arias m None = Ok (PI * GRAVITY / 2 * (area dt (map (fun a => a ^ 2) (xs ++ (x :: nil))) +
    (if (Z.of_nat (length (xs ++ (x :: nil))) <? n)%Z then dt * x ^ 2 / 2 else 0))).
Proof.
  intros Hl He H. destruct (round_trip _ _ _ _ (Some (OScalar (RtoC 1))) H) as (n' & E & HR). cbn in E. subst n'.
  destruct (HR He ltac:(right; now left)) as (ts & Ets & Hp).
  destruct (new_motion_inv _ _ _ _ H) as (n' & E & Hn & _ & Ed & _). cbn in E. subst n'.
  assert (Hts : ts = (xs ++ (x :: nil)) ++ repeat 0 (Z.to_nat n - length (xs ++ (x :: nil)))).
  { apply (is_padded_unique (Z.to_nat n) (xs ++ (x :: nil))); [exact Hp|]. rewrite <- fit_all by lia. apply fit_padded. }
  unfold motion_arias, one_or. rewrite Ets. cbn [bind]. rewrite Ed. do 2 f_equal. unfold calc_arias_intensity. f_equal. rewrite trapezoid_area, Hts.
  rewrite map_app. replace (map (fun a => a ^ 2) (repeat 0 (Z.to_nat n - length (xs ++ (x :: nil))))) with (repeat 0 (Z.to_nat n - length (xs ++ (x :: nil)))).
  2:{ clear. induction (Z.to_nat n - length (xs ++ (x :: nil)))%nat as [|k IH]; [reflexivity|]. cbn [repeat map]. rewrite <- IH. f_equal. ring. }
  rewrite map_app. cbn [map]. destruct (Z.ltb_spec (Z.of_nat (length (xs ++ (x :: nil)))) n) as [L|L].
  - replace (Z.to_nat n - length (xs ++ (x :: nil)))%nat with (S (Z.to_nat n - length (xs ++ (x :: nil)) - 1)) by lia. apply area_snoc.
  - replace (Z.to_nat n - length (xs ++ (x :: nil)))%nat with 0%nat by lia. cbn [repeat]. rewrite app_nil_r. ring.
Qed.
