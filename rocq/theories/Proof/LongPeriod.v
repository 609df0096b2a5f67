(** Soft oscillators: C160. *)
From Verif Require Import Common Model.Layer Model.Averages Model.Output Model.Motion Model.Waves Model.Eql Model.Results
  Spec.OutputSpec Spec.MotionSpec Spec.WaveSpec Spec.EqlSpec
  Spec.ResultsSpec Spec.IntensitySpec Proof.CommonFacts Proof.CurveFacts Proof.WaveFacts Proof.WaveProps Proof.OutputValues Proof.MotionFacts
  Proof.MotionProps Proof.EqlFacts Proof.EqlProps Proof.EqlPhysical Proof.ResultsProps Proof.ResultsRuns Proof.ResultsDefined Proof.IntensityProps
  Proof.CplxFacts Proof.ResponseEnergy Proof.TableProps Proof.ShortPeriod.
From Coquelicot Require Import Coquelicot.
Local Open Scope R_scope.

(** Spectral acceleration and the peak of another response. *)
Lemma spectrum_close dt a fa m n rec tf tf' ts p e xi f0 s : new_motion dt a fa = Ok m -> fft_length (length a) fa n -> Z.even n = true ->
  is_padded (Z.to_nat n) a rec -> length tf = length (t_freqs m) -> length tf' = length (t_freqs m) ->
  calc_time_series m (Some (OArray tf')) = Ok ts -> is_peak ts p -> 0 <= e ->
  List.Forall (fun t => Cmod t <= e) (map2 Cminus (map2 Cmult tf (map (sdof_tf f0 xi) (t_freqs m))) tf') ->
  calc_osc_accels m (cons f0 nil) xi (Some tf) = Ok (cons s nil) ->
  Rabs (s - p) <= e * sqrt (energy rec).
Proof.
  intros H Hn He Hp HL HL' Hts Pk E0 GD Hs. destruct (even_motion _ _ _ _ _ H Hn He) as (h & Hh & En & EI & Hd & Ed & EA & EF).
  set (H1 := map (sdof_tf f0 xi) (t_freqs m)) in *.
  assert (LH : length H1 = length (t_freqs m)) by (unfold H1; apply map_length).
  set (t2 := map2 Cmult tf H1) in *. assert (L2 : length t2 = length (t_freqs m)) by (unfold t2; rewrite map2_len; congruence).
  cbn [calc_osc_accels] in Hs. unfold osc_accel in Hs. fold H1 in Hs. unfold np_mul in Hs.
  rewrite HL, LH, Nat.eqb_refl in Hs. cbn [bind] in Hs. fold t2 in Hs. unfold calc_peak in Hs.
  pose proof (series_form _ _ _ _ _ h t2 H Hn He En L2) as E2. set (s2 := map _ _) in E2. rewrite E2 in Hs. cbn [bind] in Hs. injection Hs as <-.
  assert (N2 : s2 <> []). { intros Z. apply (f_equal (@length R)) in Z. unfold s2 in Z. rewrite map_length, seq_length in Z. cbn in Z. lia. }
  destruct (series_diff _ _ _ _ _ t2 tf' s2 ts H Hn He L2 HL' E2 Hts) as (sd & Esd & Ld & Lt & Nd).
  destruct (response_energy dt a fa m n rec (map2 Cminus t2 tf') sd e H Hn He Hp) as [_ PK];
    [rewrite map2_len; congruence|exact Esd|exact GD|].
  assert (Nsd : sd <> []).
  { intros Z. rewrite Z in Ld. apply N2. apply length_zero_iff_nil. now rewrite <- Ld. }
  pose proof (peak_of_spec sd Nsd) as PS. specialize (PK _ PS).
  apply (peaks_close s2 ts); [congruence|now apply peak_of_spec|exact Pk|].
  intros j. rewrite <- Nd. apply Rle_trans with (peak_of sd).
  - destruct (Nat.lt_ge_cases j (length sd)) as [J|J]; [apply PS, nth_In; exact J|].
    rewrite nth_overflow, Rabs_R0 by exact J. destruct PS as [(x & _ & ->) _]. apply Rabs_pos.
  - assert (P0 : 0 <= peak_of sd) by (destruct PS as [(x & _ & ->) _]; apply Rabs_pos).
    rewrite <- (sqrt_pow2 (peak_of sd) P0). rewrite <- (sqrt_pow2 e) by exact E0.
    rewrite <- sqrt_mult_alt by apply pow2_ge_0. apply sqrt_le_1_alt. exact PK.
Qed.

(** The oscillator hardly responds above its frequency. *)
Lemma sdof_soft f0 xi f F : 0 < xi -> 0 < f0 -> f0 < F -> F <= f ->
  Cmod (sdof_tf f0 xi f) <= (f0 / F) ^ 2 / (1 - (f0 / F) ^ 2).
Proof.
  intros X P0 F1 F2. unfold sdof_tf. set (d := Cminus _ _).
  assert (Hd : f ^ 2 - f0 ^ 2 <= Cmod d).
  { apply Rle_trans with (Rabs (Re d)); [|apply CplxFacts.Cmod_Re_le]. unfold d, Cminus, Cplus, Copp, Cmult, Ci, RtoC, Re; cbn [fst snd].
    eapply Rle_trans; [|apply Rle_abs]. lra. }
  assert (G : F ^ 2 <= f ^ 2) by (apply pow_incr; lra). assert (G2 : f0 ^ 2 < F ^ 2) by nra.
  assert (Nd : d <> RtoC 0) by (intros E; rewrite E, Cmod_0 in Hd; lra).
  rewrite Cmod_div by exact Nd. rewrite Cmod_R. replace (Rabs (- f0 ^ 2)) with (f0 ^ 2) by (rewrite Rabs_Ropp, Rabs_pos_eq; nra).
  replace ((f0 / F) ^ 2 / (1 - (f0 / F) ^ 2)) with (f0 ^ 2 / (F ^ 2 - f0 ^ 2)) by (field; repeat split; apply Rgt_not_eq; nra).
  unfold Rdiv. apply Rmult_le_compat_l; [nra|]. apply Rinv_le_contravar; lra.
Qed.

(** The response to the zero frequency alone. *)
Lemma offset_series dt a fa m n rec t0 h : new_motion dt a fa = Ok m -> fft_length (length a) fa n -> Z.even n = true ->
  Z.to_nat n = (2 * h)%nat -> is_padded (Z.to_nat n) a rec ->
  calc_time_series m (Some (OArray (cons t0 (repeat (RtoC 0) h)))) = Ok (map (fun _ => Re t0 * (Rsum rec / INR (length rec))) (seq 0 (2 * h))).
Proof.
  intros H Hn He Eh Hp. destruct (even_motion _ _ _ _ _ H Hn He) as (h' & Hh & En & EI & Hd & Ed & EA & EF).
  assert (h' = h) by lia. subst h'. assert (Ph : 0 < INR h) by (apply lt_0_INR; lia).
  rewrite (series_form _ _ _ _ _ h _ H Hn He En) by (rewrite EF; cbn; now rewrite repeat_length, !map_length, seq_length).
  f_equal. apply map_ext. intros j. rewrite En in Hp.
  rewrite (is_padded_unique _ _ rec (Motion.fit (2 * h) a) Hp (fit_padded _ _)).
  assert (LF : length (Motion.fit (2 * h) a) = (2 * h)%nat) by (apply (fit_padded (2 * h) a)).
  set (A := map _ _). assert (NZ : forall k, nth (S k) A (RtoC 0) = RtoC 0).
  { intros k. unfold A. rewrite (nth_map0 (fun z => Cdiv z (RtoC (t_dt m)))) by (unfold Cdiv; ring). rewrite nth_map2_mult.
    cbn [nth]. rewrite nth_repeat. unfold Cdiv. ring. }
  assert (N0 : nth 0 A (RtoC 0) = Cmult t0 (RtoC (Rsum (Motion.fit (2 * h) a)))).
  { unfold A. rewrite (nth_map0 (fun z => Cdiv z (RtoC (t_dt m)))) by (unfold Cdiv; ring). rewrite nth_map2_mult. cbn [nth].
    unfold fourier_amps. rewrite EA. cbn [seq map nth]. rewrite Ed.
    replace (dft (2 * h) (Motion.fit (2 * h) a) 0) with (RtoC (Rsum (Motion.fit (2 * h) a))).
    - field. intros E. apply (f_equal Re) in E. cbn in E. contradiction.
    - unfold dft, RtoC. apply injective_projections; cbn [fst snd].
      + rewrite <- (map_id (Motion.fit (2 * h) a)) at 1. rewrite <- (map_nth_seq (fun x => x) (Motion.fit (2 * h) a) 0), LF. f_equal. apply map_ext.
        intros i. cbn [INR]. replace (2 * PI * INR i * 0 / INR (2 * h)) with 0 by (unfold Rdiv; ring). rewrite cos_0. ring.
      + rewrite Rsum_zero; [ring|]. intros i _.
        cbn [INR]. replace (2 * PI * INR i * 0 / INR (2 * h)) with 0 by (unfold Rdiv; ring). rewrite sin_0. ring. }
  unfold inv_sample. rewrite N0. destruct h as [|h]; [lia|]. rewrite NZ. rewrite Rsum_zero.
  2: { intros k Hk. apply in_seq in Hk. destruct k as [|k]; [lia|]. rewrite NZ. unfold Re, Im, RtoC; cbn [fst snd]. ring. }
  rewrite LF. rewrite mult_INR. change (INR 2) with 2. unfold Re, Cmult, RtoC; cbn [fst snd]. field. lra.
Qed.

Theorem soft_oscillator dt a fa m n rec tf t0 g xi f0 s : new_motion dt a fa = Ok m -> fft_length (length a) fa n -> Z.even n = true ->
  is_padded (Z.to_nat n) a rec -> length tf = length (t_freqs m) -> List.Forall (fun t => Cmod t <= g) tf -> hd_error tf = Some t0 ->
  0 < dt -> 0 < xi -> 0 < f0 < / (IZR n * dt) -> calc_osc_accels m (cons f0 nil) xi (Some tf) = Ok (cons s nil) ->
  let r := f0 * (IZR n * dt) in
  Rabs (s - Rabs (Re t0 * (Rsum rec / INR (length rec)))) <= g * (r ^ 2 / (1 - r ^ 2)) * sqrt (energy rec).
Proof.
  intros H Hn He Hp HL HG H0 D X [F0 F1] Hs r. destruct (even_motion _ _ _ _ _ H Hn He) as (h & Hh & En & EI & Hd & Ed & EA & EF).
  assert (Ph : 0 < INR h) by (apply lt_0_INR; lia). set (F := / (IZR n * dt)) in *.
  assert (PN : 0 < IZR n * dt) by (rewrite EI; nra). assert (PF : 0 < F) by (unfold F; now apply Rinv_0_lt_compat).
  assert (ER : r = f0 / F) by (unfold r, F; field; lra).
  assert (R1 : 0 < r < 1). { rewrite ER. split; [now apply Rdiv_lt_0_compat|]. apply Rlt_div_l; lra. }
  destruct tf as [|t tf]; [discriminate|]. injection H0 as ->.
  assert (LT : length tf = h) by (rewrite EF, map_length, seq_length in HL; cbn in HL; lia).
  assert (G0 : 0 <= g) by (inversion HG as [|? ? G1 _]; subst; eapply Rle_trans; [apply Cmod_ge_0|exact G1]).
  apply (spectrum_close dt a fa m n rec (cons t0 tf) (cons t0 (repeat (RtoC 0) h))
    (map (fun _ => Re t0 * (Rsum rec / INR (length rec))) (seq 0 (2 * h))) _ _ xi f0 s H Hn He Hp HL); [| | | | |exact Hs].
  - cbn. rewrite repeat_length, <- LT. exact HL.
  - exact (offset_series _ _ _ _ _ _ _ _ H Hn He En Hp).
  - split.
    + exists (Re t0 * (Rsum rec / INR (length rec))). split; [|reflexivity]. apply in_map_iff. exists 0%nat. split; [reflexivity|]. apply in_seq. lia.
    + intros x Hx. apply in_map_iff in Hx. destruct Hx as (_ & <- & _). apply Rle_refl.
  - apply Rmult_le_pos; [exact G0|]. unfold Rdiv. apply Rmult_le_pos; [nra|]. left. apply Rinv_0_lt_compat. nra.
  - rewrite EF. cbn [seq map]. unfold map2 at 2. cbn [combine map]. unfold map2 at 1. cbn [combine map]. constructor.
    + cbn [INR]. replace (0 / (2 * INR h * dt)) with 0 by (unfold Rdiv; ring). rewrite (sdof_zero f0 xi F0 X).
      cbn [fst snd]. replace (Cminus (Cmult t0 (RtoC 1)) t0) with (RtoC 0) by (unfold Cminus; ring). rewrite Cmod_0.
      apply Rmult_le_pos; [exact G0|]. unfold Rdiv. apply Rmult_le_pos; [nra|]. left. apply Rinv_0_lt_compat. nra.
    + assert (FR : List.Forall (fun f => F <= f) (map (fun k => INR k / (2 * INR h * dt)) (seq 1 h))).
      { apply List.Forall_forall. intros f Hf. apply in_map_iff in Hf. destruct Hf as (k & <- & Hk). apply in_seq in Hk.
        unfold F. rewrite EI. assert (1 <= INR k) by (change 1 with (INR 1); apply le_INR; lia).
        replace (/ (2 * INR h * dt)) with (1 / (2 * INR h * dt)) by (unfold Rdiv; ring). unfold Rdiv. apply Rmult_le_compat_r; [|lra].
        left. apply Rinv_0_lt_compat. nra. }
      assert (HG' : List.Forall (fun t => Cmod t <= g) tf) by (inversion HG; assumption). revert FR HG'. rewrite <- LT at 3. clear LT.
      generalize (map (fun k => INR k / (2 * INR h * dt)) (seq 1 h)) as fs.
      rewrite ER. clear - F0 F1 X G0. unfold map2. induction tf as [|t tf IH]; intros [|f fs] FR HG; cbn; try constructor.
      * inversion HG as [|? ? G1 _]; subst. inversion FR as [|? ? Q1 _]; subst.
        replace (Cminus (Cmult t (sdof_tf f0 xi f)) (RtoC 0)) with (Cmult t (sdof_tf f0 xi f)) by (unfold Cminus; ring).
        rewrite Cmod_mult. apply Rmult_le_compat; try apply Cmod_ge_0; [exact G1|]. now apply sdof_soft.
      * inversion HG; subst. inversion FR; subst. now apply IH.
Qed.

(** Limit: the magnitude of the mean of the padded record. *)
Theorem soft_limit dt a fa m n rec tf t0 xi : new_motion dt a fa = Ok m -> fft_length (length a) fa n -> Z.even n = true ->
  is_padded (Z.to_nat n) a rec -> length tf = length (t_freqs m) -> hd_error tf = Some t0 -> 0 < dt -> 0 < xi ->
  forall eps, 0 < eps -> exists F, 0 < F /\ forall f0 s, 0 < f0 < F ->
    calc_osc_accels m (cons f0 nil) xi (Some tf) = Ok (cons s nil) -> Rabs (s - Rabs (Re t0 * (Rsum rec / INR (length rec)))) < eps.
Proof.
  intros H Hn He Hp HL H0 D X eps Pe.
  set (g := fold_right Rmax 0 (map Cmod tf)).
  assert (G : List.Forall (fun t => Cmod t <= g) tf).
  { unfold g. clear. induction tf as [|t tf IH]; constructor; cbn; [apply Rmax_l|].
    eapply List.Forall_impl; [|exact IH]. intros u Hu. cbn in Hu. eapply Rle_trans; [exact Hu|apply Rmax_r]. }
  assert (G0 : 0 <= g) by (unfold g; clear; induction tf as [|t tf IH]; cbn; [lra|]; eapply Rle_trans; [exact IH|apply Rmax_r]).
  destruct (even_motion _ _ _ _ _ H Hn He) as (h & Hh & En & EI & _).
  assert (Ph : 0 < INR h) by (apply lt_0_INR; lia). assert (PN : 0 < IZR n * dt) by (rewrite EI; nra).
  set (K := g * sqrt (energy rec)). assert (K0 : 0 <= K) by (apply Rmult_le_pos; [exact G0|apply sqrt_pos]).
  set (N := IZR n * dt) in *. set (q := Rmin (1 / 2) (eps / (1 + K))).
  assert (Q0 : 0 < q) by (unfold q; apply Rmin_pos; [lra|apply Rdiv_lt_0_compat; lra]).
  pose proof (Rmin_l (1 / 2) (eps / (1 + K))) as Q1. pose proof (Rmin_r (1 / 2) (eps / (1 + K))) as Q2. fold q in Q1, Q2.
  exists (q / N). split; [now apply Rdiv_lt_0_compat|]. intros f0 s [F0 F1] Hs.
  assert (FN : f0 * N < q) by (apply Rlt_div_r; assumption).
  assert (FI : f0 < / N). { apply (Rmult_lt_reg_r N); [exact PN|]. rewrite Rinv_l by lra. lra. }
  pose proof (soft_oscillator dt a fa m n rec tf t0 g xi f0 s H Hn He Hp HL G H0 D X (conj F0 FI) Hs) as B. cbv zeta in B. fold N in B.
  set (r := f0 * N) in *. assert (r0 : 0 < r) by (unfold r; now apply Rmult_lt_0_compat).
  eapply Rle_lt_trans; [exact B|]. replace (g * (r ^ 2 / (1 - r ^ 2)) * sqrt (energy rec)) with (K * (r ^ 2 / (1 - r ^ 2))) by (unfold K; ring).
  assert (B1 : r ^ 2 / (1 - r ^ 2) <= q). { apply Rle_div_l; [nra|]. assert (r ^ 2 <= q * (1 / 2)) by nra. assert (q * (3 / 4) <= q * (1 - r ^ 2)) by (apply Rmult_le_compat_l; nra). nra. }
  eapply Rle_lt_trans; [apply Rmult_le_compat_l; [exact K0|exact B1]|].
  apply Rle_lt_trans with (K * (eps / (1 + K))); [now apply Rmult_le_compat_l|].
  apply (Rmult_lt_reg_r (1 + K)); [lra|]. replace (K * (eps / (1 + K)) * (1 + K)) with (K * eps) by (field; lra). nra.
Qed.
