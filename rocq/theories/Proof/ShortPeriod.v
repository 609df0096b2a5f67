(** Stiff oscillators follow the ground: C158. *)
From Verif Require Import Common Model.Layer Model.Averages Model.Output Model.Motion Model.Waves Model.Eql Model.Results
  Spec.OutputSpec Spec.MotionSpec Spec.WaveSpec Spec.EqlSpec
  Spec.ResultsSpec Spec.IntensitySpec Proof.CommonFacts Proof.CurveFacts Proof.WaveFacts Proof.WaveProps Proof.OutputValues Proof.MotionFacts
  Proof.MotionProps Proof.EqlFacts Proof.EqlProps Proof.EqlPhysical Proof.ResultsProps Proof.ResultsRuns Proof.ResultsDefined Proof.IntensityProps
  Proof.CplxFacts Proof.ResponseEnergy.
From Coquelicot Require Import Coquelicot.
Local Open Scope R_scope.

Lemma series_form dt a fa m n h t : new_motion dt a fa = Ok m -> fft_length (length a) fa n -> Z.even n = true ->
  Z.to_nat n = (2 * h)%nat -> length t = length (t_freqs m) ->
  calc_time_series m (Some (OArray t)) =
  Ok (map (inv_sample h (map (fun z => Cdiv z (RtoC (t_dt m))) (map2 Cmult t (fourier_amps m)))) (seq 0 (2 * h))).
Proof.
  intros H Hn He Eh HL. destruct (even_motion _ _ _ _ _ H Hn He) as (h' & Hh & En & EI & Hd & Ed & EA & EF).
  assert (h' = h) by lia. subst h'.
  assert (LT : length t = S h) by (rewrite HL, EF, map_length, seq_length; reflexivity).
  assert (LA : length (fourier_amps m) = S h) by (unfold fourier_amps; rewrite map_length, EA, map_length, seq_length; reflexivity).
  unfold calc_time_series. unfold np_mul. rewrite LT, LA, Nat.eqb_refl. cbn [bind].
  apply response_of; [congruence|exact Hh|]. rewrite map2_len; congruence.
Qed.

(** The response to the difference of two transfer functions. *)
Lemma series_diff dt a fa m n t1 t2 s1 s2 : new_motion dt a fa = Ok m -> fft_length (length a) fa n -> Z.even n = true ->
  length t1 = length (t_freqs m) -> length t2 = length (t_freqs m) ->
  calc_time_series m (Some (OArray t1)) = Ok s1 -> calc_time_series m (Some (OArray t2)) = Ok s2 ->
  exists s, calc_time_series m (Some (OArray (map2 Cminus t1 t2))) = Ok s /\ length s = length s1 /\ length s2 = length s1 /\
    forall j, nth j s 0 = nth j s1 0 - nth j s2 0.
Proof.
  intros H Hn He L1 L2 E1 E2. destruct (even_motion _ _ _ _ _ H Hn He) as (h & Hh & En & EI & Hd & Ed & EA & EF).
  rewrite (series_form _ _ _ _ _ h t1 H Hn He En L1) in E1. rewrite (series_form _ _ _ _ _ h t2 H Hn He En L2) in E2.
  assert (L : length (map2 Cminus t1 t2) = length (t_freqs m)) by (rewrite map2_len; congruence).
  rewrite (series_form _ _ _ _ _ h _ H Hn He En L). eexists. split; [reflexivity|].
  injection E1 as <-. injection E2 as <-. rewrite !map_length. split; [reflexivity|]. split; [reflexivity|]. intros j.
  assert (NM : forall (A : list C), nth j (map (inv_sample h A) (seq 0 (2 * h))) 0 = if Nat.ltb j (2 * h) then inv_sample h A j else 0).
  { intros A. destruct (Nat.ltb_spec j (2 * h)) as [J|J].
    - rewrite (nth_indep _ 0 (inv_sample h A 0)) by (rewrite map_length, seq_length; exact J). rewrite map_nth, seq_nth by exact J. reflexivity.
    - apply nth_overflow. rewrite map_length, seq_length. exact J. }
  rewrite !NM. destruct (Nat.ltb j (2 * h)); [|ring].
  assert (Dz : Cdiv (RtoC 0) (RtoC (t_dt m)) = RtoC 0) by (unfold Cdiv; ring).
  rewrite (inv_comb 1 (-1) h (map (fun z => Cdiv z (RtoC (t_dt m))) (map2 Cmult t1 (fourier_amps m)))
    (map (fun z => Cdiv z (RtoC (t_dt m))) (map2 Cmult t2 (fourier_amps m)))); [ring|].
  intros k. rewrite !(nth_map0 (fun z => Cdiv z (RtoC (t_dt m)))) by exact Dz. rewrite !nth_map2_mult.
  assert (ND : forall (xs ys : list C) k, length xs = length ys -> nth k (map2 Cminus xs ys) (RtoC 0) = Cminus (nth k xs (RtoC 0)) (nth k ys (RtoC 0))).
  { unfold map2. clear. induction xs as [|x xs IH]; intros [|y ys] [|k] E; cbn [combine map nth]; try discriminate; try reflexivity; try (unfold Cminus; ring).
    apply IH. now injection E. }
  rewrite ND by congruence. unfold Cdiv. replace (RtoC (-1)) with (Copp (RtoC 1)) by (now rewrite <- RtoC_opp). ring.
Qed.

(** Peaks of series that stay close. *)
Lemma peaks_close s1 s2 p1 p2 e : length s1 = length s2 -> is_peak s1 p1 -> is_peak s2 p2 ->
  (forall j, Rabs (nth j s1 0 - nth j s2 0) <= e) -> Rabs (p1 - p2) <= e.
Proof.
  intros L [(x & Hx & ->) B1] [(y & Hy & ->) B2] E. apply Rabs_le_between'.
  apply (In_nth _ _ 0) in Hx, Hy. destruct Hx as (i & Li & Hi). destruct Hy as (j & Lj & Hj).
  pose proof (E i) as Ei. pose proof (E j) as Ej. rewrite Hi in Ei. rewrite Hj in Ej.
  assert (Q1 : Rabs (nth j s1 0) <= Rabs x) by (apply B1, nth_In; lia).
  assert (Q2 : Rabs (nth i s2 0) <= Rabs y) by (apply B2, nth_In; lia).
  pose proof (Rabs_triang_inv x (nth i s2 0)). pose proof (Rabs_triang_inv y (nth j s1 0)) as T.
  rewrite Rabs_minus_sym in T. lra.
Qed.

(** How far the oscillator is from rigid. *)
Lemma sdof_rigid f0 xi f F : 0 < xi -> 0 <= f <= F -> F < f0 ->
  Cmod (Cminus (sdof_tf f0 xi f) (RtoC 1)) <= ((F / f0) ^ 2 + 2 * xi * (F / f0)) / (1 - (F / f0) ^ 2).
Proof.
  intros X [F0 F1] F2. assert (P0 : 0 < f0) by lra. set (r := f / f0). set (R0 := F / f0).
  assert (r0 : 0 <= r) by (unfold r, Rdiv; apply Rmult_le_pos; [lra|left; now apply Rinv_0_lt_compat]).
  assert (rR : r <= R0) by (unfold r, R0, Rdiv; apply Rmult_le_compat_r; [left; now apply Rinv_0_lt_compat|exact F1]).
  assert (R1 : R0 < 1) by (unfold R0; apply Rlt_div_l; lra).
  set (d := Cplus (RtoC (1 - r ^ 2)) (Cmult Ci (RtoC (2 * xi * r)))).
  assert (Hd : 1 - r ^ 2 <= Cmod d).
  { apply Rle_trans with (Rabs (Re d)); [|apply CplxFacts.Cmod_Re_le]. unfold d, Cplus, Cmult, Ci, RtoC, Re; cbn [fst snd].
    eapply Rle_trans; [|apply Rle_abs]. lra. }
  assert (r2 : r ^ 2 <= R0 ^ 2) by (apply pow_incr; lra). assert (R2 : R0 ^ 2 < 1) by nra.
  assert (Nd : d <> RtoC 0) by (intros E; rewrite E, Cmod_0 in Hd; lra).
  assert (E : Cminus (sdof_tf f0 xi f) (RtoC 1) = Cdiv (Cminus (RtoC (r ^ 2)) (Cmult Ci (RtoC (2 * xi * r)))) d).
  { assert (S1 : sdof_tf f0 xi f = Cdiv (RtoC 1) d).
    { unfold sdof_tf. replace (Cminus (RtoC (f ^ 2 - f0 ^ 2)) _) with (Cmult (RtoC (- f0 ^ 2)) d).
      - assert (N2 : RtoC (- f0 ^ 2) <> RtoC 0) by (apply RtoC_neq_0; nra). revert N2 Nd. generalize (RtoC (- f0 ^ 2)) as x, d as y. intros x y Nx Ny. field. split; assumption.
      - unfold d, r. apply injective_projections; unfold Cminus, Cplus, Copp, Cmult, Ci, RtoC; cbn [fst snd]; field; lra. }
    rewrite S1. replace (Cminus (RtoC (r ^ 2)) (Cmult Ci (RtoC (2 * xi * r)))) with (Cminus (RtoC 1) d); [field; exact Nd|].
    unfold d. apply injective_projections; unfold Cminus, Cplus, Copp, Cmult, Ci, RtoC; cbn [fst snd]; ring. }
  rewrite E, Cmod_div by exact Nd.
  assert (NU : Cmod (Cminus (RtoC (r ^ 2)) (Cmult Ci (RtoC (2 * xi * r)))) <= r ^ 2 + 2 * xi * r).
  { unfold Cminus. eapply Rle_trans; [apply Cmod_triangle|]. rewrite Cmod_opp, Cmod_mult, !Cmod_R.
    assert (C1 : Cmod Ci = 1) by (unfold Cmod, Ci; cbn [fst snd]; replace (0 ^ 2 + 1 ^ 2) with 1 by ring; apply sqrt_1).
    rewrite C1, (Rabs_pos_eq (r ^ 2)) by apply pow2_ge_0. rewrite Rabs_pos_eq by nra. lra. }
  unfold Rdiv. apply Rmult_le_compat; [apply Cmod_ge_0|left; apply Rinv_0_lt_compat; lra| |].
  - eapply Rle_trans; [exact NU|]. nra.
  - apply Rinv_le_contravar; lra.
Qed.

(** * C158 *)
Theorem stiff_oscillator dt a fa m n rec tf ts p g xi f0 s : new_motion dt a fa = Ok m -> fft_length (length a) fa n -> Z.even n = true ->
  is_padded (Z.to_nat n) a rec -> length tf = length (t_freqs m) -> List.Forall (fun t => Cmod t <= g) tf ->
  calc_time_series m (Some (OArray tf)) = Ok ts -> is_peak ts p ->
  0 < dt -> 0 < xi -> / (2 * dt) < f0 -> calc_osc_accels m (cons f0 nil) xi (Some tf) = Ok (cons s nil) ->
  let r := / (2 * dt) / f0 in
  Rabs (s - p) <= g * ((r ^ 2 + 2 * xi * r) / (1 - r ^ 2)) * sqrt (energy rec).
Proof.
  intros H Hn He Hp HL HG Hts Pk D X F0 Hs r. destruct (even_motion _ _ _ _ _ H Hn He) as (h & Hh & En & EI & Hd & Ed & EA & EF).
  set (e := (r ^ 2 + 2 * xi * r) / (1 - r ^ 2)). assert (Ph : 0 < INR h) by (apply lt_0_INR; lia).
  assert (P2 : 0 < / (2 * dt)) by (apply Rinv_0_lt_compat; lra).
  set (H1 := map (sdof_tf f0 xi) (t_freqs m)).
  assert (LH : length H1 = length (t_freqs m)) by (unfold H1; apply map_length).
  set (t2 := map2 Cmult tf H1). assert (L2 : length t2 = length (t_freqs m)) by (unfold t2; rewrite map2_len; congruence).
  cbn [calc_osc_accels] in Hs. unfold osc_accel in Hs. fold H1 in Hs. unfold np_mul in Hs.
  rewrite HL, LH, Nat.eqb_refl in Hs. cbn [bind] in Hs. fold t2 in Hs. unfold calc_peak in Hs.
  pose proof (series_form _ _ _ _ _ h t2 H Hn He En L2) as E2. set (s2 := map _ _) in E2. rewrite E2 in Hs. cbn [bind] in Hs. injection Hs as <-.
  assert (N2 : s2 <> []). { intros Z. apply (f_equal (@length R)) in Z. unfold s2 in Z. rewrite map_length, seq_length in Z. cbn in Z. lia. }
  destruct (series_diff _ _ _ _ _ t2 tf s2 ts H Hn He L2 HL E2 Hts) as (sd & Esd & Ld & Lt & Nd).
  assert (GD : List.Forall (fun t => Cmod t <= g * e) (map2 Cminus t2 tf)).
  { apply List.Forall_forall. intros t Ht.
    assert (FR : List.Forall (fun f => 0 <= f <= / (2 * dt)) (t_freqs m)).
    { rewrite EF. apply List.Forall_forall. intros f Hf. apply in_map_iff in Hf. destruct Hf as (k & <- & Hk). apply in_seq in Hk.
      assert (PD : 0 < 2 * INR h * dt) by nra. split.
      - apply Rmult_le_pos; [apply pos_INR|left; now apply Rinv_0_lt_compat].
      - assert (INR k <= INR h) by (apply le_INR; lia). apply (Rmult_le_reg_r (2 * INR h * dt)); [exact PD|].
        replace (INR k / (2 * INR h * dt) * (2 * INR h * dt)) with (INR k) by (field; lra).
        replace (/ (2 * dt) * (2 * INR h * dt)) with (INR h) by (field; lra). assumption. }
    revert HL HG FR Ht. unfold t2, H1. generalize (t_freqs m) as fs. clear - F0 X P2 e r. revert tf. 
    unfold map2. induction tf as [|t0 tf IH]; intros [|f fs] HL HG FR Ht; cbn in *; try discriminate; [contradiction|].
    inversion HG as [|? ? G1 G2]; subst. inversion FR as [|? ? Q1 Q2]; subst. destruct Ht as [<-|Ht]; [|apply (IH fs); auto].
    replace (Cminus (Cmult t0 (sdof_tf f0 xi f)) t0) with (Cmult t0 (Cminus (sdof_tf f0 xi f) (RtoC 1))) by (unfold Cminus; ring).
    rewrite Cmod_mult. apply Rmult_le_compat; try apply Cmod_ge_0; [exact G1|]. now apply sdof_rigid. }
  destruct (response_energy dt a fa m n rec (map2 Cminus t2 tf) sd (g * e) H Hn He Hp) as [_ PK];
    [rewrite map2_len; congruence|exact Esd|exact GD|].
  assert (Nsd : sd <> []).
  { intros Z. rewrite Z in Ld. apply N2. apply length_zero_iff_nil. now rewrite <- Ld. }
  pose proof (peak_of_spec sd Nsd) as PS. specialize (PK _ PS).
  assert (G0 : 0 <= g).
  { destruct tf as [|t0 tf']; [|inversion HG as [|? ? G1 _]; subst; eapply Rle_trans; [apply Cmod_ge_0|exact G1]].
    exfalso. cbn in HL. rewrite EF, map_length, seq_length in HL. discriminate. }
  assert (R1 : 0 < r < 1).
  { unfold r. split; [apply Rdiv_lt_0_compat; lra|]. apply Rlt_div_l; lra. }
  assert (E0 : 0 <= e). { unfold e, Rdiv. apply Rmult_le_pos; [nra|]. left. apply Rinv_0_lt_compat. nra. }
  apply (peaks_close s2 ts); [congruence|now apply peak_of_spec|exact Pk|].
  intros j. rewrite <- Nd. apply Rle_trans with (peak_of sd).
  - destruct (Nat.lt_ge_cases j (length sd)) as [J|J]; [apply PS, nth_In; exact J|].
    rewrite nth_overflow, Rabs_R0 by exact J. destruct PS as [(x & _ & ->) _]. apply Rabs_pos.
  - assert (P0 : 0 <= peak_of sd) by (destruct PS as [(x & _ & ->) _]; apply Rabs_pos).
    rewrite <- (sqrt_pow2 (peak_of sd) P0). rewrite <- (sqrt_pow2 (g * e)) by (apply Rmult_le_pos; assumption).
    rewrite <- sqrt_mult_alt by apply pow2_ge_0. apply sqrt_le_1_alt. exact PK.
Qed.

Lemma energy_padded n a rec : (length a <= n)%nat -> is_padded n a rec -> energy rec = energy a.
Proof.
  intros L P. rewrite (is_padded_unique n a rec (a ++ repeat 0 (n - length a)) P).
  - unfold energy. rewrite map_app, Rsum_app. replace (Rsum (map (fun x => x ^ 2) (repeat 0 (n - length a)))) with 0; [ring|].
    symmetry. apply Rsum_zero. intros x Hx. apply repeat_spec in Hx. subst x. ring.
  - rewrite <- fit_all by exact L. apply fit_padded.
Qed.

Theorem stiff_record dt a fa m n p xi f0 s : a <> nil -> new_motion dt a fa = Ok m -> fft_length (length a) fa n -> Z.even n = true ->
  (Z.of_nat (length a) <= n)%Z -> is_peak a p ->
  0 < dt -> 0 < xi -> / (2 * dt) < f0 -> calc_osc_accels m (cons f0 nil) xi None = Ok (cons s nil) ->
  let r := / (2 * dt) / f0 in
  Rabs (s - p) <= (r ^ 2 + 2 * xi * r) / (1 - r ^ 2) * sqrt (energy a).
Proof.
  intros Na H Hn He Hl Pk D X F0 Hs r. set (ones := map (fun _ => RtoC 1) (t_freqs m)).
  assert (UT : unit_tf m (Some (OArray ones))) by (right; right; reflexivity).
  destruct (round_trip dt a fa m (Some (OArray ones)) H) as (n' & Hn' & RT). rewrite (fft_length_unique _ _ _ _ Hn' Hn) in *.
  destruct (RT He UT) as (ts & Ets & Pts).
  destruct (peak_is_pga dt a fa m (Some (OArray ones)) Na H) as (n2 & Hn2 & PG). rewrite (fft_length_unique _ _ _ _ Hn2 Hn) in PG.
  destruct (PG He Hl UT) as (p' & Ep & Pp'). unfold calc_peak in Ep. rewrite Ets in Ep. cbn [bind] in Ep. injection Ep as Ep.
  assert (PP : p' = p).
  { destruct Pp' as [(x & Hx & ->) B1]. destruct Pk as [(y & Hy & ->) B2]. apply Rle_antisym; auto. }
  assert (Nts : ts <> []).
  { intros Z. rewrite Z in Pts. destruct Pts as [L _]. assert (length a <> 0%nat) by (destruct a; [congruence|discriminate]).
    cbn in L. lia. }
  pose proof (peak_of_spec ts Nts) as PS. rewrite Ep, PP in PS.
  assert (G1 : List.Forall (fun t => Cmod t <= 1) ones).
  { apply List.Forall_forall. intros t Ht. unfold ones in Ht. apply in_map_iff in Ht. destruct Ht as (f & <- & _). rewrite Cmod_R, Rabs_R1. lra. }
  pose proof (stiff_oscillator dt a fa m n ts ones ts p 1 xi f0 s H Hn He Pts ltac:(unfold ones; apply map_length) G1 Ets PS D X F0 Hs) as B.
  cbv zeta in B. fold r in B. rewrite Rmult_1_l in B. rewrite (energy_padded (Z.to_nat n) a ts) in B; [exact B|lia|exact Pts].
Qed.

(** The limit of stiffer and stiffer oscillators. *)
Theorem stiff_limit dt a fa m n tf ts p xi : new_motion dt a fa = Ok m -> fft_length (length a) fa n -> Z.even n = true ->
  length tf = length (t_freqs m) -> calc_time_series m (Some (OArray tf)) = Ok ts -> is_peak ts p -> 0 < dt -> 0 < xi ->
  forall eps, 0 < eps -> exists F, forall f0 s, F < f0 ->
    calc_osc_accels m (cons f0 nil) xi (Some tf) = Ok (cons s nil) -> Rabs (s - p) < eps.
Proof.
  intros H Hn He HL Hts Pk D X eps Pe.
  set (g := fold_right Rmax 0 (map Cmod tf)).
  assert (G : List.Forall (fun t => Cmod t <= g) tf).
  { unfold g. clear. induction tf as [|t tf IH]; constructor; cbn; [apply Rmax_l|].
    eapply List.Forall_impl; [|exact IH]. intros u Hu. cbn in Hu. eapply Rle_trans; [exact Hu|apply Rmax_r]. }
  assert (G0 : 0 <= g) by (unfold g; clear; induction tf as [|t tf IH]; cbn; [lra|]; eapply Rle_trans; [exact IH|apply Rmax_r]).
  set (rec := Motion.fit (Z.to_nat n) a). set (K := g * sqrt (energy rec)).
  assert (K0 : 0 <= K) by (apply Rmult_le_pos; [exact G0|apply sqrt_pos]).
  assert (P2 : 0 < / (2 * dt)) by (apply Rinv_0_lt_compat; lra).
  exists (Rmax (/ dt) ((1 + 4 * xi) * K * / (2 * dt) / eps)). intros f0 s Hf Hs.
  pose proof (Rmax_l (/ dt) ((1 + 4 * xi) * K * / (2 * dt) / eps)). pose proof (Rmax_r (/ dt) ((1 + 4 * xi) * K * / (2 * dt) / eps)) as M2.
  assert (E2 : / dt = 2 * / (2 * dt)) by (field; lra).
  assert (F1 : / (2 * dt) < f0) by lra.
  pose proof (stiff_oscillator dt a fa m n rec tf ts p g xi f0 s H Hn He (fit_padded _ _) HL G Hts Pk D X F1 Hs) as B. cbv zeta in B.
  set (r := / (2 * dt) / f0) in *. assert (Pf : 0 < f0) by lra.
  assert (R1 : 0 < r < 1 / 2).
  { unfold r. split; [apply Rdiv_lt_0_compat; lra|]. apply Rlt_div_l; lra. }
  assert (R2 : (1 + 4 * xi) * K * r < eps).
  { apply (Rmult_lt_reg_r f0); [exact Pf|]. replace ((1 + 4 * xi) * K * r * f0) with ((1 + 4 * xi) * K * / (2 * dt)) by (unfold r; field; lra).
    assert (Q : (1 + 4 * xi) * K * / (2 * dt) / eps < f0) by lra.
    apply (Rmult_lt_compat_r eps) in Q; [|exact Pe]. replace ((1 + 4 * xi) * K * / (2 * dt) / eps * eps) with ((1 + 4 * xi) * K * / (2 * dt)) in Q by (field; lra). lra. }
  eapply Rle_lt_trans; [exact B|]. eapply Rle_lt_trans; [|exact R2].
  replace (g * ((r ^ 2 + 2 * xi * r) / (1 - r ^ 2)) * sqrt (energy rec)) with (K * ((r ^ 2 + 2 * xi * r) / (1 - r ^ 2))) by (unfold K; ring).
  replace ((1 + 4 * xi) * K * r) with (K * ((1 + 4 * xi) * r)) by ring. apply Rmult_le_compat_l; [exact K0|].
  apply Rle_div_l; [nra|]. assert (r ^ 2 <= r / 2) by nra. assert (0 <= xi * r) by nra.
  apply Rle_trans with ((1 + 4 * xi) * r * (3 / 4)); [nra|]. apply Rmult_le_compat_l; [nra|]. nra.
Qed.
