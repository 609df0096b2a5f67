(** The outputs of a run depend continuously on the site. *)
From Verif Require Import Common Model.Curve Model.Layer Model.Profile Model.Cplx Model.Waves Model.Eql.
From Verif Require Import Model.Averages Model.Output Model.Motion Model.Results.
From Verif Require Import Spec.ProfileSpec Spec.MotionSpec Spec.WaveSpec Spec.EqlSpec Spec.ResultsSpec Spec.IntensitySpec Spec.ContinuitySpec.
From Verif Require Import Proof.CommonFacts Proof.MotionFacts Proof.MotionProps Proof.CplxFacts Proof.WaveFacts Proof.WaveProps Proof.WaveEnergy
  Proof.CurveFacts Proof.EqlFacts Proof.EqlProps Proof.EqlPhysical Proof.EqlResults Proof.ResultsProps Proof.ResultsRuns Proof.ResultsDefined
  Proof.ResponseEnergy Proof.ShortPeriod Proof.WaveContinuity Proof.StrainRows Proof.CompatibleExists Proof.CompatibleRecord.
From Coq Require Import List.
From Coquelicot Require Import Complex.
Local Open Scope R_scope.

Lemma wave_rest L rs loc : List.Forall sound L -> calc_waves_python 0 (map wlayer_of L) = Ok rs -> (loc_index loc < length L)%nat ->
  wave_at_location rs loc = Ok (Some (match loc_field loc with IncomingOnly => RtoC 1 | _ => RtoC 2 end)).
Proof.
  intros HF H Hl. apply zero_rows in H.
  unfold wave_at_location. subst rs. rewrite rows_nth, map_length.
  destruct (nth_error (map wlayer_of L) (loc_index loc)) as [l|] eqn:E.
  2:{ apply nth_error_None in E. rewrite map_length in E. lia. }
  rewrite (nth_error_repeat _ Hl). cbn [fst snd].
  assert (Hv : wl_vel l <> RtoC 0).
  { apply nth_error_In in E. apply in_map_iff in E. destruct E as (l1 & <- & Hin).
    rewrite Forall_forall in HF. now apply sound_vel, HF. }
  unfold wave_at; cbn [r_k r_a r_b]. rewrite wave_num_some by assumption.
  assert (Hc0 : cterm (Cdiv (RtoC 0) (wl_vel l)) (loc_within loc) = RtoC 0) by (unfold cterm, Cdiv; ring).
  rewrite Hc0. replace (Copp (RtoC 0)) with (RtoC 0) by ring. rewrite Cexp_0. unfold c_one.
  destruct (loc_field loc); f_equal; f_equal; rewrite <- ?RtoC_mult, <- ?RtoC_plus; apply f_equal; lra.
Qed.

Section Near.
  Variable L0 : list layer.
  Variable lin lout : wloc.
  Hypothesis S0 : List.Forall sound L0.
  Hypothesis Hlin : (loc_index lin < length L0)%nat.
  Hypothesis Fin : loc_field lin <> Within.
  Hypothesis Hlout : (loc_index lout < length L0)%nat.

  Lemma accel_row_close w eps : w = 0 \/ 1e-8 < w -> 0 < eps -> exists d, 0 < d /\
    forall L1, List.Forall sound L1 -> Forall2 (near_layer d) L1 L0 ->
    forall rs rs0 t t0, calc_waves_numba w (map wlayer_of L1) = Ok rs -> calc_waves_numba w (map wlayer_of L0) = Ok rs0 ->
    calc_accel_tf rs lin lout = Ok (Some t) -> calc_accel_tf rs0 lin lout = Ok (Some t0) -> Cmod (Cminus t t0) < eps.
  Proof.
    intros Hw He. assert (NE : L0 <> []) by (intros ->; cbn in Hlin; lia).
    destruct (numba_sound w L0 NE S0 Hw) as (rs0 & N0 & P0).
    assert (NUM : forall L1 rs, L1 <> [] -> List.Forall sound L1 -> calc_waves_numba w (map wlayer_of L1) = Ok rs -> calc_waves_python w (map wlayer_of L1) = Ok rs).
    { intros L1 rs NE1 S1 E. destruct (numba_sound w L1 NE1 S1 Hw) as (r & A & B). congruence. }
    assert (LEN : forall d L1, Forall2 (near_layer d) L1 L0 -> length L1 = length L0) by (intros d L1 H; clear - H; induction H; cbn; congruence).
    destruct Hw as [Hw|Hw].
    - exists 1. split; [lra|]. intros L1 S1 NL rs rs0' t t0 E1 E2 T1 T2. pose proof (LEN _ _ NL) as LN.
      assert (NE1 : L1 <> []) by (intros ->; inversion NL; congruence).
      apply NUM in E1; auto. apply NUM in E2; auto. subst w.
      unfold calc_accel_tf in T1, T2.
      rewrite (wave_rest L1 rs lout), (wave_rest L1 rs lin) in T1; auto; try (rewrite LN; assumption).
      rewrite (wave_rest L0 rs0' lout), (wave_rest L0 rs0' lin) in T2; auto.
      assert (Q : Some t = Some t0) by (rewrite T2 in T1; congruence). injection Q as ->.
      unfold Cminus. rewrite Cplus_opp_r, Cmod_0. exact He.
    - destruct (upgoing_motion w L0 rs0 Hw S0 P0 lin Hlin Fin) as (x & X1 & X2).
      destruct lin as [i1 u1 f1] eqn:E1. destruct lout as [i2 u2 f2] eqn:E2. cbn [loc_field loc_index] in *.
      destruct (tf_continuous w L0 rs0 i1 u1 f1 i2 u2 f2) as (tf1 & st & T0 & _ & HC);
        [rewrite Rabs_pos_eq; lra|exact S0|exact P0|exact Hlin|exact Hlout|rewrite X1; intros Q; apply X2; congruence|].
      destruct (HC eps He) as (d & Hd & HC1). exists d. split; [exact Hd|].
      intros L1 S1 NL rs rs0' t t0 Ers Ers0 Et Et0.
      assert (rs0' = rs0) by congruence. subst rs0'.
      destruct (HC1 w L1 u1 u2) as (rs' & tf' & st' & P' & T' & B & _);
        [rewrite Rminus_diag_eq by reflexivity; rewrite Rabs_R0; exact Hd|exact NL
        |rewrite Rminus_diag_eq by reflexivity; rewrite Rabs_R0; exact Hd|rewrite Rminus_diag_eq by reflexivity; rewrite Rabs_R0; exact Hd|].
      assert (NE1 : L1 <> []) by (intros ->; inversion NL; congruence).
      apply NUM in Ers; auto. assert (rs' = rs) by congruence. subst rs'.
      replace t with tf' by congruence. replace t0 with tf1 by congruence. exact B.
  Qed.

  Lemma accel_rows_close ws eps : List.Forall (fun w => w = 0 \/ 1e-8 < w) ws -> 0 < eps -> exists d, 0 < d /\
    forall L1, List.Forall sound L1 -> Forall2 (near_layer d) L1 L0 ->
    forall wv wv0 tf tf0, mapM (fun w => calc_waves_numba w (map wlayer_of L1)) ws = Ok wv ->
    mapM (fun w => calc_waves_numba w (map wlayer_of L0)) ws = Ok wv0 ->
    mapM (fun rs => calc_accel_tf rs lin lout) wv = Ok (map Some tf) ->
    mapM (fun rs => calc_accel_tf rs lin lout) wv0 = Ok (map Some tf0) ->
    Forall2 (fun a b => Cmod (Cminus a b) < eps) tf tf0.
  Proof.
    intros HF He. induction HF as [|w ws Hw HF IH].
    - exists 1. split; [lra|]. intros L1 _ _ wv wv0 tf tf0 E1 E2 E3 E4. cbn in E1, E2. injection E1 as <-. injection E2 as <-. cbn in E3, E4.
      destruct tf; [|discriminate]. destruct tf0; [|discriminate]. constructor.
    - destruct IH as (d1 & Hd1 & IH). destruct (accel_row_close w eps Hw He) as (d2 & Hd2 & HR).
      exists (Rmin d1 d2). split; [now apply Rmin_pos|]. intros L1 S1 NL wv wv0 tf tf0 E1 E2 E3 E4.
      pose proof (near_weaken _ d1 _ _ (Rmin_l d1 d2) NL) as NL1. pose proof (near_weaken _ d2 _ _ (Rmin_r d1 d2) NL) as NL2.
      cbn [mapM] in E1, E2.
      destruct (calc_waves_numba w (map wlayer_of L1)) as [rs|] eqn:R1; [|discriminate]. cbn [bind] in E1.
      destruct (mapM _ ws) as [wv'|] eqn:M1 in E1; [|discriminate]. cbn [bind] in E1. injection E1 as <-.
      destruct (calc_waves_numba w (map wlayer_of L0)) as [rs0|] eqn:R2; [|discriminate]. cbn [bind] in E2.
      destruct (mapM _ ws) as [wv0'|] eqn:M2 in E2; [|discriminate]. cbn [bind] in E2. injection E2 as <-.
      cbn [mapM] in E3, E4.
      destruct (calc_accel_tf rs lin lout) as [t|] eqn:T1; [|discriminate]. cbn [bind] in E3.
      destruct (mapM _ wv') as [tf'|] eqn:Q1 in E3; [|discriminate]. cbn [bind] in E3.
      destruct (calc_accel_tf rs0 lin lout) as [t0|] eqn:T2; [|discriminate]. cbn [bind] in E4.
      destruct (mapM _ wv0') as [tf0'|] eqn:Q2 in E4; [|discriminate]. cbn [bind] in E4.
      destruct tf as [|z tf]; [discriminate|]. destruct tf0 as [|z0 tf0]; [discriminate|]. cbn [map] in E3, E4.
      assert (A1 : t = Some z) by congruence. assert (A2 : tf' = map Some tf) by congruence.
      assert (A3 : t0 = Some z0) by congruence. assert (A4 : tf0' = map Some tf0) by congruence. subst.
      constructor; [apply (HR L1 S1 NL2 rs rs0); auto|]. apply (IH L1 S1 NL1 wv' wv0'); auto.
  Qed.
End Near.

Lemma interp_near x eps xs : 0 < eps -> forall ys ys', near_array eps ys' ys ->
  Rabs (np_interp x (combine xs ys') - np_interp x (combine xs ys)) < eps.
Proof.
  intros He. assert (Z : Rabs (0 - 0) < eps) by (rewrite Rminus_diag_eq by reflexivity; rewrite Rabs_R0; exact He).
  induction xs as [|x0 xs IH]; intros ys ys' H; [exact Z|].
  inversion H as [|y0' y0 ys1' ys1 H0 H1]; subst; [exact Z|]. specialize (IH _ _ H1). cbn [combine np_interp].
  destruct xs as [|x1 xs]; [exact H0|]. inversion H1 as [|y1' y1 ys2' ys2 H2 H3]; subst; [exact H0|].
  cbn [combine] in *. destruct (Rltb x x1) eqn:E1; [|exact IH]. destruct (Rleb x x0) eqn:E2; [exact H0|].
  apply Rltb_true in E1. apply Rleb_false in E2.
  assert (D : 0 < x1 - x0) by lra. set (t := (x - x0) / (x1 - x0)).
  assert (T : 0 <= t <= 1).
  { unfold t. split; [apply Rmult_le_pos; [lra|left; now apply Rinv_0_lt_compat]|].
    apply (Rmult_le_reg_r (x1 - x0)); [exact D|]. unfold Rdiv. rewrite Rmult_assoc, Rinv_l by lra. lra. }
  replace ((y1' - y0') / (x1 - x0) * (x - x0) + y0' - ((y1 - y0) / (x1 - x0) * (x - x0) + y0))
    with ((1 - t) * (y0' - y0) + t * (y1' - y1)) by (unfold t; field; lra).
  eapply Rle_lt_trans; [apply Rabs_triang|]. rewrite !Rabs_mult, (Rabs_pos_eq t), (Rabs_pos_eq (1 - t)) by lra.
  apply Rle_lt_trans with (Rmax (Rabs (y0' - y0)) (Rabs (y1' - y1))); [|now apply Rmax_lub_lt].
  pose proof (Rmax_l (Rabs (y0' - y0)) (Rabs (y1' - y1))). pose proof (Rmax_r (Rabs (y0' - y0)) (Rabs (y1' - y1))). nra.
Qed.

Lemma resample_near fs xs ys ys' vs vs' eps : 0 < eps -> near_array eps ys' ys ->
  resample None fs xs ys = Ok vs -> resample None fs xs ys' = Ok vs' -> near_array eps vs' vs.
Proof.
  intros He H. unfold resample. destruct (Nat.eqb _ _); [|discriminate]. destruct (Nat.eqb _ _); [|discriminate].
  intros E E'. injection E as <-. injection E' as <-. unfold near_array.
  induction fs as [|f fs IH]; cbn [map]; constructor; [now apply interp_near|exact IH].
Qed.

(** Samples of the responses to two transfer functions. *)
Lemma series_lipschitz dt a fa m n rec t1 t2 s1 s2 g : new_motion dt a fa = Ok m -> fft_length (length a) fa n -> Z.even n = true ->
  is_padded (Z.to_nat n) a rec -> length t1 = length (t_freqs m) -> length t2 = length (t_freqs m) ->
  List.Forall (fun t => Cmod t <= g) (map2 Cminus t1 t2) ->
  calc_time_series m (Some (OArray t1)) = Ok s1 -> calc_time_series m (Some (OArray t2)) = Ok s2 -> 0 <= g ->
  Forall2 (fun x y => Rabs (x - y) <= g * sqrt (energy rec)) s1 s2.
Proof.
  intros H Hn He Hp L1 L2 HG E1 E2 G0.
  destruct (series_diff _ _ _ _ _ t1 t2 s1 s2 H Hn He L1 L2 E1 E2) as (sd & Esd & Ld & Lt & Nd).
  destruct (response_energy dt a fa m n rec (map2 Cminus t1 t2) sd g H Hn He Hp) as [_ PK];
    [rewrite map2_len; congruence|exact Esd|exact HG|].
  assert (Nsd : sd <> []) by exact (series_nonempty _ _ _ Esd).
  pose proof (peak_of_spec sd Nsd) as PS. specialize (PK _ PS).
  assert (B : peak_of sd <= g * sqrt (energy rec)).
  { assert (P0 : 0 <= peak_of sd) by (destruct PS as [(x & _ & ->) _]; apply Rabs_pos).
    rewrite <- (sqrt_pow2 (peak_of sd) P0). rewrite <- (sqrt_pow2 g) at 1 by assumption.
    rewrite <- sqrt_mult_alt by apply pow2_ge_0. apply sqrt_le_1_alt. exact PK. }
  assert (HB : forall j, (j < length s1)%nat -> Rabs (nth j s1 0 - nth j s2 0) <= g * sqrt (energy rec)).
  { intros j Hj. rewrite <- Nd. eapply Rle_trans; [|exact B]. apply PS, nth_In. now rewrite Ld. }
  clear - HB Lt. revert s2 Lt HB. induction s1 as [|x s1 IH]; intros [|y s2] L HB; try discriminate; constructor.
  - exact (HB 0%nat ltac:(cbn; lia)).
  - apply IH; [cbn in L; lia|]. intros j Hj. exact (HB (S j) ltac:(cbn; lia)).
Qed.

Definition near_tf (d : R) (t' t : list C) : Prop := Forall2 (fun a b => Cmod (Cminus a b) < d) t' t.

Lemma near_tf_len d t' t : near_tf d t' t -> length t' = length t.
Proof. intros H. induction H; cbn; congruence. Qed.
Lemma near_tf_diff d t' t : near_tf d t' t -> List.Forall (fun z => Cmod z <= d) (map2 Cminus t' t).
Proof. intros HF. unfold map2. induction HF; cbn; constructor; [lra|assumption]. Qed.

Lemma series_near dt a fa m n t ts eps : new_motion dt a fa = Ok m -> fft_length (length a) fa n -> Z.even n = true ->
  length t = length (t_freqs m) -> calc_time_series m (Some (OArray t)) = Ok ts -> 0 < eps ->
  exists d, 0 < d /\ forall t' ts', near_tf d t' t -> calc_time_series m (Some (OArray t')) = Ok ts' -> near_array eps ts' ts.
Proof.
  intros H Hn He Lt Es E0. destruct (response_spectrum dt a n m t He (length_given _ _ _ _ _ H Hn) Lt) as (ts0 & rec & _ & Hp & _).
  set (q := sqrt (energy rec)). assert (Q : 0 <= q) by apply sqrt_pos.
  assert (D0 : 0 < eps / (q + 1)) by (apply Rdiv_lt_0_compat; lra).
  exists (eps / (q + 1)). split; [exact D0|]. intros t' ts' HN E'.
  assert (HB : Forall2 (fun x y => Rabs (x - y) <= eps / (q + 1) * q) ts' ts).
  { apply (series_lipschitz dt a fa m n rec t' t); auto; [|now apply near_tf_diff|lra].
    rewrite (near_tf_len _ _ _ HN). exact Lt. }
  assert (K : eps / (q + 1) * q < eps).
  { apply (Rmult_lt_reg_r (q + 1)); [lra|]. replace (eps / (q + 1) * q * (q + 1)) with (eps * q) by (field; lra). nra. }
  clear - HB K. unfold near_array. induction HB; constructor; [lra|assumption].
Qed.

Lemma peak_near dt a fa m n t p eps : new_motion dt a fa = Ok m -> fft_length (length a) fa n -> Z.even n = true ->
  length t = length (t_freqs m) -> calc_peak m (Some (OArray t)) = Ok p -> 0 < eps ->
  exists d, 0 < d /\ forall t' p', near_tf d t' t -> calc_peak m (Some (OArray t')) = Ok p' -> Rabs (p' - p) < eps.
Proof.
  intros H Hn He Lt Ep E0.
  exact (record_steady dt a fa m n 0 H Hn He t p ltac:(cbn; unfold angular_freqs; now rewrite map_length) Ep eps E0).
Qed.

(** A bounded factor per frequency. *)
Lemma factor_near (h : list C) eps : 0 < eps -> exists d, 0 < d /\ forall t' t, near_tf d t' t ->
  near_tf eps (map2 Cmult t' h) (map2 Cmult t h).
Proof.
  intros He. assert (B : exists g, 0 <= g /\ List.Forall (fun z => Cmod z <= g) h).
  { induction h as [|z h (g & G0 & G)]; [exists 0; split; [lra|constructor]|].
    exists (g + Cmod z). pose proof (Cmod_ge_0 z). split; [lra|]. constructor; [lra|].
    eapply List.Forall_impl; [|exact G]. intros y Hy. cbn in Hy |- *. lra. }
  destruct B as (g & G0 & G). assert (D0 : 0 < eps / (g + 1)) by (apply Rdiv_lt_0_compat; lra).
  exists (eps / (g + 1)). split; [exact D0|]. unfold near_tf, map2. intros t' t HN.
  assert (K : eps / (g + 1) * g < eps).
  { apply (Rmult_lt_reg_r (g + 1)); [lra|]. replace (eps / (g + 1) * g * (g + 1)) with (eps * g) by (field; lra). nra. }
  revert h G. induction HN as [|x y t' t Hxy _ IH]; intros h G; [constructor|].
  destruct h as [|z h]; [constructor|]. inversion G as [|? ? Gz Gh]; subst. cbn [combine map fst snd]. constructor; [|now apply IH].
  replace (Cminus (Cmult x z) (Cmult y z)) with (Cmult (Cminus x y) z) by ring. rewrite Cmod_mult.
  eapply Rle_lt_trans; [|exact K]. apply Rmult_le_compat; try apply Cmod_ge_0; [lra|exact Gz].
Qed.

Lemma moduli_near eps t' t : near_tf eps t' t -> near_array eps (map Cmod t') (map Cmod t).
Proof.
  intros H. unfold near_array. induction H as [|x y t' t Hxy _ IH]; cbn [map]; constructor; [|exact IH].
  eapply Rle_lt_trans; [|exact Hxy]. unfold Rabs. destruct (Rcase_abs _).
  - pose proof (Cmod_triangle x (Cminus y x)) as T. replace (Cplus x (Cminus y x)) with y in T by ring.
    replace (Cminus y x) with (Copp (Cminus x y)) in T by ring. rewrite Cmod_opp in T. lra.
  - pose proof (Cmod_triangle y (Cminus x y)) as T. replace (Cplus y (Cminus x y)) with x in T by ring. lra.
Qed.

Lemma osc_near dt a fa n lsw K t xi fs ps eps : ran dt a fa n lsw K -> length t = length (t_freqs (k_motion K)) ->
  calc_osc_accels (k_motion K) fs xi (Some t) = Ok ps -> 0 < eps ->
  exists d, 0 < d /\ forall t' ps', near_tf d t' t -> calc_osc_accels (k_motion K) fs xi (Some t') = Ok ps' -> near_array eps ps' ps.
Proof.
  intros (Hdt & Hm & Hn & He & _) Lt. set (m := k_motion K) in *. intros Ep E0. revert ps Ep.
  induction fs as [|f fs IH]; intros ps Ep; cbn [calc_osc_accels] in Ep.
  - exists 1. split; [lra|]. intros t' ps' _ E'. cbn in E'. injection Ep as <-. injection E' as <-. constructor.
  - destruct (osc_accel m xi (Some t) f) as [p|] eqn:E1; [|discriminate]. cbn [bind] in Ep.
    destruct (calc_osc_accels m fs xi (Some t)) as [ps1|] eqn:E2; [|discriminate]. cbn [bind] in Ep. injection Ep as <-.
    destruct (IH ps1 eq_refl) as (d1 & D1 & H1).
    unfold osc_accel in E1. set (h := map (sdof_tf f xi) (t_freqs m)) in *.
    assert (Lh : length h = length (t_freqs m)) by (unfold h; now rewrite map_length).
    unfold np_mul in E1. rewrite Lt, Lh, Nat.eqb_refl in E1. cbn [bind] in E1.
    destruct (peak_near dt a fa m n (map2 Cmult t h) p eps Hm Hn He) as (d2 & D2 & H2); [rewrite map2_len; congruence|exact E1|exact E0|].
    destruct (factor_near h d2 D2) as (d3 & D3 & H3).
    exists (Rmin d1 d3). split; [now apply Rmin_pos|]. intros t' ps' HN E'.
    assert (W : forall d, Rmin d1 d3 <= d -> near_tf d t' t).
    { intros d Hd. clear - HN Hd. unfold near_tf in *. induction HN; constructor; [lra|assumption]. }
    cbn [calc_osc_accels] in E'.
    destruct (osc_accel m xi (Some t') f) as [p'|] eqn:E1'; [|discriminate]. cbn [bind] in E'.
    destruct (calc_osc_accels m fs xi (Some t')) as [ps1'|] eqn:E2'; [|discriminate]. cbn [bind] in E'. injection E' as <-.
    constructor; [|apply (H1 t'); [apply W, Rmin_l|exact E2']].
    unfold osc_accel, np_mul in E1'. fold h in E1'. rewrite (near_tf_len _ _ _ HN), Lt, Lh, Nat.eqb_refl in E1'. cbn [bind] in E1'.
    apply (H2 (map2 Cmult t' h)); [|exact E1']. apply H3, W, Rmin_r.
Qed.

Lemma percent_near K K' loc eps ss ss' : 0 < eps ->
  strain_series K false loc = Ok ss /\ strain_series K' false loc = Ok ss' /\ near_array (eps / 100) ss' ss ->
  forall pct, exists ts ts', strain_series K pct loc = Ok ts /\ strain_series K' pct loc = Ok ts' /\ near_array eps ts' ts.
Proof.
  intros E0 (A & B & N). assert (T : forall J xs, strain_series J false loc = Ok xs -> strain_series J true loc = Ok (map (fun x => x * 100) xs)).
  { intros J xs H. unfold strain_series in *. destruct (strain_tfs J loc) as [t|]; [|discriminate]. cbn [bind] in *.
    destruct (calc_time_series _ _) as [y|]; [|discriminate]. cbn [bind] in *. congruence. }
  intros [|].
  - do 2 eexists. split; [exact (T _ _ A)|]. split; [exact (T _ _ B)|]. clear - N. unfold near_array in *.
    induction N as [|x y xs ys H N IH]; cbn [map]; constructor; [|exact IH].
    replace (x * 100 - y * 100) with ((x - y) * 100) by ring. rewrite Rabs_mult, (Rabs_pos_eq 100) by lra. lra.
  - exists ss, ss'. split; [exact A|]. split; [exact B|]. clear - N E0. unfold near_array in *.
    induction N as [|x y xs ys H N IH]; constructor; [lra|exact IH].
Qed.

Theorem outputs_continuous dt a fa n lsw K loc xi fs eps : ran dt a fa n lsw K ->
  (loc_index (k_input K) < length lsw)%nat -> loc_field (k_input K) <> Within -> (loc_index loc < length lsw)%nat ->
  0 < xi -> List.Forall (fun f => 0 < f) fs -> 0 < eps ->
  exists d, 0 < d /\ forall lsw' K', ran dt a fa n lsw' K' -> k_input K' = k_input K -> Forall2 (near_layer d) lsw' lsw ->
  (exists ts ts', accel_series K loc = Ok (Some ts) /\ accel_series K' loc = Ok (Some ts') /\ near_array eps ts' ts) /\
  (exists ps ps', response_spectrum_at K xi fs loc = Ok (Some ps) /\ response_spectrum_at K' xi fs loc = Ok (Some ps') /\ near_array eps ps' ps) /\
  (exists vs vs', fourier_spectrum K None fs loc = Ok (Some vs) /\ fourier_spectrum K' None fs loc = Ok (Some vs') /\ near_array eps vs' vs) /\
  (exists vs vs', transfer_function K None fs (k_input K) loc = Ok (Some vs) /\ transfer_function K' None fs (k_input K) loc = Ok (Some vs') /\ near_array eps vs' vs) /\
  (loc_field loc = Within -> forall pct, exists ts ts', strain_series K pct loc = Ok ts /\ strain_series K' pct loc = Ok ts' /\ near_array eps ts' ts).
Proof.
  intros HR Hi Hf Ho _ _ E0.
  destruct (tfs_defined dt a fa n lsw K _ loc HR Hi Hf Ho) as (t & Et & Lt & _).
  destruct (outputs_defined dt a fa n lsw K loc HR Hi Hf Ho) as ((ts & O1 & _) & O2 & O3 & O4 & O5 & _).
  destruct (O2 fs) as (vf & O2' & _). destruct (O3 xi fs) as (ps & O3' & _). destruct (O4 fs) as (vt & O4' & _). clear O2 O3 O4.
  pose proof HR as HR0. destruct HR0 as (Hdt & Hm & Hn & He & Hl & Hne & HF & HL & v & Hw).
  pose proof (clear_record dt a fa _ n v Hdt Hm Hn Hl) as Hc.
  assert (F1 : calc_time_series (k_motion K) (Some (OArray t)) = Ok ts).
  { unfold accel_series in O1. rewrite Et in O1. cbn [bind] in O1. rewrite finite_some in O1.
    destruct (calc_time_series _ _); cbn [bind] in O1; congruence. }
  assert (F3 : calc_osc_accels (k_motion K) fs xi (Some t) = Ok ps).
  { unfold response_spectrum_at in O3'. rewrite Et in O3'. cbn [bind] in O3'. rewrite finite_some in O3'.
    destruct (calc_osc_accels _ _ _ _); cbn [bind] in O3'; congruence. }
  assert (LA : length (fourier_amps (k_motion K)) = length (t_freqs (k_motion K))).
  { destruct (frequency_count _ _ _ _ (length_given _ _ _ _ _ Hm Hn)) as (n' & E & _ & HA & HFr & _). cbn in E. subst n'.
    unfold fourier_amps. rewrite map_length. symmetry. exact (proj2 HFr He). }
  destruct (series_near dt a fa _ n t ts eps Hm Hn He Lt F1 E0) as (d1 & D1 & H1).
  destruct (osc_near dt a fa n lsw K t xi fs ps eps HR Lt F3 E0) as (d2 & D2 & H2).
  destruct (factor_near (fourier_amps (k_motion K)) eps E0) as (d3 & D3 & H3).
  set (e := Rmin (Rmin d1 d2) (Rmin d3 eps)).
  assert (Ee : 0 < e) by (unfold e; repeat apply Rmin_pos; assumption).
  destruct (accel_rows_close lsw (k_input K) loc HF Hi Hf Ho (angular_freqs (k_motion K)) e Hc Ee) as (da & Da & HA).
  assert (ST : exists ds, 0 < ds /\ (loc_field loc = Within -> forall lsw' K', ran dt a fa n lsw' K' -> k_input K' = k_input K -> Forall2 (near_layer ds) lsw' lsw ->
     forall pct, exists ts ts', strain_series K pct loc = Ok ts /\ strain_series K' pct loc = Ok ts' /\ near_array eps ts' ts)).
  { destruct (loc_field loc) eqn:Fl; [exists 1; split; [lra|discriminate]| |exists 1; split; [lra|discriminate]].
    destruct (O5 eq_refl false) as (ss & S1 & _). unfold strain_series in S1.
    destruct (strain_tfs K loc) as [s|] eqn:Es; [|discriminate]. cbn [bind] in S1.
    destruct (calc_time_series (k_motion K) (Some (OArray s))) as [ss0|] eqn:Ess; [|discriminate]. cbn [bind] in S1. injection S1 as ->.
    assert (Ls : length s = length (t_freqs (k_motion K))).
    { destruct loc as [i z f]. cbn [loc_field loc_index] in *. subst f.
      destruct (strain_sound (as_motion (k_motion K) v) lsw _ (k_input K) i z Hne HF Hc Hw Hi Hf Ho) as (s1 & Es1 & Ls1).
      unfold strain_tfs in Es. rewrite HL in Es. assert (s1 = s) by (unfold calc_strain_tfs in *; cbn in *; congruence). subst s1.
      rewrite Ls1. cbn. unfold angular_freqs. now rewrite map_length. }
    destruct (series_near dt a fa _ n s ss (eps / 100) Hm Hn He Ls Ess ltac:(lra)) as (d4 & D4 & H4).
    destruct (rows_close lsw (k_input K) loc HF Hi Hf Ho Fl (angular_freqs (k_motion K)) d4 Hc D4) as (ds & Ds & HS).
    exists ds. split; [exact Ds|]. intros _ lsw' K' HR' EI NL.
    pose proof HR' as HR1. destruct HR1 as (_ & Hm' & _ & _ & _ & Hne' & HF' & HL' & v' & Hw').
    assert (EM : k_motion K' = k_motion K) by congruence.
    assert (LN : length lsw' = length lsw) by (clear - NL; induction NL; cbn; congruence).
    destruct (outputs_defined dt a fa n lsw' K' loc HR') as (_ & _ & _ & _ & O5' & _); rewrite ?EI, ?LN; auto.
    destruct (O5' Fl false) as (ss' & S1' & _). apply (percent_near K K' loc eps ss ss' E0). split; [unfold strain_series; rewrite Es; cbn [bind]; rewrite Ess; reflexivity|].
    split; [exact S1'|]. unfold strain_series in S1'.
    destruct (strain_tfs K' loc) as [s'|] eqn:Es'; [|discriminate]. cbn [bind] in S1'.
    destruct (calc_time_series (k_motion K') (Some (OArray s'))) as [ss1|] eqn:Ess'; [|discriminate]. cbn [bind] in S1'. injection S1' as ->.
    rewrite EM in Ess'. apply (H4 s'); [|exact Ess'].
    unfold strain_tfs, calc_strain_tfs in Es, Es'. rewrite Fl in Es, Es'. rewrite HL, EI, ?HL', ?LN, ?EM in *.
    rewrite (proj2 (Nat.ltb_lt _ _) Ho), (proj2 (Nat.ltb_lt _ _) Hi) in Es, Es'. cbn [andb] in Es, Es'.
    unfold calc_waves in Hw, Hw'. cbn [as_motion m_freqs] in Hw, Hw', Es, Es'.
    exact (HS lsw' HF' NL _ _ _ _ Hw' Hw Es' Es). }
  destruct ST as (ds & Ds & ST).
  exists (Rmin da ds). split; [now apply Rmin_pos|]. intros lsw' K' HR' EI NL.
  pose proof (near_weaken _ da _ _ (Rmin_l da ds) NL) as NLa. pose proof (near_weaken _ ds _ _ (Rmin_r da ds) NL) as NLs.
  pose proof HR' as HR1. destruct HR1 as (_ & Hm' & _ & _ & _ & Hne' & HF' & HL' & v' & Hw').
  assert (EM : k_motion K' = k_motion K) by congruence.
  assert (LN : length lsw' = length lsw) by (clear - NL; induction NL; cbn; congruence).
  destruct (tfs_defined dt a fa n lsw' K' (k_input K) loc HR') as (t' & Et' & Lt' & _); rewrite ?LN; auto.
  destruct (outputs_defined dt a fa n lsw' K' loc HR') as ((ts' & P1 & _) & P2 & P3 & P4 & _); rewrite ?EI, ?LN; auto.
  destruct (P2 fs) as (vf' & P2' & _). destruct (P3 xi fs) as (ps' & P3' & _). destruct (P4 fs) as (vt' & P4' & _). rewrite EI in P4'.
  assert (NT : near_tf e t' t).
  { pose proof Et as Q. pose proof Et' as Q'. unfold accel_tfs in Q, Q'. rewrite HL in Q. rewrite HL', LN in Q'.
    rewrite (proj2 (Nat.ltb_lt _ _) Ho), (proj2 (Nat.ltb_lt _ _) Hi) in Q, Q'. cbn [andb] in Q, Q'.
    unfold calc_waves in Hw, Hw'. cbn [as_motion m_freqs] in Hw, Hw'. rewrite EM in Hw'.
    exact (HA lsw' HF' NLa _ _ _ _ Hw' Hw Q' Q). }
  assert (W : forall d, e <= d -> near_tf d t' t).
  { intros d Hd. clear - NT Hd. unfold near_tf in *. induction NT; constructor; [lra|assumption]. }
  assert (W1 : e <= d1 /\ e <= d2 /\ e <= d3 /\ e <= eps).
  { unfold e. pose proof (Rmin_l (Rmin d1 d2) (Rmin d3 eps)). pose proof (Rmin_r (Rmin d1 d2) (Rmin d3 eps)).
    pose proof (Rmin_l d1 d2). pose proof (Rmin_r d1 d2). pose proof (Rmin_l d3 eps). pose proof (Rmin_r d3 eps). lra. }
  destruct W1 as (W1 & W2 & W3 & W4).
  split; [|split; [|split; [|split]]].
  - exists ts, ts'. split; [exact O1|]. split; [exact P1|]. unfold accel_series in P1. rewrite EI, Et' in P1. cbn [bind] in P1. rewrite finite_some, EM in P1.
    destruct (calc_time_series _ _) as [s|] eqn:Es in P1; [|discriminate]. cbn [bind] in P1. injection P1 as ->. exact (H1 t' ts' (W d1 W1) Es).
  - exists ps, ps'. split; [exact O3'|]. split; [exact P3'|]. unfold response_spectrum_at in P3'. rewrite EI, Et' in P3'. cbn [bind] in P3'. rewrite finite_some, EM in P3'.
    destruct (calc_osc_accels _ _ _ _) as [s|] eqn:Es in P3'; [|discriminate]. cbn [bind] in P3'. injection P3' as ->. exact (H2 t' ps' (W d2 W2) Es).
  - exists vf, vf'. split; [exact O2'|]. split; [exact P2'|]. unfold fourier_spectrum in O2', P2'. rewrite EI, Et' in P2'. rewrite Et in O2'.
    cbn [bind] in O2', P2'. rewrite finite_some in O2'. rewrite finite_some, EM in P2'. unfold np_mul in O2', P2'. rewrite Lt, LA, Nat.eqb_refl in O2'. rewrite Lt', EM, LA, Nat.eqb_refl in P2'.
    cbn [bind] in O2', P2'.
    destruct (resample _ _ _ _) as [s|] eqn:Es in O2'; [|discriminate]. cbn [bind] in O2'. injection O2' as ->.
    destruct (resample _ _ _ _) as [s'|] eqn:Es' in P2'; [|discriminate]. cbn [bind] in P2'. injection P2' as ->.
    eapply resample_near; [exact E0| |exact Es|exact Es']. apply moduli_near, H3, W, W3.
  - exists vt, vt'. split; [exact O4'|]. split; [exact P4'|]. unfold transfer_function in O4', P4'. rewrite Et' in P4'. rewrite Et in O4'.
    cbn [bind] in O4', P4'. rewrite finite_some in O4'. rewrite finite_some, EM in P4'.
    destruct (resample _ _ _ _) as [s|] eqn:Es in O4'; [|discriminate]. cbn [bind] in O4'. injection O4' as ->.
    destruct (resample _ _ _ _) as [s'|] eqn:Es' in P4'; [|discriminate]. cbn [bind] in P4'. injection P4' as ->.
    eapply resample_near; [exact E0| |exact Es|exact Es']. apply moduli_near, W, W4.
  - intros Fl. exact (ST Fl lsw' K' HR' EI NLs).
Qed.

(** Small changes of the description are small changes of the reset state. *)
Lemma reset_layer_near l eps : 0 < eps -> exists d, 0 < d /\ forall l', near_description d l' l -> near_layer eps (layer_reset l') (layer_reset l).
Proof.
  intros E0. set (v := l_vs l). set (w := s_unit_wt (l_soil l)). set (M := (Rabs v + 1) ^ 2 + Rabs w * (2 * Rabs v + 1)).
  assert (M0 : 0 <= M).
  { unfold M. pose proof (Rabs_pos v). pose proof (Rabs_pos w). apply Rplus_le_le_0_compat; [apply pow2_ge_0|apply Rmult_le_pos; lra]. }
  assert (G0 : 0 < GRAVITY) by (unfold GRAVITY; lra).
  assert (D0 : 0 < eps * GRAVITY / (M + 1)) by (apply Rdiv_lt_0_compat; [apply Rmult_lt_0_compat; assumption|lra]).
  set (d := Rmin (Rmin 1 eps) (eps * GRAVITY / (M + 1))).
  assert (B : d <= 1 /\ d <= eps /\ d <= eps * GRAVITY / (M + 1)).
  { unfold d. pose proof (Rmin_l (Rmin 1 eps) (eps * GRAVITY / (M + 1))). pose proof (Rmin_r (Rmin 1 eps) (eps * GRAVITY / (M + 1))).
    pose proof (Rmin_l 1 eps). pose proof (Rmin_r 1 eps). lra. }
  assert (Hd : 0 < d) by (unfold d; repeat apply Rmin_pos; assumption || lra).
  exists d. split; [exact Hd|]. intros l' (A1 & A2 & A3 & A4). destruct B as (B1 & B2 & B3).
  split; [|split; [|split]].
  - change (shear_mod (layer_reset l')) with (s_unit_wt (l_soil l') / GRAVITY * l_vs l' ^ 2).
    change (shear_mod (layer_reset l)) with (w / GRAVITY * v ^ 2). fold v in A1. fold w in A3.
    set (v' := l_vs l') in *. set (w' := s_unit_wt (l_soil l')) in *.
    replace (w' / GRAVITY * v' ^ 2 - w / GRAVITY * v ^ 2) with (((w' - w) * v' ^ 2 + w * (v' - v) * (v' + v)) / GRAVITY) by (field; lra).
    unfold Rdiv. rewrite Rabs_mult, (Rabs_pos_eq (/ GRAVITY)) by (left; now apply Rinv_0_lt_compat).
    apply (Rmult_lt_reg_r GRAVITY); [exact G0|]. rewrite Rmult_assoc, Rinv_l, Rmult_1_r by lra.
    assert (V' : Rabs v' <= Rabs v + 1).
    { replace v' with (v + (v' - v)) by ring. eapply Rle_trans; [apply Rabs_triang|]. lra. }
    assert (S1 : Rabs (v' + v) <= 2 * Rabs v + 1) by (eapply Rle_trans; [apply Rabs_triang|]; lra).
    assert (S2 : Rabs (v' ^ 2) <= (Rabs v + 1) ^ 2).
    { rewrite <- RPow_abs. apply pow_incr. split; [apply Rabs_pos|exact V']. }
    apply Rle_lt_trans with (d * M).
    + eapply Rle_trans; [apply Rabs_triang|]. rewrite !Rabs_mult. unfold M. rewrite Rmult_plus_distr_l. apply Rplus_le_compat.
      * apply Rmult_le_compat; try apply Rabs_pos; [lra|exact S2].
      * replace (d * (Rabs w * (2 * Rabs v + 1))) with (Rabs w * d * (2 * Rabs v + 1)) by ring.
        apply Rmult_le_compat; try apply Rabs_pos; [apply Rmult_le_pos; apply Rabs_pos| |exact S1].
        apply Rmult_le_compat_l; [apply Rabs_pos|lra].
    + apply Rle_lt_trans with (eps * GRAVITY / (M + 1) * M); [apply Rmult_le_compat_r; assumption|].
      apply (Rmult_lt_reg_r (M + 1)); [lra|]. replace (eps * GRAVITY / (M + 1) * M * (M + 1)) with (eps * GRAVITY * M) by (field; lra).
      pose proof (Rmult_lt_0_compat _ _ E0 G0). nra.
  - change (damping (layer_reset l')) with (l_dmin l'). change (damping (layer_reset l)) with (l_dmin l). lra.
  - change (Rabs (s_unit_wt (l_soil l') - w) < eps). fold w in A3. lra.
  - change (Rabs (l_thick l' - l_thick l) < eps). lra.
Qed.

Lemma reset_near ls eps : 0 < eps -> exists d, 0 < d /\ forall ls', Forall2 (near_description d) ls' ls ->
  Forall2 (near_layer eps) (map layer_reset ls') (map layer_reset ls).
Proof.
  intros E0. induction ls as [|l ls (d1 & D1 & H1)].
  - exists 1. split; [lra|]. intros ls' H. inversion H. constructor.
  - destruct (reset_layer_near l eps E0) as (d2 & D2 & H2). exists (Rmin d1 d2). split; [now apply Rmin_pos|].
    intros ls' H. inversion H as [|l' ? ls1 ? N NS]; subst. cbn [map]. constructor.
    + apply H2. exact (described_mono _ _ _ _ (Rmin_r d1 d2) N).
    + apply H1. clear - NS. induction NS; constructor; [exact (described_mono _ _ _ _ (Rmin_l d1 d2) H)|assumption].
Qed.

Lemma linear_ran dt a fa n ls K : linear_run dt a fa n ls K -> ran dt a fa n (map layer_reset ls) K.
Proof.
  intros (H1 & H2 & H3 & H4 & H5 & H6 & HP & EL & v & HW). repeat split; auto.
  - intros Z. apply H6. now apply map_eq_nil in Z.
  - apply Forall_map. apply List.Forall_impl with (2 := HP). intros l (A & B & C0). split; [|now split].
    change (shear_mod (layer_reset l)) with (initial_shear_mod l). unfold initial_shear_mod, density, GRAVITY.
    apply Rmult_lt_0_compat; [apply Rdiv_lt_0_compat; lra|apply pow_lt; lra].
  - now rewrite EL.
  - exists v. exact HW.
Qed.

Theorem linear_outputs_continuous dt a fa n ls K loc xi fs eps : linear_run dt a fa n ls K ->
  (loc_index (k_input K) < length ls)%nat -> loc_field (k_input K) <> Within -> (loc_index loc < length ls)%nat ->
  0 < xi -> List.Forall (fun f => 0 < f) fs -> 0 < eps ->
  exists d, 0 < d /\ forall ls' K', linear_run dt a fa n ls' K' -> k_input K' = k_input K -> Forall2 (near_description d) ls' ls ->
  (exists ts ts', accel_series K loc = Ok (Some ts) /\ accel_series K' loc = Ok (Some ts') /\ near_array eps ts' ts) /\
  (exists ps ps', response_spectrum_at K xi fs loc = Ok (Some ps) /\ response_spectrum_at K' xi fs loc = Ok (Some ps') /\ near_array eps ps' ps) /\
  (exists vs vs', fourier_spectrum K None fs loc = Ok (Some vs) /\ fourier_spectrum K' None fs loc = Ok (Some vs') /\ near_array eps vs' vs) /\
  (exists vs vs', transfer_function K None fs (k_input K) loc = Ok (Some vs) /\ transfer_function K' None fs (k_input K) loc = Ok (Some vs') /\ near_array eps vs' vs) /\
  (loc_field loc = Within -> forall pct, exists ts ts', strain_series K pct loc = Ok ts /\ strain_series K' pct loc = Ok ts' /\ near_array eps ts' ts).
Proof.
  intros HR Hi Hf Ho Hx Hfs E0.
  destruct (outputs_continuous dt a fa n _ K loc xi fs eps (linear_ran _ _ _ _ _ _ HR)) as (d1 & D1 & H1); rewrite ?map_length; auto.
  destruct (reset_near ls d1 D1) as (d & D & H2). exists d. split; [exact D|]. intros ls' K' HR' EI NL.
  exact (H1 _ K' (linear_ran _ _ _ _ _ _ HR') EI (H2 ls' NL)).
Qed.
