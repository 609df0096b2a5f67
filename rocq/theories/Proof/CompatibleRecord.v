(** The peak response of a record varies continuously with the transfer function, so a record and
    a site with one nonlinear layer have a strain-compatible state. *)
From Verif Require Import Common Model.Curve Model.Layer Model.Averages Model.Output Model.Motion Model.Waves Model.Eql Model.Results
  Spec.OutputSpec Spec.MotionSpec Spec.WaveSpec Spec.EqlSpec Spec.CompatibleSpec
  Spec.ResultsSpec Spec.IntensitySpec Proof.CommonFacts Proof.CurveFacts Proof.WaveFacts Proof.WaveProps Proof.OutputValues Proof.MotionFacts
  Proof.MotionProps Proof.LayerFacts Proof.EqlFacts Proof.EqlProps Proof.EqlPhysical Proof.ResultsProps Proof.ResultsRuns Proof.ResultsDefined Proof.IntensityProps
  Proof.CplxFacts Proof.ResponseEnergy Proof.ShortPeriod Proof.Compatible Proof.CompatibleExists Proof.CompatibleLimit.
From Coquelicot Require Import Coquelicot.
Local Open Scope R_scope.

Lemma peak_lipschitz dt a fa m n rec t1 t2 p1 p2 g : new_motion dt a fa = Ok m -> fft_length (length a) fa n -> Z.even n = true ->
  is_padded (Z.to_nat n) a rec -> length t1 = length (t_freqs m) -> length t2 = length (t_freqs m) ->
  List.Forall (fun t => Cmod t <= g) (map2 Cminus t1 t2) ->
  calc_peak m (Some (OArray t1)) = Ok p1 -> calc_peak m (Some (OArray t2)) = Ok p2 -> 0 <= g ->
  Rabs (p1 - p2) <= g * sqrt (energy rec).
Proof.
  intros H Hn He Hp L1 L2 HG K1 K2 G0. destruct (even_motion _ _ _ _ _ H Hn He) as (h & Hh & En & _).
  unfold calc_peak in K1, K2.
  pose proof (series_form _ _ _ _ _ h t1 H Hn He En L1) as E1. set (s1 := map _ _) in E1.
  pose proof (series_form _ _ _ _ _ h t2 H Hn He En L2) as E2. set (s2 := map _ (seq 0 (2 * h))) in E2.
  rewrite E1 in K1. rewrite E2 in K2. cbn [bind] in K1, K2. injection K1 as <-. injection K2 as <-.
  assert (N1 : s1 <> []). { intros Z. apply (f_equal (@length R)) in Z. unfold s1 in Z. rewrite map_length, seq_length in Z. cbn in Z. lia. }
  assert (N2 : s2 <> []). { intros Z. apply (f_equal (@length R)) in Z. unfold s2 in Z. rewrite map_length, seq_length in Z. cbn in Z. lia. }
  destruct (series_diff _ _ _ _ _ t1 t2 s1 s2 H Hn He L1 L2 E1 E2) as (sd & Esd & Ld & Lt & Nd).
  destruct (response_energy dt a fa m n rec (map2 Cminus t1 t2) sd g H Hn He Hp) as [_ PK];
    [rewrite map2_len; congruence|exact Esd|exact HG|].
  assert (Nsd : sd <> []).
  { intros Z. rewrite Z in Ld. apply N1. apply length_zero_iff_nil. now rewrite <- Ld. }
  pose proof (peak_of_spec sd Nsd) as PS. specialize (PK _ PS).
  apply (peaks_close s1 s2); [congruence|now apply peak_of_spec|now apply peak_of_spec|].
  intros j. rewrite <- Nd. apply Rle_trans with (peak_of sd).
  - destruct (Nat.lt_ge_cases j (length sd)) as [J|J]; [apply PS, nth_In; exact J|].
    rewrite nth_overflow, Rabs_R0 by exact J. destruct PS as [(x & _ & ->) _]. apply Rabs_pos.
  - assert (P0 : 0 <= peak_of sd) by (destruct PS as [(x & _ & ->) _]; apply Rabs_pos).
    rewrite <- (sqrt_pow2 (peak_of sd) P0). rewrite <- (sqrt_pow2 g) by assumption.
    rewrite <- sqrt_mult_alt by apply pow2_ge_0. apply sqrt_le_1_alt. exact PK.
Qed.

Lemma record_steady dt a fa m n v : new_motion dt a fa = Ok m -> fft_length (length a) fa n -> Z.even n = true ->
  steady_peak (as_motion m v).
Proof.
  intros H Hn He tf p HL Ep eps Hp. cbn [as_motion m_freqs m_peak] in *.
  unfold angular_freqs in HL. rewrite map_length in HL.
  pose proof (fit_padded (Z.to_nat n) a) as Hrec. set (rec := Motion.fit (Z.to_nat n) a) in Hrec.
  set (q := sqrt (energy rec)). assert (Q : 0 <= q) by apply sqrt_pos.
  assert (D0 : 0 < eps / (q + 1)) by (apply Rdiv_lt_0_compat; lra).
  exists (eps / (q + 1)). split; [exact D0|]. intros tf' p' HF Ep'.
  assert (L' : length tf' = length (t_freqs m)) by (rewrite <- HL; clear - HF; induction HF; cbn; congruence).
  assert (HB : Rabs (p' - p) <= eps / (q + 1) * q).
  { apply (peak_lipschitz dt a fa m n rec tf' tf); auto; [|lra].
    clear - HF. unfold map2. induction HF; cbn; constructor; [lra|assumption]. }
  eapply Rle_lt_trans; [exact HB|]. apply (Rmult_lt_reg_r (q + 1)); [lra|].
  replace (eps / (q + 1) * q * (q + 1)) with (eps * q) by (field; lra). nra.
Qed.

Theorem record_compatible P dt a fa m n v lin above l below : 0 < dt -> new_motion dt a fa = Ok m -> fft_length (length a) fa n ->
  Z.even n = true -> IZR n * dt <= 6e8 -> below <> [] -> List.Forall physical (above ++ l :: below) ->
  List.Forall (fun l' => is_nonlinear (l_soil l') = false) (above ++ below) -> tabulated (l_soil l) ->
  (loc_index lin < length (above ++ l :: below))%nat -> loc_field lin <> Within ->
  exists s, compatible P (as_motion m v) lin (map layer_reset above ++ set_strain (layer_reset l) s :: map layer_reset below).
Proof.
  intros D H Hn He Hb HB HP HN HT Hlin Fin. apply compatible_exists; auto.
  - exact (clear_record dt a fa m n v D H Hn Hb).
  - exact (ts_answers dt a fa m n v H Hn He).
  - exact (record_steady dt a fa m n v H Hn He).
Qed.

Lemma fresh_error v : v = 0 \/ 1e-9 <= v -> exists x, relative_error (iter_new v) = EFin x /\ x <= 0.
Proof.
  intros H. unfold relative_error, iter_new. cbn [it_value it_prev].
  destruct (Rltb 0 v) eqn:E.
  - apply Rltb_true in E. eexists. split; [reflexivity|]. destruct H as [H|H]; [lra|].
    assert (0 <= (v - 1e-9) / v) by (apply Rmult_le_pos; [lra|left; now apply Rinv_0_lt_compat]).
    replace (1e-9 - v) with (- (v - 1e-9)) by ring. unfold Rdiv in *. lra.
  - assert (v = 0). { destruct H as [H|H]; [exact H|]. assert (Q : 0 < v) by lra. apply Rltb_true in Q. congruence. }
    subst v. exists 0. split; [|lra].
    assert (C0 : isclose 0 1e-9 = true); [|now rewrite C0].
    unfold isclose. apply Rleb_true. rewrite (Rabs_pos_eq 1e-9), Rabs_left by lra. lra.
Qed.

(** From that state the iteration stops after one pass, with the same state. *)
Theorem record_settles P dt a fa m n v lin above l below b : 0 < dt -> new_motion dt a fa = Ok m -> fft_length (length a) fa n ->
  Z.even n = true -> IZR n * dt <= 6e8 -> List.Forall physical (above ++ l :: below ++ cons b nil) ->
  List.Forall (fun l' => is_nonlinear (l_soil l') = false) (above ++ below ++ cons b nil) -> tabulated (l_soil l) ->
  (loc_index lin < length (above ++ l :: below ++ cons b nil))%nat -> loc_field lin <> Within ->
  1e-9 <= initial_shear_mod b -> l_dmin b = 0 \/ 1e-9 <= l_dmin b -> 0 < e_tol P -> (0 < e_max P)%Z ->
  exists s, let ls := map layer_reset above ++ set_strain (layer_reset l) s :: map layer_reset (below ++ cons b nil) in
  compatible P (as_motion m v) lin ls /\
  exists st ls' wv, eql_call P (as_motion m v) lin false ls = (cons st nil, Ok (Converged, ls', wv)) /\
    calc_waves (as_motion m v) ls = Ok wv /\ Forall2 same_state ls' ls.
Proof.
  intros D H Hn He Hb HP HN HT Hlin Fin HG HD Ht Hx.
  destruct (record_compatible P dt a fa m n v lin above l (below ++ cons b nil) D H Hn He Hb) as [s C0]; auto.
  { now destruct below. }
  exists s. cbv zeta. split; [exact C0|].
  replace (map layer_reset above ++ set_strain (layer_reset l) s :: map layer_reset (below ++ cons b nil))
    with ((map layer_reset above ++ set_strain (layer_reset l) s :: map layer_reset below) ++ cons (layer_reset b) nil) in *
    by (rewrite map_app, <- app_assoc; reflexivity).
  destruct (fresh_error (initial_shear_mod b)) as (x & Ex & Lx); [now right|].
  destruct (fresh_error (l_dmin b)) as (y & Ey & Ly); [exact HD|].
  apply (compatible_stays P (as_motion m v) lin _ (layer_reset b) (Rmax x y)); auto.
  - unfold max_error, layer_reset. cbn [l_G l_D]. now rewrite Ex, Ey.
  - pose proof (Rmax_lub x y 0 Lx Ly). lra.
Qed.

Theorem record_limit P dt a fa m n v lin reset ls0 f ls : 0 < dt -> new_motion dt a fa = Ok m -> fft_length (length a) fa n ->
  Z.even n = true -> IZR n * dt <= 6e8 -> ls0 <> nil -> List.Forall physical ls0 -> (reset = false -> List.Forall sound ls0) ->
  List.Forall (fun l => tabulated (l_soil l)) ls0 -> (loc_index lin < length ls0)%nat -> loc_field lin <> Within ->
  (forall k, (0 < k)%nat -> exists t wv, eql_call (with_max P (Z.of_nat k)) (as_motion m v) lin reset ls0 = (t, Ok (Exhausted, f k, wv))) ->
  settles f ls -> compatible P (as_motion m v) lin ls.
Proof.
  intros D H Hn He Hb NE HP HR HT Hlin Fin HE HS. apply (runs_limit P (as_motion m v) lin reset ls0 f ls); auto.
  - exact (clear_record dt a fa m n v D H Hn Hb).
  - exact (ts_answers dt a fa m n v H Hn He).
  - exact (record_steady dt a fa m n v H Hn He).
Qed.
