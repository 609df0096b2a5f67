(** How the curves of the empirical soil types move with their parameters. *)
From Coq Require Import String.
From Verif Require Import Common Model.Curve Model.Layer Model.SoilModels Model.Kishida Spec.CurveSpec Spec.SoilModelSpec
  Proof.CommonFacts Proof.CurveFacts Proof.CurveOrder Proof.HyperbolicFacts Proof.HyperbolicProps.
From Coq Require Import List.
Local Open Scope R_scope.

Lemma Rpower_le_base x y c : 0 <= c -> 0 < x <= y -> Rpower x c <= Rpower y c.
Proof. intros Hc H. now apply Rle_Rpower_l. Qed.
Lemma Rpower_ge_base x y c : c <= 0 -> 0 < x <= y -> Rpower y c <= Rpower x c.
Proof.
  intros Hc H. replace c with (- (- c)) by ring. rewrite !(Rpower_Ropp _ (- c)). apply Rinv_le_contravar; [apply exp_pos|]. apply Rle_Rpower_l; lra.
Qed.

Lemma mh_mod_stiffer sr sr' c s : 0 < sr <= sr' -> 0 < c -> 0 < s -> the (mh_mod sr c s) <= the (mh_mod sr' c s).
Proof.
  intros Hr Hc Hs. rewrite !mh_mod_some by lra. cbn [the].
  assert (Rpower (s / sr') c <= Rpower (s / sr) c).
  { apply Rpower_le_base; [lra|]. split; [apply Rdiv_lt_0_compat; lra|]. unfold Rdiv. apply Rmult_le_compat_l; [lra|]. apply Rinv_le_contravar; lra. }
  pose proof (exp_pos (c * ln (s / sr'))). change (exp (c * ln (s / sr'))) with (Rpower (s / sr') c) in *.
  unfold Rdiv. rewrite !Rmult_1_l. apply Rinv_le_contravar; lra.
Qed.
Lemma mh_correction_scales sc sc' sr c s : sc <= sc' -> 0 < sr -> 0 < c <= 3 / 2 -> 0 < s ->
  the (mh_correction sc sr c s) <= the (mh_correction sc' sr c s).
Proof.
  intros Hsc Hr Hc Hs. pose proof (mh_correction_pos 1 sr c s ltac:(lra) Hr Hc Hs) as P.
  rewrite mh_correction_some in * by assumption. cbn [the] in *. rewrite mh_correction_some by assumption. cbn [the].
  set (q := damping_masing c (hyper_a (s / sr)) * Rpower (the (mh_mod sr c s)) 0.1) in *.
  replace (sc * damping_masing c (hyper_a (s / sr)) * Rpower (the (mh_mod sr c s)) 0.1 / 100) with (sc * (q / 100)) by (unfold q; field).
  replace (sc' * damping_masing c (hyper_a (s / sr)) * Rpower (the (mh_mod sr c s)) 0.1 / 100) with (sc' * (q / 100)) by (unfold q; field).
  replace (1 * damping_masing c (hyper_a (s / sr)) * Rpower (the (mh_mod sr c s)) 0.1 / 100) with (q / 100) in P by (unfold q; field).
  apply Rmult_le_compat_r; lra.
Qed.

Lemma max_from_le xs ys : Forall2 Rle xs ys -> forall a b, a <= b -> Forall2 Rle (max_from a xs) (max_from b ys).
Proof.
  induction 1 as [|x y xs ys H0 H IH]; intros a b Hab; cbn [max_from]; [constructor|].
  assert (Rmax a x <= Rmax b y) by (unfold Rmax; repeat destruct (Rle_dec _ _); lra).
  constructor; [assumption|now apply IH].
Qed.
Lemma max_accumulate_le xs ys : Forall2 Rle xs ys -> Forall2 Rle (max_accumulate xs) (max_accumulate ys).
Proof. intros [|x y xs' ys' H0 H]; cbn [max_accumulate]; [constructor|]. constructor; [exact H0|]. now apply max_from_le. Qed.
Lemma map_le (f g : R -> R) ss : (forall s, In s ss -> f s <= g s) -> Forall2 Rle (map f ss) (map g ss).
Proof. induction ss as [|s ss IH]; intros H; cbn [map]; constructor; [apply H; now left|]. apply IH. intros t Ht. apply H. now right. Qed.

Lemma mh_soil_values id cls name uw sc sr c dm ss : 0 < sr -> List.Forall (fun s => 0 < s) (strains_or_default ss) ->
  mh_soil id cls name uw (Some sc) (Some sr) (Some c) (Some dm) ss =
  Some (soil_curves id cls name uw (strains_or_default ss) (map (fun s => the (mh_mod sr c s)) (strains_or_default ss))
    (map (fun d => d + dm) (max_accumulate (map (fun s => the (mh_correction sc sr c s)) (strains_or_default ss))))).
Proof.
  intros Hr Hs. rewrite Forall_forall in Hs. unfold mh_soil. cbn [opt_bind]. unfold modified_hyperbolic.
  rewrite (map_opt_map _ (fun s => the (mh_mod sr c s))).
  2:{ apply Forall_forall. intros s H. rewrite mh_mod_some by (auto; now apply Hs). reflexivity. }
  cbn [opt_bind]. rewrite (map_opt_map _ (fun s => the (mh_correction sc sr c s))); [reflexivity|].
  apply Forall_forall. intros s H. rewrite mh_correction_some by (auto; now apply Hs). reflexivity.
Qed.
Lemma call_defined c s : c_strains c <> [] -> length (c_values c) = length (c_strains c) -> exists v, curve_call c s = Ok v.
Proof.
  intros N L. unfold curve_call. rewrite L, Nat.eqb_refl. unfold ln_table, interp1d_call.
  destruct (c_strains c) as [|x xs]; [congruence|]. destruct (c_values c) as [|v vs]; [discriminate|]. cbn [map combine].
  destruct (last_opt_some (ln x, v) (combine (map ln xs) vs)) as ([xl yl] & ->).
  assert (HN : sort_pts ((ln x, v) :: combine (map ln xs) vs) <> []).
  { cbn [sort_pts]. destruct (sort_pts (combine (map ln xs) vs)); cbn [ins_pt]; [discriminate|]. destruct (Rleb _ _); discriminate. }
  destruct (sort_pts _) as [|[a b] r]; [congruence|]. destruct (last_opt_some (a, b) r) as ([am bm] & ->). now eexists.
Qed.
Lemma curves_ordered id id' cls cls' n n' uw uw' ss ms ms' ds ds' : ss <> [] -> length ms = length ss -> length ds = length ss ->
  (Forall2 Rle ms ms' -> stiffer (soil_curves id cls n uw ss ms ds) (soil_curves id' cls' n' uw' ss ms' ds')) /\
  (Forall2 Rle ds ds' -> more_damped (soil_curves id cls n uw ss ms ds) (soil_curves id' cls' n' uw' ss ms' ds')).
Proof.
  intros N L1 L2. split; intros H.
  - do 2 eexists. do 2 (split; [reflexivity|]). intros x. destruct (call_defined (modulus_curve id ss ms) x N L1) as [v E].
    destruct (curve_ordered (modulus_curve id ss ms) (modulus_curve id' ss ms') x v eq_refl eq_refl eq_refl H E) as (v' & E' & L). now exists v, v'.
  - do 2 eexists. do 2 (split; [reflexivity|]). intros x. destruct (call_defined (damping_curve (S id) ss ds) x N L2) as [v E].
    destruct (curve_ordered (damping_curve (S id) ss ds) (damping_curve (S id') ss ds') x v eq_refl eq_refl eq_refl H E) as (v' & E' & L). now exists v, v'.
Qed.
Lemma mh_soil_stiffer id id' cls cls' n n' uw uw' sc sc' sr sr' c dm dm' ss s s' : 0 < sr <= sr' -> 0 < c ->
  List.Forall (fun s => 0 < s) (strains_or_default ss) -> strains_or_default ss <> [] ->
  mh_soil id cls n uw (Some sc) (Some sr) (Some c) (Some dm) ss = Some s ->
  mh_soil id' cls' n' uw' (Some sc') (Some sr') (Some c) (Some dm') ss = Some s' -> stiffer s s'.
Proof.
  intros Hr Hc Hs N. rewrite !mh_soil_values by (lra || assumption). intros E E'. injection E as <-. injection E' as <-.
  apply curves_ordered; [exact N|apply map_length|now rewrite map_length, max_accumulate_length, map_length|].
  apply map_le. intros x Hx. rewrite Forall_forall in Hs. apply mh_mod_stiffer; auto.
Qed.
Lemma mh_soil_damped id id' cls cls' n n' uw uw' sc sc' sr c dm dm' ss s s' : sc <= sc' -> dm <= dm' -> 0 < sr -> 0 < c <= 3 / 2 ->
  List.Forall (fun s => 0 < s) (strains_or_default ss) -> strains_or_default ss <> [] ->
  mh_soil id cls n uw (Some sc) (Some sr) (Some c) (Some dm) ss = Some s ->
  mh_soil id' cls' n' uw' (Some sc') (Some sr) (Some c) (Some dm') ss = Some s' -> more_damped s s'.
Proof.
  intros Hsc Hdm Hr Hc Hs N. rewrite !mh_soil_values by (lra || assumption). intros E E'. injection E as <-. injection E' as <-.
  apply curves_ordered; [exact N|apply map_length|now rewrite map_length, max_accumulate_length, map_length|].
  rewrite Forall_forall in Hs.
  assert (HM : Forall2 Rle (max_accumulate (map (fun s => the (mh_correction sc sr c s)) (strains_or_default ss)))
                (max_accumulate (map (fun s => the (mh_correction sc' sr c s)) (strains_or_default ss)))).
  { apply max_accumulate_le, map_le. intros x Hx. apply mh_correction_scales; auto. }
  clear -HM Hdm. induction HM; cbn [map]; constructor; [lra|assumption].
Qed.

(** * Darendeli *)
Lemma darendeli_ref d : 0 <= da_pi d -> 0 < da_ocr d -> 0 < da_stress d ->
  exists sr, darendeli_strain_ref d = Some sr /\ 0 < sr /\
    sr = (0.0352 + 0.0010 * da_pi d * Rpower (da_ocr d) 0.3246) * Rpower (da_stress d * KPA_TO_ATM) 0.3483 / 100.
Proof.
  intros H1 H2 H3. unfold darendeli_strain_ref. rewrite pow_opt_pos by assumption. cbn [opt_bind].
  rewrite pow_opt_pos by (now apply atm_pos). cbn [opt_bind]. eexists. split; [reflexivity|]. split; [|reflexivity].
  pose proof (exp_pos (0.3246 * ln (da_ocr d))). pose proof (exp_pos (0.3483 * ln (da_stress d * KPA_TO_ATM))).
  fold (Rpower (da_ocr d) 0.3246) (Rpower (da_stress d * KPA_TO_ATM) 0.3483) in *.
  assert (0 <= da_pi d * Rpower (da_ocr d) 0.3246) by (apply Rmult_le_pos; lra).
  apply Rdiv_lt_0_compat; [|lra]. apply Rmult_lt_0_compat; lra.
Qed.
Lemma mh_soil_parts id cls n uw sc sr c dm ss s : mh_soil id cls n uw sc sr c dm ss = Some s ->
  exists a b e f, sc = Some a /\ sr = Some b /\ c = Some e /\ dm = Some f.
Proof.
  unfold mh_soil. destruct dm, sr, c, sc; cbn [opt_bind]; try discriminate. intros _. do 4 eexists. repeat split.
Qed.
Theorem darendeli_stiffer id id' n n' uw uw' d d' given given' ss s s' :
  0 <= da_pi d <= da_pi d' -> 0 < da_ocr d <= da_ocr d' -> 0 < da_stress d <= da_stress d' ->
  List.Forall (fun s => 0 < s) (strains_or_default ss) -> strains_or_default ss <> [] ->
  darendeli_soil id n uw d given ss = Some s -> darendeli_soil id' n' uw' d' given' ss = Some s' -> stiffer s s'.
Proof.
  intros H1 H2 H3 Hs N E E'. unfold darendeli_soil in E, E'.
  destruct (mh_soil_parts _ _ _ _ _ _ _ _ _ _ E) as (sc & sr & c & dm & Ec & Er & Ek & Em).
  destruct (mh_soil_parts _ _ _ _ _ _ _ _ _ _ E') as (sc' & sr' & c' & dm' & Ec' & Er' & Ek' & Em').
  destruct (darendeli_ref d) as (r & Q & P & F); try lra. destruct (darendeli_ref d') as (r' & Q' & P' & F'); try lra.
  rewrite Ec, Er, Em in E. rewrite Ec', Er', Em' in E'.
  refine (mh_soil_stiffer _ _ _ _ _ _ _ _ _ _ _ _ _ _ _ _ _ _ _ _ Hs N E E').
  - assert (sr = r) by congruence. assert (sr' = r') by congruence. subst sr sr'. split; [exact P|]. rewrite F, F'.
    assert (A : Rpower (da_ocr d) 0.3246 <= Rpower (da_ocr d') 0.3246) by (apply Rpower_le_base; lra).
    assert (B : Rpower (da_stress d * KPA_TO_ATM) 0.3483 <= Rpower (da_stress d' * KPA_TO_ATM) 0.3483).
    { apply Rpower_le_base; [lra|]. unfold KPA_TO_ATM. lra. }
    pose proof (exp_pos (0.3246 * ln (da_ocr d))). pose proof (exp_pos (0.3483 * ln (da_stress d * KPA_TO_ATM))).
    fold (Rpower (da_ocr d) 0.3246) (Rpower (da_stress d * KPA_TO_ATM) 0.3483) in *.
    assert (C : da_pi d * Rpower (da_ocr d) 0.3246 <= da_pi d' * Rpower (da_ocr d') 0.3246) by (apply Rmult_le_compat; lra).
    assert (0 <= da_pi d * Rpower (da_ocr d) 0.3246) by (apply Rmult_le_pos; lra).
    unfold Rdiv. apply Rmult_le_compat_r; [lra|]. apply Rmult_le_compat; lra.
  - unfold darendeli_curvature. lra.
Qed.

Theorem darendeli_minimum_trend d d' dm dm' : 0 <= da_pi d <= da_pi d' -> 0 < da_ocr d' <= da_ocr d -> 0 < da_stress d' <= da_stress d ->
  1 <= da_freq d <= da_freq d' -> darendeli_damping_min d = Some dm -> darendeli_damping_min d' = Some dm' -> 0 < dm <= dm'.
Proof.
  intros H1 H2 H3 H4. unfold darendeli_damping_min.
  assert (A1 : 0 < da_stress d * KPA_TO_ATM) by (apply atm_pos; lra). assert (A2 : 0 < da_stress d' * KPA_TO_ATM) by (apply atm_pos; lra).
  rewrite !pow_opt_pos by lra. cbn [opt_bind]. rewrite !ln_opt_pos by lra. cbn [opt_bind].
  intros E E'. injection E as <-. injection E' as <-.
  assert (A : Rpower (da_ocr d) (-0.1069) <= Rpower (da_ocr d') (-0.1069)) by (apply Rpower_ge_base; lra).
  assert (B : Rpower (da_stress d * KPA_TO_ATM) (-0.2889) <= Rpower (da_stress d' * KPA_TO_ATM) (-0.2889)).
  { apply Rpower_ge_base; [lra|]. split; [lra|]. unfold KPA_TO_ATM. lra. }
  assert (L0 : 0 <= ln (da_freq d)) by (rewrite <- ln_1; apply ln_le; lra).
  assert (L1 : ln (da_freq d) <= ln (da_freq d')) by (apply ln_le; lra).
  pose proof (exp_pos (-0.1069 * ln (da_ocr d))). pose proof (exp_pos (-0.2889 * ln (da_stress d * KPA_TO_ATM))).
  fold (Rpower (da_ocr d) (-0.1069)) (Rpower (da_stress d * KPA_TO_ATM) (-0.2889)) in *.
  assert (C : da_pi d * Rpower (da_ocr d) (-0.1069) <= da_pi d' * Rpower (da_ocr d') (-0.1069)) by (apply Rmult_le_compat; lra).
  assert (0 <= da_pi d * Rpower (da_ocr d) (-0.1069)) by (apply Rmult_le_pos; lra).
  set (o := Rpower (da_ocr d) (-0.1069)) in *. set (o' := Rpower (da_ocr d') (-0.1069)) in *.
  set (q := Rpower (da_stress d * KPA_TO_ATM) (-0.2889)) in *. set (q' := Rpower (da_stress d' * KPA_TO_ATM) (-0.2889)) in *.
  assert (X : 0 < (0.8005 + 0.0129 * da_pi d * o) * q) by (apply Rmult_lt_0_compat; lra).
  assert (Y : (0.8005 + 0.0129 * da_pi d * o) * q <= (0.8005 + 0.0129 * da_pi d' * o') * q') by (apply Rmult_le_compat; lra).
  assert (Z : 0 < (0.8005 + 0.0129 * da_pi d * o) * q * (1 + 0.2919 * ln (da_freq d))) by (apply Rmult_lt_0_compat; lra).
  assert (W : (0.8005 + 0.0129 * da_pi d * o) * q * (1 + 0.2919 * ln (da_freq d)) <=
    (0.8005 + 0.0129 * da_pi d' * o') * q' * (1 + 0.2919 * ln (da_freq d'))) by (apply Rmult_le_compat; lra).
  lra.
Qed.

Theorem darendeli_damped id id' n n' uw uw' d d' ss s s' :
  da_pi d = da_pi d' -> da_ocr d = da_ocr d' -> da_stress d = da_stress d' ->
  0 <= da_pi d -> 0 < da_ocr d -> 0 < da_stress d -> 1 <= da_freq d <= da_freq d' -> 0 < da_cycles d' <= da_cycles d ->
  List.Forall (fun s => 0 < s) (strains_or_default ss) -> strains_or_default ss <> [] ->
  darendeli_soil id n uw d None ss = Some s -> darendeli_soil id' n' uw' d' None ss = Some s' -> more_damped s s'.
Proof.
  intros Q1 Q2 Q3 H1 H2 H3 H4 H5 Hs N E E'. unfold darendeli_soil in E, E'.
  destruct (mh_soil_parts _ _ _ _ _ _ _ _ _ _ E) as (sc & sr & c & dm & Ec & Er & Ek & Em).
  destruct (mh_soil_parts _ _ _ _ _ _ _ _ _ _ E') as (sc' & sr' & c' & dm' & Ec' & Er' & Ek' & Em').
  rewrite Ec, Er, Em in E. rewrite Ec', Er', Em' in E'. cbn [or_else] in Em, Em'.
  assert (sr = sr').
  { unfold darendeli_strain_ref in Er, Er'. rewrite <- Q1, <- Q2, <- Q3 in Er'. congruence. }
  subst sr'. destruct (darendeli_ref d H1 H2 H3) as (r & Qr & P & _). assert (sr = r) by congruence. subst r.
  refine (mh_soil_damped _ _ _ _ _ _ _ _ _ _ _ _ _ _ _ _ _ _ _ P _ Hs N E E').
  - unfold darendeli_scaling in Ec, Ec'. rewrite ln_opt_pos in Ec by lra. rewrite ln_opt_pos in Ec' by lra. cbn [opt_bind] in Ec, Ec'.
    injection Ec as <-. injection Ec' as <-. pose proof (ln_le (da_cycles d') (da_cycles d)). lra.
  - apply (darendeli_minimum_trend d d' dm dm'); try assumption; lra.
  - unfold darendeli_curvature. lra.
Qed.

(** * Menq *)
Lemma menq_ref m : 0 < mq_cu m -> 0 < mq_stress m ->
  menq_strain_ref m = Some (0.12 / 100 * exp (-0.6 * ln (mq_cu m) + 0.5 * exp (-0.15 * ln (mq_cu m)) * ln (mq_stress m * KPA_TO_ATM))).
Proof.
  intros H1 H2. unfold menq_strain_ref. rewrite !pow_opt_pos by (assumption || now apply atm_pos). cbn [opt_bind].
  rewrite pow_opt_pos by now apply atm_pos. cbn [opt_bind]. f_equal. rewrite exp_plus. unfold Rpower. field.
Qed.
Theorem menq_stiffer id id' n n' uw uw' m m' given given' ss s s' :
  1 <= mq_cu m' <= mq_cu m -> mq_stress m = mq_stress m' -> exp (-8) <= mq_stress m * KPA_TO_ATM ->
  0 < 0.86 + 0.1 * (ln (mq_stress m * KPA_TO_ATM) / ln 10) ->
  List.Forall (fun s => 0 < s) (strains_or_default ss) -> strains_or_default ss <> [] ->
  menq_soil id n uw m given ss = Some s -> menq_soil id' n' uw' m' given' ss = Some s' -> stiffer s s'.
Proof.
  intros H1 Q H2 H3 Hs N E E'. unfold menq_soil in E, E'. pose proof (exp_pos (-8)) as P8.
  assert (Hst : 0 < mq_stress m) by (revert H2; unfold KPA_TO_ATM; lra).
  destruct (mh_soil_parts _ _ _ _ _ _ _ _ _ _ E) as (sc & sr & c & dm & Ec & Er & Ek & Em).
  destruct (mh_soil_parts _ _ _ _ _ _ _ _ _ _ E') as (sc' & sr' & c' & dm' & Ec' & Er' & Ek' & Em').
  assert (c = c') by (unfold menq_curvature in Ek, Ek'; rewrite <- Q in Ek'; congruence). subst c'.
  rewrite Ec, Er, Ek, Em in E. rewrite Ec', Er', Ek', Em' in E'.
  refine (mh_soil_stiffer _ _ _ _ _ _ _ _ _ _ _ _ _ _ _ _ _ _ _ _ Hs N E E').
  - rewrite menq_ref in Er by lra. rewrite menq_ref in Er' by lra. injection Er as <-. injection Er' as <-. rewrite <- Q.
    split; [apply Rmult_lt_0_compat; [lra|apply exp_pos]|]. apply Rmult_le_compat_l; [lra|].
    set (L := ln (mq_cu m)). set (L' := ln (mq_cu m')). set (S := ln (mq_stress m * KPA_TO_ATM)).
    assert (HL : 0 <= L' <= L) by (unfold L, L'; split; [rewrite <- ln_1; apply ln_le; lra|apply ln_le; lra]).
    assert (HS : -8 <= S) by (unfold S; rewrite <- (ln_exp (-8)); apply ln_le; lra).
    assert (X : exp (-0.15 * L') - exp (-0.15 * L) <= 0.15 * (L - L')).
    { replace (exp (-0.15 * L)) with (exp (-0.15 * L') * exp (-0.15 * (L - L'))) by (rewrite <- exp_plus; apply f_equal; ring).
      pose proof (exp_ineq1_le (-0.15 * (L - L'))) as I1. pose proof (exp_pos (-0.15 * L')) as I2.
      assert (I3 : exp (-0.15 * L') <= 1) by (rewrite <- exp_0; destruct (proj1 HL) as [G|G]; [left; apply exp_increasing; lra|rewrite <- G; right; apply f_equal; ring]).
      assert (I4 : exp (-0.15 * L') * (1 + -0.15 * (L - L')) <= exp (-0.15 * L') * exp (-0.15 * (L - L'))) by (apply Rmult_le_compat_l; lra).
      assert (I5 : exp (-0.15 * L') * (0.15 * (L - L')) <= 1 * (0.15 * (L - L'))) by (apply Rmult_le_compat_r; lra). lra. }
    assert (X0 : 0 <= exp (-0.15 * L') - exp (-0.15 * L)).
    { assert (exp (-0.15 * L) <= exp (-0.15 * L')); [|lra]. destruct (proj2 HL) as [G|G]; [left; apply exp_increasing; lra|rewrite G; lra]. }
    set (u := exp (-0.15 * L')) in *. set (v := exp (-0.15 * L)) in *.
    assert (G : -0.6 * L + 0.5 * v * S <= -0.6 * L' + 0.5 * u * S).
    { assert (0 <= (u - v) * (S + 8)) by (apply Rmult_le_pos; lra). lra. }
    destruct G as [G|G]; [left; now apply exp_increasing|rewrite G; lra].
  - unfold menq_curvature in Ek. rewrite ln_opt_pos in Ek by now apply atm_pos. cbn [opt_bind] in Ek. injection Ek as <-. exact H3.
Qed.
Theorem menq_minimum_trend m m' dm dm' : 0 < mq_cu m <= mq_cu m' -> 0 < mq_d50 m' <= mq_d50 m -> 0 < mq_stress m' <= mq_stress m ->
  menq_damping_min m = Some dm -> menq_damping_min m' = Some dm' -> 0 < dm <= dm'.
Proof.
  intros H1 H2 H3. unfold menq_damping_min.
  assert (A1 : 0 < mq_stress m * KPA_TO_ATM) by (apply atm_pos; lra). assert (A2 : 0 < mq_stress m' * KPA_TO_ATM) by (apply atm_pos; lra).
  rewrite !pow_opt_pos by lra. cbn [opt_bind]. intros E E'. injection E as <-. injection E' as <-.
  assert (A : Rpower (mq_cu m) 0.1 <= Rpower (mq_cu m') 0.1) by (apply Rpower_le_base; lra).
  assert (B : Rpower (mq_d50 m) (-0.3) <= Rpower (mq_d50 m') (-0.3)) by (apply Rpower_ge_base; lra).
  assert (C : Rpower (mq_stress m * KPA_TO_ATM) (-0.08) <= Rpower (mq_stress m' * KPA_TO_ATM) (-0.08)).
  { apply Rpower_ge_base; [lra|]. split; [lra|]. unfold KPA_TO_ATM. lra. }
  assert (P : forall x y, 0 < Rpower x y) by (intros; apply exp_pos).
  pose proof (P (mq_cu m) 0.1). pose proof (P (mq_d50 m) (-0.3)). pose proof (P (mq_stress m * KPA_TO_ATM) (-0.08)).
  assert (X : 0 < 0.55 * Rpower (mq_cu m) 0.1 * Rpower (mq_d50 m) (-0.3)) by (apply Rmult_lt_0_compat; [apply Rmult_lt_0_compat|]; lra).
  assert (Y : 0.55 * Rpower (mq_cu m) 0.1 * Rpower (mq_d50 m) (-0.3) <= 0.55 * Rpower (mq_cu m') 0.1 * Rpower (mq_d50 m') (-0.3)) by (apply Rmult_le_compat; lra).
  assert (Z : 0 < 0.55 * Rpower (mq_cu m) 0.1 * Rpower (mq_d50 m) (-0.3) * Rpower (mq_stress m * KPA_TO_ATM) (-0.08)) by (apply Rmult_lt_0_compat; lra).
  assert (W : 0.55 * Rpower (mq_cu m) 0.1 * Rpower (mq_d50 m) (-0.3) * Rpower (mq_stress m * KPA_TO_ATM) (-0.08) <=
    0.55 * Rpower (mq_cu m') 0.1 * Rpower (mq_d50 m') (-0.3) * Rpower (mq_stress m' * KPA_TO_ATM) (-0.08)) by (apply Rmult_le_compat; lra).
  lra.
Qed.

(** * Rollins *)
Theorem rollins_stiffer id id' n n' uw uw' r r' given given' ss s s' :
  (ro_cu r = None /\ ro_cu r' = None \/ exists a b, ro_cu r = Some a /\ ro_cu r' = Some b /\ 0 < b <= a) ->
  0 < ro_stress r <= ro_stress r' ->
  List.Forall (fun s => 0 < s) (strains_or_default ss) -> strains_or_default ss <> [] ->
  rollins_soil id n uw r given ss = Some s -> rollins_soil id' n' uw' r' given' ss = Some s' -> stiffer s s'.
Proof.
  intros Hc H1 Hs N E E'. unfold rollins_soil in E, E'.
  destruct (mh_soil_parts _ _ _ _ _ _ _ _ _ _ E) as (sc & sr & c & dm & Ec & Er & Ek & Em).
  destruct (mh_soil_parts _ _ _ _ _ _ _ _ _ _ E') as (sc' & sr' & c' & dm' & Ec' & Er' & Ek' & Em').
  rewrite Ec, Er, Em in E. rewrite Ec', Er', Em' in E'.
  refine (mh_soil_stiffer _ _ _ _ _ _ _ _ _ _ _ _ _ _ _ _ _ _ _ _ Hs N E E'); [|lra].
  assert (P : forall x y, 0 < Rpower x y) by (intros; apply exp_pos).
  unfold rollins_strain_ref in Er, Er'. destruct Hc as [[C C']|(a & b & C & C' & Hab)]; rewrite C in Er; rewrite C' in Er'.
  - rewrite pow_opt_pos in Er by lra. rewrite pow_opt_pos in Er' by lra. cbn [opt_bind] in Er, Er'. injection Er as <-. injection Er' as <-.
    pose proof (Rpower_le_base (ro_stress r) (ro_stress r') 0.42 ltac:(lra) H1). pose proof (P (ro_stress r) 0.42). lra.
  - rewrite !pow_opt_pos in Er by lra. rewrite !pow_opt_pos in Er' by lra. cbn [opt_bind] in Er, Er'.
    injection Er as <-. injection Er' as <-.
    pose proof (Rpower_le_base (ro_stress r) (ro_stress r') 0.52 ltac:(lra) H1). pose proof (P (ro_stress r) 0.52).
    pose proof (Rpower_ge_base b a (-0.197) ltac:(lra) Hab). pose proof (P a (-0.197)).
    assert (X : 0 < 0.0046 * Rpower a (-0.197) * Rpower (ro_stress r) 0.52) by (apply Rmult_lt_0_compat; [apply Rmult_lt_0_compat|]; lra).
    assert (Y : 0.0046 * Rpower a (-0.197) * Rpower (ro_stress r) 0.52 <= 0.0046 * Rpower b (-0.197) * Rpower (ro_stress r') 0.52) by (apply Rmult_le_compat; lra).
    lra.
Qed.
Theorem menq_damped id id' n n' uw uw' m m' ss s s' :
  mq_cu m = mq_cu m' -> mq_stress m = mq_stress m' -> 0 < mq_cu m -> 0 < mq_stress m ->
  0 < 0.86 + 0.1 * (ln (mq_stress m * KPA_TO_ATM) / ln 10) <= 3 / 2 ->
  0 < mq_d50 m' <= mq_d50 m -> 0 < mq_cycles m' <= mq_cycles m ->
  List.Forall (fun s => 0 < s) (strains_or_default ss) -> strains_or_default ss <> [] ->
  menq_soil id n uw m None ss = Some s -> menq_soil id' n' uw' m' None ss = Some s' -> more_damped s s'.
Proof.
  intros Q1 Q2 H1 H2 H3 H4 H5 Hs N E E'. unfold menq_soil in E, E'.
  destruct (mh_soil_parts _ _ _ _ _ _ _ _ _ _ E) as (sc & sr & c & dm & Ec & Er & Ek & Em).
  destruct (mh_soil_parts _ _ _ _ _ _ _ _ _ _ E') as (sc' & sr' & c' & dm' & Ec' & Er' & Ek' & Em').
  rewrite Ec, Er, Ek, Em in E. rewrite Ec', Er', Ek', Em' in E'. cbn [or_else] in Em, Em'.
  assert (c = c') by (unfold menq_curvature in Ek, Ek'; rewrite <- Q2 in Ek'; congruence). subst c'.
  assert (sr = sr') by (unfold menq_strain_ref in Er, Er'; rewrite <- Q1, <- Q2 in Er'; congruence). subst sr'.
  refine (mh_soil_damped _ _ _ _ _ _ _ _ _ _ _ _ _ _ _ _ _ _ _ _ _ Hs N E E').
  - unfold menq_scaling in Ec, Ec'. rewrite ln_opt_pos in Ec by lra. rewrite ln_opt_pos in Ec' by lra. cbn [opt_bind] in Ec, Ec'.
    injection Ec as <-. injection Ec' as <-. pose proof (ln_le (mq_cycles m') (mq_cycles m)). lra.
  - apply (menq_minimum_trend m m' dm dm'); try assumption; lra.
  - rewrite menq_ref in Er by assumption. injection Er as <-. apply Rmult_lt_0_compat; [lra|apply exp_pos].
  - unfold menq_curvature in Ek. rewrite ln_opt_pos in Ek by now apply atm_pos. cbn [opt_bind] in Ek. injection Ek as <-. exact H3.
Qed.
Theorem rollins_damped id id' n n' uw uw' r r' dm dm' ss s s' :
  ro_cu r = ro_cu r' -> ro_stress r = ro_stress r' -> (forall a, ro_cu r = Some a -> 0 < a) -> 0 < ro_stress r ->
  0 < ro_cycles r' <= ro_cycles r -> dm <= dm' ->
  List.Forall (fun s => 0 < s) (strains_or_default ss) -> strains_or_default ss <> [] ->
  rollins_soil id n uw r (Some dm) ss = Some s -> rollins_soil id' n' uw' r' (Some dm') ss = Some s' -> more_damped s s'.
Proof.
  intros Q1 Q2 H1 H2 H3 H4 Hs N E E'. unfold rollins_soil in E, E'. cbn [or_else] in E, E'.
  destruct (mh_soil_parts _ _ _ _ _ _ _ _ _ _ E) as (sc & sr & c & d & Ec & Er & Ek & Em).
  destruct (mh_soil_parts _ _ _ _ _ _ _ _ _ _ E') as (sc' & sr' & c' & d' & Ec' & Er' & Ek' & Em').
  rewrite Ec, Er in E. rewrite Ec', Er' in E'.
  assert (sr = sr') by (unfold rollins_strain_ref in Er, Er'; rewrite <- Q1, <- Q2 in Er'; congruence). subst sr'.
  refine (mh_soil_damped _ _ _ _ _ _ _ _ _ _ _ _ _ _ _ _ _ _ H4 _ _ Hs N E E'); [| |lra].
  - unfold rollins_scaling in Ec, Ec'. rewrite ln_opt_pos in Ec by lra. rewrite ln_opt_pos in Ec' by lra. cbn [opt_bind] in Ec, Ec'.
    injection Ec as <-. injection Ec' as <-. pose proof (ln_le (ro_cycles r') (ro_cycles r)). lra.
  - unfold rollins_strain_ref in Er. destruct (ro_cu r) as [a|].
    + specialize (H1 a eq_refl). rewrite !pow_opt_pos in Er by lra. cbn [opt_bind] in Er. injection Er as <-.
      pose proof (Rpower_gt0 a (-0.197)). pose proof (Rpower_gt0 (ro_stress r) 0.52).
      assert (0 < 0.0046 * Rpower a (-0.197) * Rpower (ro_stress r) 0.52) by (apply Rmult_lt_0_compat; [apply Rmult_lt_0_compat|]; lra). lra.
    + rewrite pow_opt_pos in Er by lra. cbn [opt_bind] in Er. injection Er as <-. pose proof (Rpower_gt0 (ro_stress r) 0.42). lra.
Qed.
