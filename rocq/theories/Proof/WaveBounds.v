(** Bounds of the amplification by impedance contrasts, and the closed forms of one layer on a
    half-space: C122 and C123. *)
From Coq Require Import List.
From Verif Require Import Common Proof.CommonFacts Model.Curve Model.Layer Model.Profile Model.Cplx Model.Waves
  Spec.ProfileSpec Spec.WaveSpec Proof.CplxFacts Proof.WaveFacts Proof.WaveSplit Proof.WaveEnergy Proof.WaveProps.
From Coquelicot Require Import Complex.
Local Open Scope R_scope.

(** * Square roots of scaled numbers *)
Lemma Csqrt_scale r z : 0 < r -> Csqrt (Cmult (RtoC r) z) = Cmult (RtoC (sqrt r)) (Csqrt z).
Proof.
  intros Hr. pose proof (sqrt_lt_R0 r Hr) as Hs. unfold Csqrt. rewrite Cmod_mult, Cmod_R, Rabs_pos_eq by lra.
  assert (ER : Re (Cmult (RtoC r) z) = r * Re z) by (unfold Cmult, RtoC, Re, Im; cbn; ring).
  assert (EI : Im (Cmult (RtoC r) z) = r * Im z) by (unfold Cmult, RtoC, Re, Im; cbn; ring).
  rewrite ER, EI.
  replace ((r * Cmod z + r * Re z) / 2) with (r * ((Cmod z + Re z) / 2)) by field.
  replace ((r * Cmod z - r * Re z) / 2) with (r * ((Cmod z - Re z) / 2)) by field.
  rewrite !sqrt_mult_alt by lra.
  assert (EB : Rltb (r * Im z) 0 = Rltb (Im z) 0).
  { unfold Rltb. destruct (Rlt_dec (r * Im z) 0), (Rlt_dec (Im z) 0); try reflexivity; exfalso; nra. }
  rewrite EB. apply C_ext; unfold Cmult, RtoC, Re, Im; cbn [fst snd]; destruct (Rltb (snd z) 0); ring.
Qed.

(** Velocity of a layer as its real velocity times a factor depending on the damping only. *)
Definition vel_factor (d : R) : C := Csqrt (sqrt (1 - 4 * d ^ 2), 2 * d).
Lemma vel_scaled l d : 0 < shear_mod l -> 0 < s_unit_wt (l_soil l) -> limited_damping (damping l) d ->
  wl_vel (wlayer_of l) = Cmult (RtoC (sqrt (shear_mod l / density (l_soil l)))) (vel_factor d).
Proof.
  intros HG Hu Hd. rewrite (limited_unique _ _ _ Hd (clip_limited (damping l))). cbn [wlayer_of wl_vel].
  unfold comp_shear_vel. rewrite vel_arg by assumption. pose proof (density_pos l Hu) as Hr. unfold vel_factor.
  rewrite <- Csqrt_scale by (apply Rdiv_lt_0_compat; assumption). f_equal. unfold Cmult, RtoC. cbn [fst snd]. f_equal; field; lra.
Qed.
Lemma factor_parts d : 0 <= d <= 0.49 -> 0 < Re (vel_factor d) /\ 0 <= Im (vel_factor d) /\ (d = 0 -> Im (vel_factor d) = 0).
Proof.
  intros Hd. split; [|split].
  - apply Csqrt_Re_pos. unfold Re; cbn [fst]. apply sqrt_lt_R0. nra.
  - apply Csqrt_Im_nonneg. unfold Im; cbn [snd]. lra.
  - intros ->. unfold vel_factor, Csqrt, Im. cbn [fst snd]. replace (2 * 0) with 0 by ring. replace (1 - 4 * 0 ^ 2) with 1 by ring. rewrite sqrt_1.
    replace (Cmod (1, 0)) with 1 by (unfold Cmod; cbn [fst snd]; replace (1 ^ 2 + 0 ^ 2) with 1 by ring; now rewrite sqrt_1).
    unfold Re. cbn [fst]. unfold Rltb. destruct (Rlt_dec 0 0); [lra|]. replace ((1 - 1) / 2) with 0 by lra. apply sqrt_0.
Qed.

(** * One interface *)
Lemma Cmod_sub_ge x y : Cmod x - Cmod y <= Cmod (Cplus x y).
Proof.
  pose proof (Cmod_triangle (Cplus x y) (Copp y)) as H. replace (Cplus (Cplus x y) (Copp y)) with x in H by ring. rewrite Cmod_opp in H. lra.
Qed.
Lemma Cmod_half x : Cmod (Cmult c_half x) = Cmod x / 2.
Proof. unfold c_half. rewrite Cmod_mult, Cmod_R, Rabs_pos_eq by lra. lra. Qed.
Lemma transmit_real_bounds al ct a b : 0 < al ->
  let X := Cmult a (Cexp ct) in let Y := Cmult b (Cexp (Copp ct)) in
  let r := transmit (RtoC al) ct a b in
  Cmod Y <= Cmod X ->
  Rmin 1 al * Cmod X <= Cmod (fst r) <= Rmax 1 al * Cmod X /\ Cmod (snd r) <= Cmod (fst r).
Proof.
  intros Ha X Y r HY. pose proof (Cmod_ge_0 X) as PX. pose proof (Cmod_ge_0 Y) as PY.
  assert (E1 : fst r = Cplus (Cmult (RtoC ((1 + al) / 2)) X) (Cmult (RtoC ((1 - al) / 2)) Y)).
  { unfold r, transmit, X, Y, c_half, c_one. cbn [fst]. rewrite !(RtoC_div), ?RtoC_plus, ?RtoC_minus by lra. field. intros E. apply RtoC_inj in E. lra. }
  assert (E2 : snd r = Cplus (Cmult (RtoC ((1 - al) / 2)) X) (Cmult (RtoC ((1 + al) / 2)) Y)).
  { unfold r, transmit, X, Y, c_half, c_one. cbn [snd]. rewrite !(RtoC_div), ?RtoC_plus, ?RtoC_minus by lra. field. intros E. apply RtoC_inj in E. lra. }
  assert (M1 : Cmod (Cmult (RtoC ((1 + al) / 2)) X) = (1 + al) / 2 * Cmod X) by (rewrite Cmod_mult, Cmod_R, Rabs_pos_eq by lra; reflexivity).
  assert (M2 : Cmod (Cmult (RtoC ((1 - al) / 2)) Y) = Rabs ((1 - al) / 2) * Cmod Y) by (rewrite Cmod_mult, Cmod_R; reflexivity).
  split.
  - rewrite E1. pose proof (Cmod_sub_ge (Cmult (RtoC ((1 + al) / 2)) X) (Cmult (RtoC ((1 - al) / 2)) Y)) as L.
    pose proof (Cmod_triangle (Cmult (RtoC ((1 + al) / 2)) X) (Cmult (RtoC ((1 - al) / 2)) Y)) as U. rewrite M1, M2 in L, U.
    unfold Rmin, Rmax, Rabs in *. destruct (Rle_dec 1 al), (Rcase_abs ((1 - al) / 2)); try lra; nra.
  - assert (HS : Cmod (snd r) ^ 2 <= Cmod (fst r) ^ 2).
    { assert (D : Cmod (fst r) ^ 2 - Cmod (snd r) ^ 2 = al * (Cmod X ^ 2 - Cmod Y ^ 2)).
      { rewrite E1, E2. clear. destruct X as [x1 x2], Y as [y1 y2].
        assert (Q : forall z, Cmod z ^ 2 = Re z ^ 2 + Im z ^ 2) by (intros z; rewrite <- Cmod_sqr; ring). rewrite !Q.
        unfold Cplus, Cmult, RtoC, Re, Im; cbn [fst snd]. field. }
      assert (0 <= al * (Cmod X ^ 2 - Cmod Y ^ 2)) by (apply Rmult_le_pos; nra). lra. }
    pose proof (Cmod_ge_0 (fst r)). pose proof (Cmod_ge_0 (snd r)). nra.
Qed.

(** * The size of the plane-wave factors *)
Lemma Cmod_Cexp z : Cmod (Cexp z) = exp (Re z).
Proof.
  unfold Cmod, Cexp. cbn [fst snd]. replace ((exp (Re z) * cos (Im z)) ^ 2 + (exp (Re z) * sin (Im z)) ^ 2) with (exp (Re z) ^ 2).
  - apply sqrt_pow2. left. apply exp_pos.
  - pose proof (sin2_cos2 (Im z)) as E. unfold Rsqr in E. replace ((exp (Re z) * cos (Im z)) ^ 2 + (exp (Re z) * sin (Im z)) ^ 2) with
      (exp (Re z) ^ 2 * (sin (Im z) * sin (Im z) + cos (Im z) * cos (Im z))) by ring. rewrite E. ring.
Qed.
Lemma cterm_Re k z : Re (cterm k z) = - Im k * z.
Proof. destruct k. unfold cterm, Cmult, Ci, RtoC, Re, Im; cbn. ring. Qed.
Lemma wave_down w v z : 0 < w -> 0 < Re v -> 0 <= Im v -> 0 <= z ->
  1 <= Cmod (Cexp (cterm (Cdiv (RtoC w) v) z)) /\ Cmod (Cexp (Copp (cterm (Cdiv (RtoC w) v) z))) <= 1 /\
  (Im v = 0 -> Cmod (Cexp (cterm (Cdiv (RtoC w) v) z)) = 1).
Proof.
  intros Hw HR HI Hz. destruct v as [a b]. unfold Re, Im in HR, HI. cbn [fst snd] in HR, HI.
  assert (E : Im (Cdiv (RtoC w) (a, b)) = - (w * b / (a * a + b * b))).
  { unfold Cdiv, Cinv, Cmult, RtoC, Im. cbn [fst snd]. field. nra. }
  assert (HQ : 0 <= w * b / (a * a + b * b) * z).
  { apply Rmult_le_pos; [|exact Hz]. apply Rmult_le_pos; [nra|]. left. apply Rinv_0_lt_compat. nra. }
  rewrite !Cmod_Cexp. assert (EO : Re (Copp (cterm (Cdiv (RtoC w) (a, b)) z)) = - Re (cterm (Cdiv (RtoC w) (a, b)) z)) by reflexivity.
  rewrite EO, cterm_Re, E. replace (- - (w * b / (a * a + b * b)) * z) with (w * b / (a * a + b * b) * z) by ring.
  split; [|split].
  - rewrite <- exp_0. destruct HQ as [HQ|<-]; [left; now apply exp_increasing|lra].
  - rewrite <- exp_0. destruct HQ as [HQ|HQ]; [left; apply exp_increasing; lra|]. rewrite <- HQ, Ropp_0. lra.
  - unfold Im. cbn [snd]. intros ->. rewrite <- exp_0. f_equal. unfold Rdiv. ring.
Qed.

(** * The waves of a profile with one damping ratio *)
Lemma impedance_pos l : sound l -> 0 < impedance l.
Proof. intros (HG & Hu & _). apply sqrt_lt_R0. apply Rmult_lt_0_compat; [exact HG|now apply density_pos]. Qed.
Lemma impedance_vel l : sound l -> impedance l = density (l_soil l) * sqrt (shear_mod l / density (l_soil l)).
Proof.
  intros (HG & Hu & _). pose proof (density_pos l Hu) as Hr. unfold impedance.
  replace (shear_mod l * density (l_soil l)) with ((density (l_soil l) * density (l_soil l)) * (shear_mod l / density (l_soil l))) by (field; lra).
  rewrite sqrt_mult_alt by nra. now rewrite sqrt_square by lra.
Qed.
Lemma contrast_real w d l l' : 0 < w -> 0 <= d <= 0.49 -> sound l -> sound l' -> limited_damping (damping l) d -> limited_damping (damping l') d ->
  Cdiv (Cmult (Cdiv (RtoC w) (wl_vel (wlayer_of l))) (wl_mod (wlayer_of l)))
       (Cmult (Cdiv (RtoC w) (wl_vel (wlayer_of l'))) (wl_mod (wlayer_of l'))) = RtoC (impedance l / impedance l').
Proof.
  intros Hw Hd Hl Hl' Dl Dl'. pose proof (impedance_pos l Hl) as P. pose proof (impedance_pos l' Hl') as P'.
  assert (HK : forall l, sound l -> limited_damping (damping l) d ->
     Cmult (Cdiv (RtoC w) (wl_vel (wlayer_of l))) (wl_mod (wlayer_of l)) = Cmult (RtoC w) (Cmult (RtoC (impedance l)) (vel_factor d))).
  { intros x Hx Dx. pose proof (phys_carries _ (sound_phys _ Hx)) as [Cv _]. rewrite (impedance_vel x Hx). destruct Hx as (HG & Hu & Ht).
    pose proof (vel_sqr x Hu) as V. change (wl_mod (wlayer_of x)) with (comp_shear_mod x). rewrite <- V. change (comp_shear_vel x) with (wl_vel (wlayer_of x)).
    transitivity (Cmult (RtoC w) (Cmult (RtoC (density (l_soil x))) (wl_vel (wlayer_of x)))); [field; exact Cv|].
    rewrite (vel_scaled x d HG Hu Dx). rewrite RtoC_mult. ring. }
  rewrite (HK l Hl Dl), (HK l' Hl' Dl').
  assert (NV : vel_factor d <> RtoC 0).
  { intros E. destruct (factor_parts d Hd) as [H _]. rewrite E in H. unfold RtoC, Re in H. cbn in H. lra. }
  assert (NW : RtoC w <> RtoC 0) by (apply RtoC_neq_0; lra). assert (NI : RtoC (impedance l') <> RtoC 0) by (apply RtoC_neq_0; lra).
  rewrite RtoC_div by lra. field. now repeat split.
Qed.

Lemma gain_snoc (f : R -> R -> R) (g : list layer -> R)
  (Hg : forall a b rest, g (a :: b :: rest) = f 1 (impedance b / impedance a) * g (b :: rest)) (H1 : forall a, g [a] = 1) :
  forall ls i a b, nth_error ls i = Some a -> nth_error ls (S i) = Some b ->
  g (firstn (S (S i)) ls) = g (firstn (S i) ls) * f 1 (impedance b / impedance a).
Proof.
  induction ls as [|x ls IH]; intros i a b Ha Hb; [destruct i; discriminate|]. destruct i as [|i].
  - cbn in Ha. injection Ha as ->. destruct ls as [|y ls]; [discriminate|]. cbn in Hb. injection Hb as ->.
    cbn [firstn]. rewrite Hg, !H1. ring.
  - cbn [nth_error] in Ha, Hb. specialize (IH i a b Ha Hb). destruct ls as [|y ls]; [destruct i; discriminate|].
    change (firstn (S (S (S i))) (x :: y :: ls)) with (x :: firstn (S (S i)) (y :: ls)).
    change (firstn (S (S i)) (x :: y :: ls)) with (x :: firstn (S i) (y :: ls)).
    cbn [firstn] in IH |- *. rewrite !Hg. rewrite IH. ring.
Qed.
Lemma highest_snoc ls i a b : nth_error ls i = Some a -> nth_error ls (S i) = Some b ->
  highest_gain (firstn (S (S i)) ls) = highest_gain (firstn (S i) ls) * Rmax 1 (impedance b / impedance a).
Proof. apply (gain_snoc Rmax highest_gain); reflexivity. Qed.
Lemma lowest_snoc ls i a b : nth_error ls i = Some a -> nth_error ls (S i) = Some b ->
  lowest_gain (firstn (S (S i)) ls) = lowest_gain (firstn (S i) ls) * Rmin 1 (impedance b / impedance a).
Proof. apply (gain_snoc Rmin lowest_gain); reflexivity. Qed.

Lemma min_max_inv al : 0 < al -> Rmin 1 al * Rmax 1 (/ al) = 1 /\ Rmax 1 al * Rmin 1 (/ al) = 1.
Proof.
  intros Ha. assert (Pi : 0 < / al) by now apply Rinv_0_lt_compat. assert (E : / al * al = 1) by (apply Rinv_l; lra).
  unfold Rmin, Rmax. destruct (Rle_dec 1 al), (Rle_dec 1 (/ al)); split; nra.
Qed.

(** Amplitudes at the top of layer [i] for a unit wave at the surface. *)
Lemma amplitude_bounds w d ls : 0 < w -> 0 <= d <= 0.49 -> List.Forall sound ls -> same_damping d ls ->
  forall i ab, (i < length ls)%nat -> nth_error (waves_from w (map wlayer_of ls) (c_one, c_one)) i = Some ab ->
  0 < highest_gain (firstn (S i) ls) /\ 1 <= Cmod (fst ab) * highest_gain (firstn (S i) ls) /\ Cmod (snd ab) <= Cmod (fst ab) /\
  (d = 0 -> 0 < lowest_gain (firstn (S i) ls) /\ Cmod (fst ab) * lowest_gain (firstn (S i) ls) <= 1).
Proof.
  intros Hw Hd HS HD. induction i as [|i IH]; intros ab Hi Hab.
  - destruct ls as [|l ls]; [cbn in Hi; lia|]. cbn [map waves_from nth_error] in Hab. injection Hab as <-. cbn [fst snd].
    assert (E : Cmod c_one = 1) by (unfold c_one; rewrite Cmod_R, Rabs_pos_eq; lra). rewrite E. cbn. lra.
  - destruct (nth_error ls i) as [l|] eqn:El; [|apply nth_error_None in El; lia].
    destruct (nth_error ls (S i)) as [l'|] eqn:El'; [|apply nth_error_None in El'; lia].
    destruct (nth_error (waves_from w (map wlayer_of ls) (c_one, c_one)) i) as [x|] eqn:Ex.
    2:{ apply nth_error_None in Ex. rewrite waves_from_length, map_length in Ex. lia. }
    assert (Sl : sound l) by (rewrite Forall_forall in HS; apply HS; eapply nth_error_In; eauto).
    assert (Sl' : sound l') by (rewrite Forall_forall in HS; apply HS; eapply nth_error_In; eauto).
    assert (Dl : limited_damping (damping l) d) by (unfold same_damping in HD; rewrite Forall_forall in HD; apply (HD l); eapply nth_error_In; eauto).
    assert (Dl' : limited_damping (damping l') d) by (unfold same_damping in HD; rewrite Forall_forall in HD; apply (HD l'); eapply nth_error_In; eauto).
    destruct (IH x ltac:(lia) eq_refl) as (P0 & P1 & P2 & P3).
    rewrite (waves_from_next w _ _ i (wlayer_of l) (wlayer_of l') x) in Hab;
      [|rewrite nth_error_map, El; reflexivity|rewrite nth_error_map, El'; reflexivity|exact Ex]. injection Hab as <-.
    rewrite step_carry by (try lra; apply phys_carries; now apply sound_phys). rewrite (contrast_real w d l l') by assumption.
    pose proof (impedance_pos l Sl) as Il. pose proof (impedance_pos l' Sl') as Il'.
    assert (Ha : 0 < impedance l / impedance l') by (apply Rdiv_lt_0_compat; assumption).
    destruct (factor_parts d Hd) as (F1 & F2 & F3).
    assert (HV : 0 < Re (wl_vel (wlayer_of l)) /\ 0 <= Im (wl_vel (wlayer_of l)) /\ (d = 0 -> Im (wl_vel (wlayer_of l)) = 0)).
    { destruct Sl as (HG & Hu & Ht). rewrite (vel_scaled l d HG Hu Dl). set (r := sqrt _).
      assert (0 < r) by (apply sqrt_lt_R0; apply Rdiv_lt_0_compat; [exact HG|now apply density_pos]).
      assert (ER : Re (Cmult (RtoC r) (vel_factor d)) = r * Re (vel_factor d)) by (unfold Cmult, RtoC, Re, Im; cbn; ring).
      assert (EI : Im (Cmult (RtoC r) (vel_factor d)) = r * Im (vel_factor d)) by (unfold Cmult, RtoC, Re, Im; cbn; ring).
      rewrite ER, EI. split; [nra|]. split; [nra|]. intros E. rewrite (F3 E). ring. }
    destruct HV as (V1 & V2 & V3). assert (Ht : 0 <= wl_thick (wlayer_of l)) by apply Sl.
    destruct (wave_down w (wl_vel (wlayer_of l)) (wl_thick (wlayer_of l)) Hw V1 V2 Ht) as (D1 & D2 & D3).
    set (ct := cterm (Cdiv (RtoC w) (wl_vel (wlayer_of l))) (wl_thick (wlayer_of l))) in *.
    pose proof (Cmod_ge_0 (fst x)) as Px. pose proof (Cmod_ge_0 (snd x)) as Py.
    assert (HX : Cmod (Cmult (fst x) (Cexp ct)) = Cmod (fst x) * Cmod (Cexp ct)) by apply Cmod_mult.
    assert (HYX : Cmod (Cmult (snd x) (Cexp (Copp ct))) <= Cmod (Cmult (fst x) (Cexp ct))).
    { rewrite HX, Cmod_mult. apply Rle_trans with (Cmod (snd x) * 1); [apply Rmult_le_compat_l; assumption|].
      apply Rle_trans with (Cmod (fst x) * 1); [lra|]. apply Rmult_le_compat_l; assumption. }
    destruct (transmit_real_bounds (impedance l / impedance l') ct (fst x) (snd x) Ha HYX) as ((T1 & T2) & T3).
    set (r := transmit _ ct (fst x) (snd x)) in *. set (al := impedance l / impedance l') in *.
    assert (EI : impedance l' / impedance l = / al) by (unfold al; field; lra).
    rewrite (highest_snoc ls i l l' El El'), (lowest_snoc ls i l l' El El'), EI.
    destruct (min_max_inv al Ha) as [HM HM2].
    assert (Pi : 0 < / al) by now apply Rinv_0_lt_compat.
    assert (Q0 : 0 < Rmax 1 (/ al)) by (unfold Rmax; destruct (Rle_dec 1 (/ al)); lra).
    assert (Q1 : 0 < Rmin 1 (/ al)) by (unfold Rmin; destruct (Rle_dec 1 (/ al)); lra).
    rewrite HX in T1, T2. split; [now apply Rmult_lt_0_compat|]. split; [|split; [exact T3|]].
    + apply Rle_trans with ((Rmin 1 al * (Cmod (fst x) * Cmod (Cexp ct))) * (highest_gain (firstn (S i) ls) * Rmax 1 (/ al))).
      * replace ((Rmin 1 al * (Cmod (fst x) * Cmod (Cexp ct))) * (highest_gain (firstn (S i) ls) * Rmax 1 (/ al)))
          with ((Rmin 1 al * Rmax 1 (/ al)) * (Cmod (Cexp ct) * (Cmod (fst x) * highest_gain (firstn (S i) ls)))) by ring.
        rewrite HM, Rmult_1_l. nra.
      * apply Rmult_le_compat_r; [|exact T1]. left. now apply Rmult_lt_0_compat.
    + intros E. destruct (P3 E) as [L0 L1]. split; [now apply Rmult_lt_0_compat|].
      rewrite (D3 (V3 E)), Rmult_1_r in T2.
      apply Rle_trans with ((Rmax 1 al * Cmod (fst x)) * (lowest_gain (firstn (S i) ls) * Rmin 1 (/ al))).
      * apply Rmult_le_compat_r; [|exact T2]. left. now apply Rmult_lt_0_compat.
      * replace ((Rmax 1 al * Cmod (fst x)) * (lowest_gain (firstn (S i) ls) * Rmin 1 (/ al)))
          with ((Rmax 1 al * Rmin 1 (/ al)) * (Cmod (fst x) * lowest_gain (firstn (S i) ls))) by ring.
        rewrite HM2, Rmult_1_l. exact L1.
Qed.

Lemma surface_wave w l ls rs f : 1e-8 < w -> f <> IncomingOnly -> wl_vel l <> RtoC 0 -> calc_waves_python w (l :: ls) = Ok rs ->
  wave_at_location rs (mkLoc 0 0 f) = Ok (Some (RtoC 2)).
Proof.
  intros Hw Hf Hv H. destruct (surface_outcrop w l ls rs Hv H) as [H1 H2]. destruct f; [exact H2|exact H1|contradiction].
Qed.

(** C122: outcrop to surface. *)
Theorem amplification_bound w d ls rs : 1e-8 < w -> List.Forall sound ls -> same_damping d ls ->
  calc_waves_python w (map wlayer_of ls) = Ok rs ->
  forall i z f, (i < length ls)%nat -> 0 <= z -> f <> IncomingOnly ->
  exists tf, calc_accel_tf rs (mkLoc i z Outcrop) (mkLoc 0 0 f) = Ok (Some tf) /\
    Cmod tf <= highest_gain (firstn (S i) ls) /\ (d = 0 -> lowest_gain (firstn (S i) ls) <= Cmod tf).
Proof.
  intros Hw HS HD H i z f Hi Hz Hf.
  destruct (nth_error ls i) as [l|] eqn:El; [|apply nth_error_None in El; lia].
  assert (Sl : sound l) by (rewrite Forall_forall in HS; apply HS; eapply nth_error_In; eauto).
  assert (Dl : limited_damping (damping l) d) by (unfold same_damping in HD; rewrite Forall_forall in HD; apply (HD l); eapply nth_error_In; eauto).
  assert (Hd : 0 <= d <= 0.49) by apply Dl. assert (Hw' : 1e-8 < Rabs w) by (rewrite Rabs_pos_eq; lra).
  pose proof (phys_carries _ (sound_phys _ Sl)) as [Cv _].
  destruct (field_plane w _ rs i (wlayer_of l) Hw' H) as (ab & E1 & E2 & _); [rewrite nth_error_map, El; reflexivity|exact Cv|].
  destruct (amplitude_bounds w d ls ltac:(lra) Hd HS HD i ab Hi E1) as (P0 & P1 & _ & P3).
  destruct (factor_parts d Hd) as (F1 & F2 & F3).
  assert (HV : 0 < Re (wl_vel (wlayer_of l)) /\ 0 <= Im (wl_vel (wlayer_of l)) /\ (d = 0 -> Im (wl_vel (wlayer_of l)) = 0)).
  { destruct Sl as (HG & Hu & Ht). rewrite (vel_scaled l d HG Hu Dl). set (r := sqrt _).
    assert (0 < r) by (apply sqrt_lt_R0; apply Rdiv_lt_0_compat; [exact HG|now apply density_pos]).
    assert (ER : Re (Cmult (RtoC r) (vel_factor d)) = r * Re (vel_factor d)) by (unfold Cmult, RtoC, Re, Im; cbn; ring).
    assert (EI : Im (Cmult (RtoC r) (vel_factor d)) = r * Im (vel_factor d)) by (unfold Cmult, RtoC, Re, Im; cbn; ring).
    rewrite ER, EI. split; [nra|]. split; [nra|]. intros E. rewrite (F3 E). ring. }
  destruct HV as (V1 & V2 & V3). destruct (wave_down w (wl_vel (wlayer_of l)) z ltac:(lra) V1 V2 Hz) as (D1 & _ & D3).
  set (e := Cexp (cterm (Cdiv (RtoC w) (wl_vel (wlayer_of l))) z)) in *.
  assert (Pa : 0 < Cmod (fst ab)) by (pose proof (Cmod_ge_0 (fst ab)); nra).
  assert (Na : fst ab <> RtoC 0) by (apply Cmod_gt_0; exact Pa). assert (Ne : e <> RtoC 0) by apply Cexp_neq_0.
  assert (N2 : RtoC 2 <> RtoC 0) by (apply RtoC_neq_0; lra).
  assert (ES : wave_at_location rs (mkLoc 0 0 f) = Ok (Some (RtoC 2))).
  { destruct ls as [|l0 ls]; [cbn in Hi; lia|]. apply (surface_wave w (wlayer_of l0) (map wlayer_of ls)); try assumption.
    apply Forall_inv in HS. now destruct (phys_carries _ (sound_phys _ HS)). }
  assert (EI : wave_at_location rs (mkLoc i z Outcrop) = Ok (Some (Cmult (Cmult (RtoC 2) (fst ab)) e))).
  { unfold wave_at_location. cbn [loc_index loc_within loc_field]. rewrite E2. reflexivity. }
  exists (Cdiv (RtoC 1) (Cmult (fst ab) e)). unfold calc_accel_tf. rewrite ES, EI. cbn [bind]. split.
  - do 2 f_equal. rewrite cdivx_some by (repeat apply Cmult_neq_0; assumption). f_equal. field. now repeat split.
  - assert (EM : Cmod (Cdiv (RtoC 1) (Cmult (fst ab) e)) = / (Cmod (fst ab) * Cmod e)).
    { rewrite Cmod_div by (now apply Cmult_neq_0). rewrite Cmod_mult, Cmod_R, Rabs_pos_eq by lra. unfold Rdiv. ring. }
    rewrite EM. assert (PM : 0 < Cmod (fst ab) * Cmod e) by (apply Rmult_lt_0_compat; lra). split.
    + apply (Rmult_le_reg_l (Cmod (fst ab) * Cmod e)); [exact PM|]. rewrite Rinv_r by lra.
      replace (Cmod (fst ab) * Cmod e * highest_gain (firstn (S i) ls)) with (Cmod e * (Cmod (fst ab) * highest_gain (firstn (S i) ls))) by ring. nra.
    + intros E. destruct (P3 E) as [L0 L1]. rewrite (D3 (V3 E)). apply (Rmult_le_reg_l (Cmod (fst ab))); [exact Pa|]. rewrite Rmult_1_r, Rinv_r by lra. exact L1.
Qed.

Lemma stiffening_gain ls : List.Forall sound ls -> stiffening ls -> forall i a b, nth_error ls 0 = Some a -> nth_error ls i = Some b ->
  highest_gain (firstn (S i) ls) = impedance b / impedance a /\ lowest_gain (firstn (S i) ls) = 1.
Proof.
  induction ls as [|x ls IH]; intros HS HG i a b Ha Hb; [discriminate|]. cbn in Ha. injection Ha as ->.
  pose proof (impedance_pos a (Forall_inv HS)) as Pa. destruct i as [|i].
  - cbn in Hb. injection Hb as ->. cbn. split; [field; lra|reflexivity].
  - destruct ls as [|y ls]; [destruct i; discriminate|]. destruct HG as [H1 HG]. pose proof (Forall_inv (Forall_inv_tail HS)) as Sy.
    pose proof (impedance_pos y Sy) as Py. destruct (IH (Forall_inv_tail HS) HG i y b eq_refl Hb) as [G1 G2].
    change (firstn (S (S i)) (a :: y :: ls)) with (a :: firstn (S i) (y :: ls)). cbn [firstn] in G1, G2 |- *.
    cbn [highest_gain lowest_gain]. cbn [highest_gain lowest_gain] in G1, G2. rewrite G1, G2.
    assert (1 <= impedance y / impedance a) by (apply (Rmult_le_reg_r (impedance a)); [exact Pa|]; unfold Rdiv; rewrite Rmult_assoc, Rinv_l by lra; lra).
    rewrite Rmax_right, Rmin_left by assumption. split; [field; lra|ring].
Qed.

(** C122: a profile that stiffens with depth. *)
Theorem stiffening_amplification w ls rs l0 : 1e-8 < w -> List.Forall sound ls -> same_damping 0 ls -> stiffening ls ->
  nth_error ls 0 = Some l0 -> calc_waves_python w (map wlayer_of ls) = Ok rs ->
  forall i l z f, nth_error ls i = Some l -> 0 <= z -> f <> IncomingOnly ->
  exists tf, calc_accel_tf rs (mkLoc i z Outcrop) (mkLoc 0 0 f) = Ok (Some tf) /\ 1 <= Cmod tf <= impedance l / impedance l0.
Proof.
  intros Hw HS HD HG H0 H i l z f Hl Hz Hf.
  assert (Hi : (i < length ls)%nat) by (apply nth_error_Some; congruence).
  destruct (amplification_bound w 0 ls rs Hw HS HD H i z f Hi Hz Hf) as (tf & E & U & L).
  destruct (stiffening_gain ls HS HG i l0 l H0 Hl) as [G1 G2]. rewrite G1 in U. specialize (L eq_refl). rewrite G2 in L.
  exists tf. split; [exact E|]. lra.
Qed.

(** * One layer on a half-space *)
Lemma cterm_scaled k h : cterm k h = Cmult Ci (Cmult k (RtoC h)).
Proof. unfold cterm. ring. Qed.
Lemma contrast_impedance w l h : w <> 0 -> carries l -> carries h ->
  Cdiv (Cmult (Cdiv (RtoC w) (wl_vel l)) (wl_mod l)) (Cmult (Cdiv (RtoC w) (wl_vel h)) (wl_mod h)) = Cdiv (cimpedance l) (cimpedance h).
Proof.
  intros Hw [A1 A2] [B1 B2]. assert (RtoC w <> RtoC 0) by now apply RtoC_neq_0. unfold cimpedance. field. now repeat split.
Qed.
Lemma two_layer_base w l h rs : 1e-8 < Rabs w -> carries l -> carries h -> calc_waves_python w [l; h] = Ok rs ->
  let kh := Cmult (Cdiv (RtoC w) (wl_vel l)) (RtoC (wl_thick l)) in
  wave_at_location rs (mkLoc 1 0 Outcrop)
    = Ok (Some (Cmult (RtoC 2) (Cplus (Ccos kh) (Cmult (Cmult Ci (Cdiv (cimpedance l) (cimpedance h))) (Csin kh))))) /\
  wave_at_location rs (mkLoc 0 (wl_thick l) Within) = Ok (Some (Cmult (RtoC 2) (Ccos kh))).
Proof.
  intros Hw Cl Ch H kh. assert (Nw : w <> 0) by (intros E; rewrite E, Rabs_R0 in Hw; lra).
  destruct (field_plane w _ rs 0 l Hw H eq_refl (proj1 Cl)) as (ab0 & E0 & R0 & F0). cbn in E0. injection E0 as <-.
  destruct (field_plane w _ rs 1 h Hw H eq_refl (proj1 Ch)) as (ab & E1 & R1 & _).
  rewrite (waves_from_next w [l; h] (c_one, c_one) 0 l h (c_one, c_one) eq_refl eq_refl eq_refl) in E1. injection E1 as <-.
  rewrite step_carry in R1 by assumption. rewrite contrast_impedance in R1 by assumption.
  assert (N2 : RtoC 2 <> RtoC 0) by (apply RtoC_neq_0; lra). pose proof Ci_neq_0 as NI.
  assert (NH : cimpedance h <> RtoC 0) by (apply Cdiv_neq_0; apply Ch).
  assert (E2 : RtoC (1 / 2) = Cdiv (RtoC 1) (RtoC 2)) by (rewrite RtoC_div by lra; reflexivity).
  assert (E3 : Cmult (Cdiv (RtoC w) (wl_vel l)) (RtoC (wl_thick l)) = kh) by reflexivity.
  split.
  - unfold wave_at_location. cbn [loc_index loc_within loc_field]. rewrite R1. cbn [wave_at r_k r_a r_b]. do 2 f_equal.
    rewrite (cterm_scaled _ (wl_thick l)), E3. replace (cterm (Cdiv (RtoC w) (wl_vel h)) 0) with (RtoC 0) by (unfold cterm; ring). rewrite Cexp_0.
    unfold transmit, Ccos, Csin, c_one, c_half. cbn [fst snd]. rewrite E2. field. now repeat split.
  - unfold wave_at_location. cbn [loc_index loc_within loc_field]. rewrite R0. cbn [wave_at r_k r_a r_b fst snd]. do 2 f_equal.
    rewrite (cterm_scaled _ (wl_thick l)), E3. unfold Ccos, c_one. field. exact N2.
Qed.

(** C123 *)
Theorem layer_on_half_space w l h rs : 1e-8 < Rabs w -> carries l -> carries h -> calc_waves_python w [l; h] = Ok rs ->
  let kh := Cmult (Cdiv (RtoC w) (wl_vel l)) (RtoC (wl_thick l)) in
  let base := Cplus (Ccos kh) (Cmult (Cmult Ci (Cdiv (cimpedance l) (cimpedance h))) (Csin kh)) in
  forall f, f <> IncomingOnly ->
  calc_accel_tf rs (mkLoc 1 0 Outcrop) (mkLoc 0 0 f) = Ok (if Ceq_dec base (RtoC 0) then None else Some (Cdiv (RtoC 1) base)) /\
  calc_accel_tf rs (mkLoc 0 (wl_thick l) Within) (mkLoc 0 0 f) = Ok (if Ceq_dec (Ccos kh) (RtoC 0) then None else Some (Cdiv (RtoC 1) (Ccos kh))).
Proof.
  intros Hw Cl Ch H kh base f Hf. destruct (two_layer_base w l h rs Hw Cl Ch H) as [B1 B2]. fold kh base in B1, B2.
  destruct (surface_outcrop w l [h] rs (proj1 Cl) H) as [S1 S2].
  assert (ES : wave_at_location rs (mkLoc 0 0 f) = Ok (Some (RtoC 2))) by (destruct f; [exact S2|exact S1|contradiction]).
  assert (N2 : RtoC 2 <> RtoC 0) by (apply RtoC_neq_0; lra).
  assert (HX : forall x, cdivx (RtoC 2) (Cmult (RtoC 2) x) = if Ceq_dec x (RtoC 0) then None else Some (Cdiv (RtoC 1) x)).
  { intros x. unfold cdivx. destruct (Ceq_dec x (RtoC 0)) as [->|N].
    - destruct (Ceq_dec (Cmult (RtoC 2) (RtoC 0)) (RtoC 0)) as [|Q]; [reflexivity|]. elim Q. ring.
    - destruct (Ceq_dec (Cmult (RtoC 2) x) (RtoC 0)) as [Q|_]; [exfalso; revert Q; now apply Cmult_neq_0|]. f_equal. field. now split. }
  split; unfold calc_accel_tf; rewrite ES; [rewrite B1|rewrite B2]; cbn [bind]; now rewrite HX.
Qed.

Lemma Cmult_reg_l c x y : c <> RtoC 0 -> Cmult c x = Cmult c y -> x = y.
Proof.
  intros Hc H. transitivity (Cmult (Cinv c) (Cmult c x)); [field; exact Hc|]. rewrite H. field. exact Hc.
Qed.
(** Without damping the cosine and sine are those of real numbers. *)
Lemma Ccos_R x : Ccos (RtoC x) = RtoC (cos x).
Proof.
  unfold Ccos. assert (N2 : RtoC 2 <> RtoC 0) by (apply RtoC_neq_0; lra).
  apply (Cmult_reg_l (RtoC 2)); [exact N2|]. transitivity (Cplus (Cexp (Cmult Ci (RtoC x))) (Cexp (Copp (Cmult Ci (RtoC x))))); [field; exact N2|].
  apply C_ext; unfold Cexp, Cmult, Copp, Cplus, Ci, RtoC, Re, Im; cbn [fst snd];
    replace (0 * x - 1 * 0) with 0 by ring; replace (0 * 0 + 1 * x) with x by ring; rewrite Ropp_0, exp_0, ?cos_neg, ?sin_neg; ring.
Qed.
Lemma Csin_R x : Csin (RtoC x) = RtoC (sin x).
Proof.
  unfold Csin. assert (N2 : Cmult (RtoC 2) Ci <> RtoC 0) by (apply Cmult_neq_0; [apply RtoC_neq_0; lra|apply Ci_neq_0]).
  apply (Cmult_reg_l (Cmult (RtoC 2) Ci)); [exact N2|]. transitivity (Cminus (Cexp (Cmult Ci (RtoC x))) (Cexp (Copp (Cmult Ci (RtoC x))))).
  { assert (RtoC 2 <> RtoC 0) by (apply RtoC_neq_0; lra). pose proof Ci_neq_0. field. now split. }
  apply C_ext; unfold Cminus, Cexp, Cmult, Copp, Cplus, Ci, RtoC, Re, Im; cbn [fst snd];
    replace (0 * x - 1 * 0) with 0 by ring; replace (0 * 0 + 1 * x) with x by ring; rewrite Ropp_0, exp_0, ?cos_neg, ?sin_neg; ring.
Qed.
Lemma undamped_vel l : sound l -> limited_damping (damping l) 0 -> wl_vel (wlayer_of l) = RtoC (sqrt (shear_mod l / density (l_soil l))).
Proof.
  intros (HG & Hu & Ht) Hd. rewrite (vel_scaled l 0 HG Hu Hd). unfold vel_factor.
  replace (sqrt (1 - 4 * 0 ^ 2), 2 * 0) with (RtoC 1).
  - replace (Csqrt (RtoC 1)) with (RtoC 1); [ring|]. unfold Csqrt. rewrite Cmod_R, Rabs_pos_eq by lra. unfold RtoC, Re, Im. cbn [fst snd].
    unfold Rltb. destruct (Rlt_dec 0 0); [lra|]. replace ((1 + 1) / 2) with 1 by lra. replace ((1 - 1) / 2) with 0 by lra. now rewrite sqrt_1, sqrt_0.
  - replace (1 - 4 * 0 ^ 2) with 1 by ring. rewrite sqrt_1. unfold RtoC. f_equal. ring.
Qed.
(** C123: resonance of an undamped layer. *)
Theorem undamped_layer w l h rs : 1e-8 < w -> sound l -> sound h -> same_damping 0 [l; h] ->
  calc_waves_python w (map wlayer_of [l; h]) = Ok rs ->
  let x := w * l_thick l / sqrt (shear_mod l / density (l_soil l)) in
  let al := impedance l / impedance h in
  forall f, f <> IncomingOnly ->
  calc_accel_tf rs (mkLoc 0 (l_thick l) Within) (mkLoc 0 0 f) = Ok (if Req_EM_T (cos x) 0 then None else Some (RtoC (/ cos x))) /\
  exists tf, calc_accel_tf rs (mkLoc 1 0 Outcrop) (mkLoc 0 0 f) = Ok (Some tf) /\
    Cmod tf = / sqrt (cos x ^ 2 + al ^ 2 * sin x ^ 2).
Proof.
  intros Hw Sl Sh HD H x al f Hf. assert (Hw' : 1e-8 < Rabs w) by (rewrite Rabs_pos_eq; lra).
  pose proof (phys_carries _ (sound_phys _ Sl)) as Cl. pose proof (phys_carries _ (sound_phys _ Sh)) as Ch.
  pose proof (Forall_inv HD) as Dl. pose proof (Forall_inv (Forall_inv_tail HD)) as Dh. cbn beta in Dl, Dh.
  destruct (layer_on_half_space w _ _ rs Hw' Cl Ch H f Hf) as [T1 T2].
  assert (PV : 0 < sqrt (shear_mod l / density (l_soil l))) by (apply sqrt_lt_R0; apply Rdiv_lt_0_compat; [apply Sl|apply density_pos, Sl]).
  assert (EX : Cmult (Cdiv (RtoC w) (wl_vel (wlayer_of l))) (RtoC (wl_thick (wlayer_of l))) = RtoC x).
  { rewrite (undamped_vel l Sl Dl). rewrite <- RtoC_div by lra. rewrite <- RtoC_mult. apply f_equal. unfold x. cbn [wlayer_of wl_thick]. field. lra. }
  assert (EA : Cdiv (cimpedance (wlayer_of l)) (cimpedance (wlayer_of h)) = RtoC al).
  { rewrite <- (contrast_impedance w) by (try assumption; lra). unfold al. apply (contrast_real w 0); try assumption; lra. }
  rewrite EX, EA, Ccos_R, Csin_R in T1. rewrite EX, Ccos_R in T2. split.
  - cbn [wlayer_of wl_thick] in T2. rewrite T2. f_equal. destruct (Req_EM_T (cos x) 0) as [E|N].
    + rewrite E. destruct (Ceq_dec (RtoC 0) (RtoC 0)); [reflexivity|contradiction].
    + destruct (Ceq_dec (RtoC (cos x)) (RtoC 0)) as [Q|_]; [apply RtoC_inj in Q; contradiction|]. f_equal. rewrite RtoC_inv by assumption. unfold Cdiv. ring.
  - set (base := Cplus (RtoC (cos x)) (Cmult (Cmult Ci (RtoC al)) (RtoC (sin x)))) in *.
    assert (Pal : 0 < al) by (apply Rdiv_lt_0_compat; now apply impedance_pos).
    assert (EB : base = (cos x, al * sin x)) by (unfold base, Cplus, Cmult, Ci, RtoC; cbn [fst snd]; f_equal; ring).
    assert (PB : 0 < cos x ^ 2 + al ^ 2 * sin x ^ 2).
    { pose proof (sin2_cos2 x) as E. unfold Rsqr in E. destruct (Req_dec (cos x) 0) as [Z|N].
      - rewrite Z in E |- *. nra.
      - pose proof (Rsqr_pos_lt _ N) as P. unfold Rsqr in P. pose proof (pow2_ge_0 (al * sin x)). nra. }
    assert (EM : Cmod base = sqrt (cos x ^ 2 + al ^ 2 * sin x ^ 2)) by (rewrite EB; unfold Cmod; cbn [fst snd]; f_equal; ring).
    pose proof (sqrt_lt_R0 _ PB) as PS. assert (NB : base <> RtoC 0) by (apply Cmod_gt_0; rewrite EM; exact PS).
    exists (Cdiv (RtoC 1) base). split.
    + rewrite T1. f_equal. destruct (Ceq_dec base (RtoC 0)); [contradiction|reflexivity].
    + rewrite Cmod_div by exact NB. rewrite EM, Cmod_R, Rabs_pos_eq by lra. unfold Rdiv. ring.
Qed.
(** The bound of C122 is reached at the first resonance of a soft layer. *)
Theorem resonance w l h rs : 1e-8 < w -> sound l -> sound h -> same_damping 0 [l; h] ->
  calc_waves_python w (map wlayer_of [l; h]) = Ok rs ->
  w * l_thick l / sqrt (shear_mod l / density (l_soil l)) = PI / 2 ->
  calc_accel_tf rs (mkLoc 0 (l_thick l) Within) (mkLoc 0 0 Outcrop) = Ok None /\
  exists tf, calc_accel_tf rs (mkLoc 1 0 Outcrop) (mkLoc 0 0 Outcrop) = Ok (Some tf) /\ Cmod tf = impedance h / impedance l.
Proof.
  intros Hw Sl Sh HD H HX. destruct (undamped_layer w l h rs Hw Sl Sh HD H Outcrop ltac:(discriminate)) as [T1 (tf & T2 & T3)].
  rewrite HX, cos_PI2 in T1. rewrite HX, cos_PI2, sin_PI2 in T3. split.
  - rewrite T1. destruct (Req_EM_T 0 0); [reflexivity|contradiction].
  - exists tf. split; [exact T2|]. rewrite T3. pose proof (impedance_pos l Sl). pose proof (impedance_pos h Sh).
    replace (0 ^ 2 + (impedance l / impedance h) ^ 2 * 1 ^ 2) with ((impedance l / impedance h) ^ 2) by ring.
    rewrite sqrt_pow2 by (left; now apply Rdiv_lt_0_compat). field. lra.
Qed.
