(** Dimensional analysis of the transfer functions, and the balance of the upgoing and
    downgoing waves. *)
From Coq Require Import String.
From Verif Require Import Common Model.Curve Model.Layer Model.Cplx Model.Waves Spec.WaveSpec
  Proof.CplxFacts Proof.WaveFacts Proof.WaveProps Proof.WaveEnergy Proof.WaveBounds.
From Coquelicot Require Import Coquelicot.
Local Open Scope R_scope.

(** Kernel layers scaled by [a] (velocity), [g] (modulus) and [b] (thickness). *)
Definition scaled_wl (a g b : R) (l : wlayer) : wlayer :=
  mkWL (Cmult (RtoC a) (wl_vel l)) (Cmult (RtoC g) (wl_mod l)) (b * wl_thick l).
Lemma similar_wl a b d l l' : 0 < a -> 0 < d -> sound l -> similar a b d l l' ->
  wlayer_of l' = scaled_wl a (d * a ^ 2) b (wlayer_of l).
Proof.
  intros Ha Hd (HG & HW & _) (E1 & E2 & E3 & E4). unfold wlayer_of, scaled_wl. cbn [wl_vel wl_mod wl_thick].
  assert (M : comp_shear_mod l' = Cmult (RtoC (d * a ^ 2)) (comp_shear_mod l)).
  { unfold comp_shear_mod, comp_shear_mod_of. rewrite E1, E4, RtoC_mult. ring. }
  rewrite E3, M. f_equal. unfold comp_shear_vel. rewrite M. unfold density. rewrite E2.
  pose proof (density_pos l HW) as HD. unfold density in HD.
  replace (Cdiv (Cmult (RtoC (d * a ^ 2)) (comp_shear_mod l)) (RtoC (d * s_unit_wt (l_soil l) / GRAVITY)))
    with (Cmult (RtoC (a ^ 2)) (Cdiv (comp_shear_mod l) (RtoC (s_unit_wt (l_soil l) / GRAVITY)))).
  - rewrite Csqrt_scale by (apply pow_lt; exact Ha). f_equal. apply f_equal. apply sqrt_pow2. lra.
  - replace (d * s_unit_wt (l_soil l) / GRAVITY) with (d * (s_unit_wt (l_soil l) / GRAVITY)) by (unfold Rdiv; ring).
    set (y := s_unit_wt (l_soil l) / GRAVITY) in *. rewrite !RtoC_mult. field. split; apply RtoC_neq_0; lra.
Qed.
Lemma similar_carries l : sound l -> carries (wlayer_of l).
Proof. intros H. apply phys_carries. now apply sound_phys. Qed.
Lemma scaled_carries a g b l : a <> 0 -> g <> 0 -> carries l -> carries (scaled_wl a g b l).
Proof. intros Ha Hg [H1 H2]. split; cbn; apply Cmult_neq_0; try assumption; now apply RtoC_neq_0. Qed.

Section Scaled.
Variables (a b g w : R) (Ha : 0 < a) (Hb : 0 < b) (Hg : 0 < g) (Hw : w <> 0).
Let w' := w * a / b.
Lemma w'_ne : w' <> 0.
Proof. unfold w', Rdiv. apply Rmult_integral_contrapositive_currified; [apply Rmult_integral_contrapositive_currified; lra|]. apply Rinv_neq_0_compat. lra. Qed.
Lemma scaled_k l : carries l -> Cdiv (RtoC w') (wl_vel (scaled_wl a g b l)) = Cmult (RtoC (/ b)) (Cdiv (RtoC w) (wl_vel l)).
Proof.
  intros [V _]. cbn. unfold w', Rdiv. rewrite RtoC_mult, RtoC_mult, RtoC_inv by lra. field. repeat split; try assumption; apply RtoC_neq_0; lra.
Qed.
Lemma scaled_cterm k z : cterm (Cmult (RtoC (/ b)) k) (b * z) = cterm k z.
Proof. unfold cterm. rewrite RtoC_mult, RtoC_inv by lra. field. apply RtoC_neq_0. lra. Qed.
Lemma scaled_step l l' ab : carries l -> carries l' ->
  step_py w' (scaled_wl a g b l) (scaled_wl a g b l') ab = step_py w l l' ab.
Proof.
  intros C1 C2. rewrite !step_carry; try assumption; try exact w'_ne; try (apply scaled_carries; try assumption; lra).
  rewrite !scaled_k by assumption. cbn [wl_thick wl_mod scaled_wl]. rewrite scaled_cterm. f_equal.
  destruct C1 as [V1 M1], C2 as [V2 M2].
  rewrite RtoC_inv by lra. field. repeat split; try assumption; apply RtoC_neq_0; lra.
Qed.
Lemma scaled_waves ls : List.Forall carries ls -> forall ab, waves_from w' (map (scaled_wl a g b) ls) ab = waves_from w ls ab.
Proof.
  induction 1 as [|l ls Hl HF IH]; intros ab; [reflexivity|]. cbn [map waves_from]. f_equal. destruct ls as [|l2 ls]; [reflexivity|].
  inversion HF as [|? ? H2 _]; subst. cbn [map] in *. rewrite scaled_step by assumption. apply IH.
Qed.
End Scaled.

Definition slower (b : R) (r : wrow) : wrow :=
  mkRow (match r_k r with Some k => Some (Cmult (RtoC (/ b)) k) | None => None end) (r_a r) (r_b r).
Lemma slower_wave_at b r z f : 0 < b -> wave_at (slower b r) (b * z) f = wave_at r z f.
Proof. intros Hb. unfold wave_at, slower. cbn [r_k r_a r_b]. destruct (r_k r) as [k|]; [|reflexivity]. now rewrite scaled_cterm by exact Hb. Qed.
Lemma scaled_rows a b g w ls : 0 < a -> 0 < b -> 0 < g -> 1e-8 < Rabs w -> 1e-8 < Rabs (w * a / b) -> List.Forall carries ls ->
  ls <> nil -> exists rs, calc_waves_python w ls = Ok rs /\
  calc_waves_python (w * a / b) (map (scaled_wl a g b) ls) = Ok (map (slower b) rs).
Proof.
  intros Ha Hb Hg Hw Hw' HF Hne. destruct ls as [|l ls]; [contradiction|]. eexists. split; [reflexivity|].
  unfold calc_waves_python. cbn [map]. change (scaled_wl a g b l :: map (scaled_wl a g b) ls) with (map (scaled_wl a g b) (l :: ls)).
  rewrite !isclose_zero_false by assumption. f_equal. rewrite scaled_waves by (try assumption; now apply awake_neq).
  generalize (waves_from w (l :: ls) (c_one, c_one)). clear Hne. intros abs. unfold rows. rewrite map_map. revert abs.
  induction HF as [|x xs Hx _ IH]; intros abs; [reflexivity|]. destruct abs as [|y abs]; [reflexivity|]. cbn [map combine]. f_equal; [|apply IH].
  unfold slower. cbn [fst snd r_k r_a r_b]. f_equal. rewrite !wave_num_some; [|exact (proj1 Hx)|].
  - f_equal. apply scaled_k; [lra|lra|exact Hx].
  - apply (scaled_carries a g b); [lra|lra|exact Hx].
Qed.

Lemma similar_map a b d ls ls' : 0 < a -> 0 < d -> List.Forall sound ls -> Forall2 (similar a b d) ls ls' ->
  map wlayer_of ls' = map (scaled_wl a (d * a ^ 2) b) (map wlayer_of ls).
Proof.
  intros Ha Hd HF H. induction H as [|l l' ls ls' H1 _ IH]; [reflexivity|]. inversion HF; subst. cbn [map]. rewrite IH by assumption. f_equal.
  now apply similar_wl.
Qed.

Lemma slower_at b rs loc : 0 < b -> wave_at_location (map (slower b) rs) (moved b loc) = wave_at_location rs loc.
Proof.
  intros Hb. unfold wave_at_location, moved. cbn [loc_index loc_within loc_field]. rewrite nth_error_map.
  destruct (nth_error rs (loc_index loc)) as [r|]; [|reflexivity]. cbn [option_map]. now rewrite slower_wave_at.
Qed.

Theorem dimensional a b d w ls ls' rs : 0 < a -> 0 < b -> 0 < d -> 1e-8 < Rabs w -> 1e-8 < Rabs (w * a / b) ->
  List.Forall sound ls -> Forall2 (similar a b d) ls ls' -> linear_elastic false w ls = Ok rs ->
  exists rs', linear_elastic false (w * a / b) ls' = Ok rs' /\
  (forall lin lout, calc_accel_tf rs' (moved b lin) (moved b lout) = calc_accel_tf rs lin lout) /\
  (forall lin lout st, calc_strain_tf rs w lin lout = Ok (Some st) ->
     calc_strain_tf rs' (w * a / b) (moved b lin) (moved b lout) = Ok (Some (Cmult (RtoC (b / a ^ 2)) st))) /\
  (forall lin lout l l' st, nth_error ls (loc_index lout) = Some l -> nth_error ls' (loc_index lout) = Some l' ->
     calc_stress_tf rs w lin lout (comp_shear_mod l) = Ok (Some st) ->
     calc_stress_tf rs' (w * a / b) (moved b lin) (moved b lout) (comp_shear_mod l') = Ok (Some (Cmult (RtoC (d * b)) st))).
Proof.
  intros Ha Hb Hd Hw Hw' HF HS H. unfold linear_elastic in *.
  assert (Hne : map wlayer_of ls <> nil) by (destruct ls; [discriminate H|discriminate]).
  assert (HC : List.Forall carries (map wlayer_of ls)).
  { apply List.Forall_forall. intros x Hx. apply in_map_iff in Hx. destruct Hx as (l & <- & Hl). apply similar_carries.
    rewrite List.Forall_forall in HF. now apply HF. }
  assert (Hg : 0 < d * a ^ 2) by (apply Rmult_lt_0_compat; [exact Hd|now apply pow_lt]).
  destruct (scaled_rows a b (d * a ^ 2) w _ Ha Hb Hg Hw Hw' HC Hne) as (rs0 & E0 & E1).
  rewrite E0 in H. injection H as <-. exists (map (slower b) rs0).
  rewrite (similar_map a b d ls ls' Ha Hd HF HS). split; [exact E1|].
  assert (ST : forall lin lout st, calc_strain_tf rs0 w lin lout = Ok (Some st) ->
     calc_strain_tf (map (slower b) rs0) (w * a / b) (moved b lin) (moved b lout) = Ok (Some (Cmult (RtoC (b / a ^ 2)) st))).
  { intros lin lout st. unfold calc_strain_tf, moved. cbn [loc_index loc_within loc_field]. rewrite !nth_error_map.
    destruct (loc_field lout); try discriminate. destruct (nth_error rs0 (loc_index lout)) as [ro|]; [|discriminate].
    destruct (nth_error rs0 (loc_index lin)) as [ri|]; [|discriminate]. cbn [option_map]. unfold strain_tf_python.
    rewrite !isclose_zero_false by assumption. rewrite slower_wave_at by exact Hb. unfold slower. cbn [r_k r_a r_b].
    destruct (r_k ro) as [k|]; [|discriminate]. destruct (wave_at ri (loc_within lin) (loc_field lin)) as [x|]; [|discriminate].
    unfold cdivx. destruct (Ceq_dec (Cmult (RtoC (- w ^ 2)) x) (RtoC 0)) as [|N]; [discriminate|]. intros E. injection E as <-.
    assert (Nx : x <> RtoC 0) by (intros X; apply N; rewrite X; ring).
    pose proof (awake_neq w Hw) as Nw. pose proof (awake_neq _ Hw') as Nw'.
    assert (N1 : RtoC (- (w * a / b) ^ 2) <> RtoC 0) by (apply RtoC_neq_0; cbn; nra).
    assert (N2 : RtoC (- w ^ 2) <> RtoC 0) by (apply RtoC_neq_0; cbn; nra).
    destruct (Ceq_dec (Cmult (RtoC (- (w * a / b) ^ 2)) x) (RtoC 0)) as [E|_]; [exfalso; revert E; now apply Cmult_neq_0|]. do 2 f_equal.
    unfold strain_numer. rewrite scaled_cterm by exact Hb.
    set (m := Cminus _ _).
    replace (RtoC (- (w * a / b) ^ 2)) with (Cmult (RtoC (- w ^ 2)) (RtoC ((a / b) ^ 2))) by (rewrite <- RtoC_mult; apply f_equal; field; lra).
    replace (RtoC (b / a ^ 2)) with (Cmult (RtoC (/ b)) (Cinv (RtoC ((a / b) ^ 2)))).
    2:{ rewrite <- RtoC_inv by (apply pow_nonzero; apply Rgt_not_eq; apply Rdiv_lt_0_compat; lra). rewrite <- RtoC_mult. apply f_equal. field. lra. }
    assert (N3 : RtoC ((a / b) ^ 2) <> RtoC 0) by (apply RtoC_neq_0, pow_nonzero, Rgt_not_eq, Rdiv_lt_0_compat; lra).
    change (- (w * (w * 1))) with (- w ^ 2). field. repeat split; assumption. }
  split; [|split; [exact ST|]].
  - intros lin lout. unfold calc_accel_tf. now rewrite !slower_at by exact Hb.
  - intros lin lout l l' st Hl Hl' E. unfold calc_stress_tf in *.
    destruct (calc_strain_tf rs0 w lin lout) as [[s|]|] eqn:Es; cbn [bind] in E; try discriminate. injection E as <-.
    rewrite (ST lin lout s Es). cbn [bind]. do 2 f_equal.
    assert (HSl : similar a b d l l').
    { clear -HS Hl Hl'. revert Hl Hl'. generalize (loc_index lout). induction HS as [|x y xs ys H1 _ IH]; intros [|n] H2 H3; try discriminate.
      - injection H2 as ->. injection H3 as ->. exact H1.
      - exact (IH n H2 H3). }
    assert (HSo : sound l) by (rewrite List.Forall_forall in HF; apply HF; eapply nth_error_In; exact Hl).
    pose proof (f_equal wl_mod (similar_wl a b d l l' Ha Hd HSo HSl)) as M. cbn in M. rewrite M.
    replace (RtoC (d * b)) with (Cmult (RtoC (b / a ^ 2)) (RtoC (d * (a * (a * 1))))); [ring|]. rewrite <- RtoC_mult. apply f_equal. field. lra.
Qed.

(** * Within and outcropping motion *)
Lemma sound_vel l d : sound l -> limited_damping (damping l) d ->
  0 < Re (wl_vel (wlayer_of l)) /\ 0 <= Im (wl_vel (wlayer_of l)) /\ (d = 0 -> Im (wl_vel (wlayer_of l)) = 0).
Proof.
  intros (HG & Hu & Ht) Dl. destruct (factor_parts d (proj1 Dl)) as (F1 & F2 & F3). rewrite (vel_scaled l d HG Hu Dl). set (r := sqrt _).
  assert (0 < r) by (apply sqrt_lt_R0; apply Rdiv_lt_0_compat; [exact HG|now apply density_pos]).
  assert (ER : Re (Cmult (RtoC r) (vel_factor d)) = r * Re (vel_factor d)) by (unfold Cmult, RtoC, Re, Im; cbn; ring).
  assert (EI : Im (Cmult (RtoC r) (vel_factor d)) = r * Im (vel_factor d)) by (unfold Cmult, RtoC, Re, Im; cbn; ring).
  rewrite ER, EI. split; [nra|]. split; [nra|]. intros E. rewrite (F3 E). ring.
Qed.

Theorem within_below_outcrop w d ls rs : 1e-8 < w -> List.Forall sound ls -> same_damping d ls ->
  calc_waves_python w (map wlayer_of ls) = Ok rs ->
  forall i z, (i < length ls)%nat -> 0 <= z ->
  exists tf, calc_accel_tf rs (mkLoc i z Outcrop) (mkLoc i z Within) = Ok (Some tf) /\ Cmod tf <= 1.
Proof.
  intros Hw HS HD H i z Hi Hz.
  destruct (nth_error ls i) as [l|] eqn:El; [|apply nth_error_None in El; lia].
  assert (Sl : sound l) by (rewrite Forall_forall in HS; apply HS; eapply nth_error_In; eauto).
  assert (Dl : limited_damping (damping l) d) by (unfold same_damping in HD; rewrite Forall_forall in HD; apply (HD l); eapply nth_error_In; eauto).
  assert (Hd : 0 <= d <= 0.49) by apply Dl. assert (Hw' : 1e-8 < Rabs w) by (rewrite Rabs_pos_eq; lra).
  pose proof (phys_carries _ (sound_phys _ Sl)) as [Cv _].
  destruct (field_plane w _ rs i (wlayer_of l) Hw' H) as (ab & E1 & E2 & _); [rewrite nth_error_map, El; reflexivity|exact Cv|].
  destruct (amplitude_bounds w d ls ltac:(lra) Hd HS HD i ab Hi E1) as (P0 & P1 & P2 & _).
  destruct (sound_vel l d Sl Dl) as (V1 & V2 & _). destruct (wave_down w (wl_vel (wlayer_of l)) z ltac:(lra) V1 V2 Hz) as (D1 & D2 & _).
  assert (Pa : 0 < Cmod (fst ab)) by (pose proof (Cmod_ge_0 (fst ab)); nra).
  set (e := Cexp (cterm (Cdiv (RtoC w) (wl_vel (wlayer_of l))) z)) in *.
  set (e' := Cexp (Copp (cterm (Cdiv (RtoC w) (wl_vel (wlayer_of l))) z))) in *.
  assert (Na : fst ab <> RtoC 0) by (apply Cmod_gt_0; exact Pa). assert (Ne : e <> RtoC 0) by apply Cexp_neq_0.
  assert (N2 : RtoC 2 <> RtoC 0) by (apply RtoC_neq_0; lra).
  assert (EI : wave_at_location rs (mkLoc i z Outcrop) = Ok (Some (Cmult (Cmult (RtoC 2) (fst ab)) e))).
  { unfold wave_at_location. cbn [loc_index loc_within loc_field]. rewrite E2. reflexivity. }
  assert (EO : wave_at_location rs (mkLoc i z Within) = Ok (Some (Cplus (Cmult (fst ab) e) (Cmult (snd ab) e')))).
  { unfold wave_at_location. cbn [loc_index loc_within loc_field]. rewrite E2. reflexivity. }
  assert (NO : Cmult (Cmult (RtoC 2) (fst ab)) e <> RtoC 0) by (repeat apply Cmult_neq_0; assumption).
  eexists. split; [apply (tf_some rs _ _ _ _ EO EI NO)|].
  rewrite Cmod_div by exact NO. rewrite !Cmod_mult, Cmod_R, Rabs_pos_eq by lra.
  assert (PM : 0 < 2 * Cmod (fst ab) * Cmod e) by (apply Rmult_lt_0_compat; lra).
  apply (Rmult_le_reg_r (2 * Cmod (fst ab) * Cmod e)); [exact PM|]. unfold Rdiv. rewrite Rmult_assoc, Rinv_l, Rmult_1_r by lra. rewrite Rmult_1_l.
  apply Rle_trans with (1 := Cmod_triangle _ _). rewrite !Cmod_mult. pose proof (Cmod_ge_0 (snd ab)). pose proof (Cmod_ge_0 e').
  assert (Cmod (snd ab) * Cmod e' <= Cmod (fst ab) * Cmod e); [|lra].
  apply Rle_trans with (Cmod (fst ab) * 1); [apply Rmult_le_compat; assumption|]. apply Rmult_le_compat_l; lra.
Qed.

(** With unequal dampings the within motion can be the larger one. *)
Lemma cimpedance_factor l d : sound l -> limited_damping (damping l) d ->
  cimpedance (wlayer_of l) = Cmult (RtoC (impedance l)) (vel_factor d).
Proof.
  intros Sl Dl. pose proof (phys_carries _ (sound_phys _ Sl)) as [Cv _]. rewrite (impedance_vel l Sl). unfold cimpedance.
  pose proof Sl as (HG & Hu & _). change (wl_mod (wlayer_of l)) with (comp_shear_mod l). rewrite <- (vel_sqr l Hu).
  change (comp_shear_vel l) with (wl_vel (wlayer_of l)).
  transitivity (Cmult (RtoC (density (l_soil l))) (wl_vel (wlayer_of l))); [field; exact Cv|]. rewrite (vel_scaled l d HG Hu Dl), RtoC_mult. ring.
Qed.
Lemma factor_unit d : 0 <= d <= 0.49 -> Re (vel_factor d) ^ 2 + Im (vel_factor d) ^ 2 = 1.
Proof.
  intros Hd. assert (N : 0 <= 1 - 4 * d ^ 2) by (cbn; nra). pose proof (sqrt_sqrt _ N) as Q. set (s := sqrt (1 - 4 * d ^ 2)) in *.
  assert (M : Cmod (s, 2 * d) = 1).
  { unfold Cmod. cbn [fst snd]. replace (s ^ 2 + (2 * d) ^ 2) with 1 by (cbn; cbn in Q; nra). apply sqrt_1. }
  assert (S1 : 0 <= s <= 1) by (split; [apply sqrt_pos|]; assert (0 <= s) by apply sqrt_pos; cbn in Q; nra).
  unfold vel_factor. fold s. unfold Csqrt. rewrite M. unfold Re, Im. cbn [fst snd].
  replace (Rltb (2 * d) 0) with false by (symmetry; unfold Rltb; destruct (Rlt_dec (2 * d) 0); [lra|reflexivity]).
  rewrite !pow2_sqrt by lra. lra.
Qed.
Theorem within_above_outcrop w l h d rs : 1e-8 < w -> sound l -> sound h ->
  limited_damping (damping l) 0 -> limited_damping (damping h) d ->
  calc_waves_python w (map wlayer_of (cons l (cons h nil))) = Ok rs ->
  w * l_thick l / sqrt (shear_mod l / density (l_soil l)) = 3 * (PI / 4) ->
  impedance l / impedance h < 2 * Im (vel_factor d) ->
  exists tf, calc_accel_tf rs (mkLoc 1 0 Outcrop) (mkLoc 1 0 Within) = Ok (Some tf) /\ 1 < Cmod tf.
Proof.
  intros Hw Sl Sh Dl Dh H HX HA. assert (Hw' : 1e-8 < Rabs w) by (rewrite Rabs_pos_eq; lra).
  pose proof (phys_carries _ (sound_phys _ Sl)) as Cl. pose proof (phys_carries _ (sound_phys _ Sh)) as Ch.
  destruct (two_layer_base w _ _ rs Hw' Cl Ch H) as [B1 B2].
  assert (PV : 0 < sqrt (shear_mod l / density (l_soil l))) by (apply sqrt_lt_R0; apply Rdiv_lt_0_compat; [apply Sl|apply density_pos, Sl]).
  assert (EX : Cmult (Cdiv (RtoC w) (wl_vel (wlayer_of l))) (RtoC (wl_thick (wlayer_of l))) = RtoC (3 * (PI / 4))).
  { rewrite (undamped_vel l Sl Dl). rewrite <- RtoC_div by lra. rewrite <- RtoC_mult. apply f_equal. rewrite <- HX. cbn [wlayer_of wl_thick]. field. lra. }
  rewrite EX, Ccos_R, Csin_R in B1. rewrite EX, Ccos_R in B2.
  rewrite (cimpedance_factor l 0 Sl Dl), (cimpedance_factor h d Sh Dh) in B1.
  pose proof (impedance_pos l Sl) as Pl. pose proof (impedance_pos h Sh) as Ph.
  assert (F0 : vel_factor 0 = RtoC 1).
  { pose proof (undamped_vel l Sl Dl) as U. pose proof Sl as (HG & Hu & _). rewrite (vel_scaled l 0 HG Hu Dl) in U.
    apply (Cmult_reg_l (RtoC (sqrt (shear_mod l / density (l_soil l))))); [apply RtoC_neq_0; lra|]. rewrite U. ring. }
  destruct (factor_parts d (proj1 Dh)) as (F1 & F2 & _). pose proof (factor_unit d (proj1 Dh)) as FU.
  set (al := impedance l / impedance h) in *. assert (Pal : 0 < al) by (apply Rdiv_lt_0_compat; assumption).
  set (q := vel_factor d) in *.
  assert (EQ : Cdiv (Cmult (RtoC (impedance l)) (vel_factor 0)) (Cmult (RtoC (impedance h)) q) = Cmult (RtoC al) (Re q, - Im q)).
  { rewrite F0. unfold al. rewrite RtoC_div by lra. assert (NQ : q <> RtoC 0) by (intros X; rewrite X in F1; cbn in F1; lra).
    assert (NH : RtoC (impedance h) <> RtoC 0) by (apply RtoC_neq_0; lra).
    assert (U : Cmult q (Re q, - Im q) = RtoC 1).
    { apply C_ext; [transitivity (Re q ^ 2 + Im q ^ 2); [|rewrite FU; reflexivity]|]; unfold Cmult, RtoC, Re, Im; cbn [fst snd]; ring. }
    apply (Cmult_reg_l q); [exact NQ|]. transitivity (Cmult (Cdiv (RtoC (impedance l)) (RtoC (impedance h))) (RtoC 1)); [field; now split|].
    rewrite <- U. ring. }
  rewrite EQ in B1.
  assert (CS : cos (3 * (PI / 4)) = - (1 / sqrt 2) /\ sin (3 * (PI / 4)) = 1 / sqrt 2).
  { split; [replace (3 * (PI / 4)) with (PI - PI / 4) by field; rewrite <- cos_PI4; rewrite cos_minus, cos_PI, sin_PI; ring|].
    replace (3 * (PI / 4)) with (PI - PI / 4) by field. rewrite <- sin_PI4, sin_minus, cos_PI, sin_PI. ring. }
  destruct CS as [CC CS]. rewrite CC, CS in B1. rewrite CC in B2. set (s := 1 / sqrt 2) in *.
  assert (Ps : 0 < s) by (apply Rdiv_lt_0_compat; [lra|apply sqrt_lt_R0; lra]).
  set (base := Cplus (RtoC (- s)) (Cmult (Cmult Ci (Cmult (RtoC al) (Re q, - Im q))) (RtoC s))) in *.
  assert (EB : base = Cmult (RtoC s) (- 1 + al * Im q, al * Re q)).
  { unfold base. apply C_ext; unfold Cplus, Cmult, Ci, RtoC, Re, Im; cbn [fst snd]; ring. }
  set (y := (- 1 + al * Im q, al * Re q)) in *.
  assert (Y : 0 < (- 1 + al * Im q) ^ 2 + (al * Re q) ^ 2 < 1).
  { assert (E : (- 1 + al * Im q) ^ 2 + (al * Re q) ^ 2 = 1 - 2 * al * Im q + al ^ 2 * (Re q ^ 2 + Im q ^ 2)) by ring.
    assert (0 < (al * Re q) ^ 2) by (apply pow_lt; nra). pose proof (pow2_ge_0 (-1 + al * Im q)). split; [lra|]. rewrite E, FU. nra. }
  assert (MY : 0 < Cmod y < 1).
  { unfold y, Cmod. cbn [fst snd]. split; [apply sqrt_lt_R0; apply Y|]. rewrite <- sqrt_1 at 1. apply sqrt_lt_1_alt. lra. }
  assert (NB : base <> RtoC 0) by (rewrite EB; apply Cmult_neq_0; [apply RtoC_neq_0; lra|apply Cmod_gt_0; apply MY]).
  assert (N2 : RtoC 2 <> RtoC 0) by (apply RtoC_neq_0; lra).
  assert (B3 : wave_at_location rs (mkLoc 1 0 Within) = Ok (Some (Cmult (RtoC 2) (RtoC (- s))))).
  { destruct (interface_welded w _ rs 0 (wlayer_of l) (wlayer_of h) Hw' (Forall_cons _ Cl (Forall_cons _ Ch (Forall_nil _))) H eq_refl eq_refl) as (u & u' & Fu & Fu' & W & _).
    rewrite (Fu' 0). rewrite <- W. rewrite <- B2. symmetry. exact (Fu _). }
  assert (NO : Cmult (RtoC 2) base <> RtoC 0) by (now apply Cmult_neq_0).
  eexists. split; [apply (tf_some rs _ _ _ _ B3 B1 NO)|].
  rewrite Cmod_div by exact NO. rewrite EB, !Cmod_mult, !Cmod_R. rewrite Rabs_Ropp, !Rabs_pos_eq by lra.
  apply (Rmult_lt_reg_r (2 * (s * Cmod y))); [apply Rmult_lt_0_compat; [lra|apply Rmult_lt_0_compat; lra]|]. unfold Rdiv.
  rewrite Rmult_assoc, Rinv_l, Rmult_1_r, Rmult_1_l by (apply Rgt_not_eq; apply Rmult_lt_0_compat; [lra|apply Rmult_lt_0_compat; lra]). nra.
Qed.

Definition wo_top : layer := layer_make (mkSoil 0 "soft"%string 20 None (DConst 0)) 10 200 0.
Definition wo_base : layer := layer_make (mkSoil 1 "rock"%string 20 None (DConst 0.25)) 0 800 0.25.
Lemma wo_sound : List.Forall sound (cons wo_top (cons wo_base nil)).
Proof.
  constructor; [|constructor; [|constructor]]; unfold sound, wo_top, wo_base, shear_mod, layer_make, layer_reset, initial_shear_mod, density, iter_new, GRAVITY; cbn; lra.
Qed.
Theorem within_outcrop_unequal : exists w ls rs tf, 1e-8 < w /\ List.Forall sound ls /\ calc_waves_python w (map wlayer_of ls) = Ok rs /\
  calc_accel_tf rs (mkLoc 1 0 Outcrop) (mkLoc 1 0 Within) = Ok (Some tf) /\ 1 < Cmod tf.
Proof.
  pose proof wo_sound as HS. pose proof (Forall_inv HS) as S1. pose proof (Forall_inv (Forall_inv_tail HS)) as S2. cbn beta in S1, S2.
  pose proof PI_RGT_0 as HP. pose proof PI2_3_2 as HP2.
  exists (15 * PI), (cons wo_top (cons wo_base nil)).
  destruct (calc_waves_python (15 * PI) (map wlayer_of (cons wo_top (cons wo_base nil)))) as [rs|] eqn:E; [|discriminate E].
  assert (G1 : shear_mod wo_top = density (l_soil wo_top) * 200 ^ 2) by (unfold wo_top, shear_mod, layer_make, layer_reset, initial_shear_mod, iter_new; cbn; lra).
  assert (G2 : shear_mod wo_base = density (l_soil wo_base) * 800 ^ 2) by (unfold wo_base, shear_mod, layer_make, layer_reset, initial_shear_mod, iter_new; cbn; lra).
  pose proof (density_pos wo_top (proj1 (proj2 S1))) as P1. pose proof (density_pos wo_base (proj1 (proj2 S2))) as P2.
  assert (ED : density (l_soil wo_base) = density (l_soil wo_top)) by reflexivity.
  assert (D1 : limited_damping (damping wo_top) 0) by (unfold limited_damping, wo_top, damping, layer_make, layer_reset, iter_new; cbn; repeat split; intros; lra).
  assert (D2 : limited_damping (damping wo_base) 0.25) by (unfold limited_damping, wo_base, damping, layer_make, layer_reset, iter_new; cbn; repeat split; intros; lra).
  destruct (within_above_outcrop (15 * PI) wo_top wo_base 0.25 rs) as (tf & T1 & T2); try assumption; [lra| | |].
  - rewrite G1. replace (density (l_soil wo_top) * 200 ^ 2 / density (l_soil wo_top)) with (200 ^ 2) by (field; lra). rewrite sqrt_pow2 by lra.
    change (l_thick wo_top) with 10. field.
  - assert (EI : impedance wo_top / impedance wo_base = 1 / 4).
    { rewrite (impedance_vel _ S1), (impedance_vel _ S2), G1, G2, ED. set (r := density (l_soil wo_top)) in *.
      replace (r * 200 ^ 2 / r) with (200 ^ 2) by (field; lra). replace (r * 800 ^ 2 / r) with (800 ^ 2) by (field; lra).
      rewrite !sqrt_pow2 by lra. field. lra. }
    rewrite EI. assert (Q : 0 <= 1 - 4 * 0.25 ^ 2) by lra. pose proof (sqrt_sqrt _ Q) as QS. pose proof (sqrt_pos (1 - 4 * 0.25 ^ 2)) as QP.
    unfold vel_factor. set (s := sqrt (1 - 4 * 0.25 ^ 2)) in *. assert (Hs : s <= 0.9) by nra.
    unfold Csqrt, Im. cbn [snd fst]. replace (Rltb (2 * 0.25) 0) with false by (symmetry; unfold Rltb; destruct (Rlt_dec (2 * 0.25) 0); [lra|reflexivity]).
    assert (M : Cmod (s, 2 * 0.25) = 1) by (unfold Cmod; cbn [fst snd]; replace (s ^ 2 + (2 * 0.25) ^ 2) with 1 by (cbn; nra); apply sqrt_1).
    rewrite M. unfold Re. cbn [fst]. assert (L : sqrt (0.2 ^ 2) <= sqrt ((1 - s) / 2)) by (apply sqrt_le_1_alt; lra).
    rewrite sqrt_pow2 in L by lra. lra.
  - exists rs, tf. repeat split; try assumption; try lra.
Qed.
