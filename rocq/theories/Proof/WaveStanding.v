(** Standing waves of undamped sites: C151. *)
From Coq Require Import List.
From Verif Require Import Common Proof.CommonFacts Model.Curve Model.Layer Model.Profile Model.Cplx Model.Waves
  Spec.ProfileSpec Spec.WaveSpec Proof.CplxFacts Proof.WaveFacts Proof.WaveSplit Proof.WaveEnergy Proof.WaveProps
  Proof.WaveBounds.
From Coquelicot Require Import Complex.
Local Open Scope R_scope.

Lemma Cexp_turn k z : Cexp (cterm (RtoC k) z) = (cos (k * z), sin (k * z)) /\
  Cexp (Copp (cterm (RtoC k) z)) = (cos (k * z), - sin (k * z)).
Proof.
  unfold cterm, Cexp, Copp, Cmult, Ci, RtoC, Re, Im; cbn [fst snd].
  replace ((0 * k - 1 * 0) * z - (0 * 0 + 1 * k) * 0) with 0 by ring.
  replace ((0 * k - 1 * 0) * 0 + (0 * 0 + 1 * k) * z) with (k * z) by ring.
  rewrite Ropp_0, exp_0, cos_neg, sin_neg. split; f_equal; ring.
Qed.

Lemma transmit_conj c k z a : 
  snd (transmit (RtoC c) (cterm (RtoC k) z) a (Cconj a)) = Cconj (fst (transmit (RtoC c) (cterm (RtoC k) z) a (Cconj a))).
Proof.
  destruct (Cexp_turn k z) as [E1 E2]. unfold transmit. rewrite E1, E2. cbn [fst snd].
  destruct a as [x y]. apply C_ext; unfold Cconj, Cminus, Cplus, Cmult, Copp, c_half, c_one, RtoC, Re, Im; cbn [fst snd]; ring.
Qed.

(** The velocity of an undamped layer. *)
Lemma undamped_num w l : sound l -> limited_damping (damping l) 0 ->
  0 < sqrt (shear_mod l / density (l_soil l)) /\
  wave_num w (wlayer_of l) = Some (RtoC (w / sqrt (shear_mod l / density (l_soil l)))).
Proof.
  intros Sl Dl. assert (PV : 0 < sqrt (shear_mod l / density (l_soil l))) by (apply sqrt_lt_R0; apply Rdiv_lt_0_compat; [apply Sl|apply density_pos, Sl]).
  split; [exact PV|]. rewrite wave_num_some by (rewrite (undamped_vel l Sl Dl); apply RtoC_neq_0; lra).
  rewrite (undamped_vel l Sl Dl), <- RtoC_div by lra. reflexivity.
Qed.

Lemma standing_all w ls : 0 < w -> List.Forall sound ls -> same_damping 0 ls -> forall i ab,
  nth_error (waves_from w (map wlayer_of ls) (c_one, c_one)) i = Some ab -> snd ab = Cconj (fst ab).
Proof.
  intros Hw HS HD. induction i as [|i IH]; intros ab H.
  - destruct ls as [|l ls]; [discriminate|]. cbn in H. injection H as <-. cbn [fst snd].
    unfold c_one. apply C_ext; unfold Cconj, RtoC, Re, Im; cbn; ring.
  - assert (L : (S i < length (map wlayer_of ls))%nat).
    { rewrite <- (waves_from_length w _ (c_one, c_one)). apply nth_error_Some. congruence. }
    rewrite map_length in L.
    destruct (nth_error ls i) as [l|] eqn:El; [|apply nth_error_None in El; lia].
    destruct (nth_error ls (S i)) as [l'|] eqn:El'; [|apply nth_error_None in El'; lia].
    destruct (nth_error (waves_from w (map wlayer_of ls) (c_one, c_one)) i) as [x|] eqn:Ex.
    2:{ apply nth_error_None in Ex. rewrite waves_from_length, map_length in Ex. lia. }
    rewrite (waves_from_next w _ _ i (wlayer_of l) (wlayer_of l') x) in H by (try assumption; now apply map_nth_error).
    injection H as <-. specialize (IH x eq_refl).
    assert (Sl : sound l) by (eapply (proj1 (Forall_forall _ _)); [exact HS|eapply nth_error_In; exact El]).
    assert (Sl' : sound l') by (eapply (proj1 (Forall_forall _ _)); [exact HS|eapply nth_error_In; exact El']).
    assert (Dl : limited_damping (damping l) 0) by (refine (proj1 (Forall_forall _ _) HD l _); eapply nth_error_In; exact El).
    assert (Dl' : limited_damping (damping l') 0) by (refine (proj1 (Forall_forall _ _) HD l' _); eapply nth_error_In; exact El').
    pose proof (phys_carries _ (sound_phys _ Sl)) as Cl. pose proof (phys_carries _ (sound_phys _ Sl')) as Cl'.
    rewrite step_carry by (try assumption; lra).
    rewrite (contrast_real w 0 l l') by (try assumption; lra).
    rewrite (undamped_vel l Sl Dl). destruct (undamped_num w l Sl Dl) as [PV _]. rewrite <- RtoC_div by lra.
    destruct x as [a b]. cbn [fst snd] in *. subst b. apply transmit_conj.
Qed.

(** C151: the within motion is the real part, the strain the scaled imaginary part of the
    outcropping motion. *)
Theorem standing_wave w ls rs : 1e-8 < w -> List.Forall sound ls -> same_damping 0 ls ->
  calc_waves_python w (map wlayer_of ls) = Ok rs ->
  forall i l z, nth_error ls i = Some l ->
  exists t, calc_accel_tf rs (mkLoc 0 0 Outcrop) (mkLoc i z Outcrop) = Ok (Some t) /\
    calc_accel_tf rs (mkLoc 0 0 Outcrop) (mkLoc i z Within) = Ok (Some (RtoC (Re t))) /\
    calc_strain_tf rs w (mkLoc 0 0 Outcrop) (mkLoc i z Within) =
      Ok (Some (RtoC (GRAVITY / (w * sqrt (shear_mod l / density (l_soil l))) * Im t))).
Proof.
  intros Hw HS HD H i l z El. assert (Hw' : 1e-8 < Rabs w) by (rewrite Rabs_pos_eq; lra).
  destruct ls as [|l0 ls]; [destruct i; discriminate|].
  assert (Sl : sound l) by (eapply (proj1 (Forall_forall _ _)); [exact HS|eapply nth_error_In; exact El]).
  assert (Dl : limited_damping (damping l) 0) by (refine (proj1 (Forall_forall _ _) HD l _); eapply nth_error_In; exact El).
  pose proof (Forall_inv HS) as S0. pose proof (Forall_inv HD) as D0. cbn beta in D0.
  destruct (undamped_num w l Sl Dl) as [PV N]. destruct (undamped_num w l0 S0 D0) as [PV0 N0].
  destruct (calc_waves_nth w _ rs i (wlayer_of l) Hw' H (map_nth_error _ _ _ El)) as (ab & E1 & E2).
  destruct (calc_waves_nth w _ rs 0 (wlayer_of l0) Hw' H eq_refl) as (ab0 & F1 & F2).
  pose proof (standing_all w _ ltac:(lra) HS HD i ab E1) as K.
  assert (A0 : ab0 = (c_one, c_one)) by (cbn in F1; now injection F1 as <-). subst ab0.
  rewrite N in E2. rewrite N0 in F2. destruct ab as [a b]. cbn [fst snd] in *. subst b.
  set (v := sqrt (shear_mod l / density (l_soil l))) in *. set (k := w / v) in *.
  destruct (Cexp_turn k z) as [X1 X2].
  assert (W0 : wave_at_location rs (mkLoc 0 0 Outcrop) = Ok (Some (RtoC 2))).
  { unfold wave_at_location. cbn [loc_index]. rewrite F2. unfold wave_at. cbn [r_k r_a loc_within loc_field].
    rewrite cterm_0, Cexp_0. f_equal. f_equal. unfold c_one. ring. }
  assert (N2 : RtoC 2 <> RtoC 0) by (apply RtoC_neq_0; lra).
  set (t := Cmult a (cos (k * z), sin (k * z))).
  assert (WO : wave_at_location rs (mkLoc i z Outcrop) = Ok (Some (Cmult (RtoC 2) t))).
  { unfold wave_at_location. cbn [loc_index]. rewrite E2. unfold wave_at. cbn [r_k r_a loc_within loc_field].
    rewrite X1. f_equal. f_equal. unfold t. ring. }
  assert (WW : wave_at_location rs (mkLoc i z Within) = Ok (Some (Cmult (RtoC 2) (RtoC (Re t))))).
  { unfold wave_at_location. cbn [loc_index]. rewrite E2. unfold wave_at. cbn [r_k r_a r_b loc_within loc_field].
    rewrite X1, X2. f_equal. f_equal. unfold t. destruct a as [x y].
    apply C_ext; unfold Cconj, Cplus, Cmult, RtoC, Re, Im; cbn [fst snd]; ring. }
  exists t. split; [|split].
  - rewrite (tf_some _ _ _ _ _ WO W0 N2). f_equal. f_equal. field. exact N2.
  - rewrite (tf_some _ _ _ _ _ WW W0 N2). f_equal. f_equal. field. exact N2.
  - unfold calc_strain_tf. cbn [loc_field loc_index loc_within]. rewrite E2, F2. unfold strain_tf_python.
    rewrite isclose_zero_false by exact Hw'. cbn [r_k r_a r_b].
    unfold wave_at_location in W0. cbn [loc_index] in W0. rewrite F2 in W0. apply Ok_inj in W0. cbn [loc_within loc_field] in W0. rewrite W0.
    rewrite cdivx_some.
    2:{ rewrite <- RtoC_mult. apply RtoC_neq_0. assert (0 < w ^ 2) by (apply pow_lt; lra). lra. }
    f_equal. f_equal. unfold strain_numer. rewrite X1, X2.
    replace (Cmult (Cmult Ci (RtoC k)) (Cminus (Cmult a (cos (k * z), sin (k * z))) (Cmult (Cconj a) (cos (k * z), - sin (k * z)))))
      with (RtoC (- 2 * k * Im t)).
    2:{ unfold t. destruct a as [x y]. apply C_ext; unfold Cconj, Cminus, Cplus, Copp, Cmult, Ci, RtoC, Re, Im; cbn [fst snd]; ring. }
    rewrite <- !RtoC_mult, <- RtoC_div by (assert (0 < w ^ 2) by (apply pow_lt; lra); lra).
    apply f_equal. unfold k. field. split; lra.
Qed.

(** C151: kinetic and strain amplitudes of a layer add up to one number at all depths. *)
Theorem standing_energy w ls rs : 1e-8 < w -> List.Forall sound ls -> same_damping 0 ls ->
  calc_waves_python w (map wlayer_of ls) = Ok rs ->
  forall i l, nth_error ls i = Some l -> exists e, 0 < e /\ forall z, exists u s,
    calc_accel_tf rs (mkLoc 0 0 Outcrop) (mkLoc i z Within) = Ok (Some (RtoC u)) /\
    calc_strain_tf rs w (mkLoc 0 0 Outcrop) (mkLoc i z Within) = Ok (Some (RtoC s)) /\
    u ^ 2 + (w * sqrt (shear_mod l / density (l_soil l)) * s / GRAVITY) ^ 2 = e.
Proof.
  intros Hw HS HD H i l El. assert (Hw' : 1e-8 < Rabs w) by (rewrite Rabs_pos_eq; lra).
  assert (Sl : sound l) by (eapply (proj1 (Forall_forall _ _)); [exact HS|eapply nth_error_In; exact El]).
  assert (Dl : limited_damping (damping l) 0) by (refine (proj1 (Forall_forall _ _) HD l _); eapply nth_error_In; exact El).
  destruct (undamped_num w l Sl Dl) as [PV N].
  assert (SAME : exists e, 0 < e /\ forall z t, calc_accel_tf rs (mkLoc 0 0 Outcrop) (mkLoc i z Outcrop) = Ok (Some t) ->
    Re t ^ 2 + Im t ^ 2 = e).
  { destruct ls as [|l0 ls]; [destruct i; discriminate|].
    pose proof (Forall_inv HS) as S0. pose proof (Forall_inv HD) as D0. cbn beta in D0.
    destruct (undamped_num w l0 S0 D0) as [_ N0].
    destruct (calc_waves_nth w _ rs i (wlayer_of l) Hw' H (map_nth_error _ _ _ El)) as (ab & E1 & E2).
    destruct (calc_waves_nth w _ rs 0 (wlayer_of l0) Hw' H eq_refl) as (ab0 & F1 & F2).
    assert (A0 : ab0 = (c_one, c_one)) by (cbn in F1; now injection F1 as <-). subst ab0.
    rewrite N in E2. rewrite N0 in F2. destruct ab as [a b]. cbn [fst snd] in *.
    exists (Re a ^ 2 + Im a ^ 2). split.
    { destruct (upgoing_nonzero w _ rs Hw HS H) as [U _]. pose proof (proj1 (Forall_forall _ _) U _ (nth_error_In _ _ E2)) as [NA _].
      cbn [r_a] in NA. destruct (Rle_lt_or_eq_dec 0 (Re a ^ 2 + Im a ^ 2)) as [P|Z]; [pose proof (pow2_ge_0 (Re a)); pose proof (pow2_ge_0 (Im a)); lra|exact P|].
      exfalso. apply NA. apply Cnorm2_zero. unfold Cnorm2. lra. }
    intros z t T. unfold calc_accel_tf, wave_at_location in T. cbn [loc_index] in T.
    rewrite E2, F2 in T. cbn [bind wave_at r_k r_a loc_within loc_field] in T. rewrite cterm_0, Cexp_0 in T.
    destruct (Cexp_turn (w / sqrt (shear_mod l / density (l_soil l))) z) as [X1 _]. rewrite X1 in T.
    assert (N2 : RtoC 2 <> RtoC 0) by (apply RtoC_neq_0; lra).
    rewrite cdivx_some in T by (unfold c_one; rewrite !Cmult_1_r; exact N2). injection T as T.
    set (q := w / sqrt (shear_mod l / density (l_soil l)) * z) in *.
    assert (T' : t = Cmult a (cos q, sin q)) by (rewrite <- T; unfold c_one; field; exact N2).
    rewrite T'. pose proof (sin2_cos2 q) as SC. unfold Rsqr in SC. destruct a as [x y].
    unfold Cmult, Re, Im; cbn [fst snd].
    transitivity ((x ^ 2 + y ^ 2) * (sin q * sin q + cos q * cos q)); [ring|rewrite SC; ring]. }
  destruct SAME as (e & P & SAME). exists e. split; [exact P|]. intros z.
  destruct (standing_wave w ls rs Hw HS HD H i l z El) as (t & T1 & T2 & T3).
  exists (Re t), (GRAVITY / (w * sqrt (shear_mod l / density (l_soil l))) * Im t). split; [exact T2|split; [exact T3|]].
  rewrite <- (SAME z t T1). f_equal. f_equal. set (v := sqrt (shear_mod l / density (l_soil l))) in *.
  assert (G : GRAVITY <> 0) by (unfold GRAVITY; lra). field. repeat split; try assumption; lra.
Qed.

(** C151: a recording inside the site determines the surface motion except at the nodes. *)
Theorem standing_node w ls rs : 1e-8 < w -> List.Forall sound ls -> same_damping 0 ls ->
  calc_waves_python w (map wlayer_of ls) = Ok rs ->
  forall i z, (i < length ls)%nat ->
  exists t, calc_accel_tf rs (mkLoc 0 0 Outcrop) (mkLoc i z Outcrop) = Ok (Some t) /\
    calc_accel_tf rs (mkLoc i z Within) (mkLoc 0 0 Outcrop) =
      Ok (if Req_EM_T (Re t) 0 then None else Some (RtoC (/ Re t))).
Proof.
  intros Hw HS HD H i z Hi. destruct (nth_error ls i) as [l|] eqn:El; [|apply nth_error_None in El; lia].
  destruct (standing_wave w ls rs Hw HS HD H i l z El) as (t & T1 & T2 & _). exists t. split; [exact T1|].
  destruct ls as [|l0 ls]; [cbn in Hi; lia|].
  pose proof (phys_carries _ (sound_phys _ (Forall_inv HS))) as [V0 _].
  pose proof (surface_wave w _ _ rs Outcrop Hw ltac:(discriminate) V0 H) as W0.
  assert (N2 : RtoC 2 <> RtoC 0) by (apply RtoC_neq_0; lra).
  unfold calc_accel_tf in T2 |- *. rewrite W0 in *. cbn [bind] in *.
  destruct (wave_at_location rs (mkLoc i z Within)) as [[y|]|]; cbn [bind] in *; try discriminate.
  rewrite cdivx_some in T2 by exact N2. apply Ok_inj in T2.
  assert (T3 : Cdiv y (RtoC 2) = RtoC (Re t)) by congruence.
  assert (Y : y = RtoC (2 * Re t)).
  { rewrite RtoC_mult, <- T3. field. exact N2. }
  f_equal. subst y. destruct (Req_EM_T (Re t) 0) as [E|N].
  - rewrite E, Rmult_0_r. unfold cdivx. destruct (Ceq_dec (RtoC 0) (RtoC 0)); [reflexivity|contradiction].
  - rewrite cdivx_some by (apply RtoC_neq_0; lra). rewrite <- RtoC_div by lra. f_equal. apply f_equal. field. exact N.
Qed.
