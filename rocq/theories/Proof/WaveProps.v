(** Transfer-function laws, kernel agreement, strain, complex modulus. *)
From Coq Require Import List.
From Verif Require Import Common Proof.CommonFacts Model.Curve Model.Layer Model.Profile Model.Cplx Model.Waves
  Spec.ProfileSpec Spec.WaveSpec Proof.LayerFacts Proof.ProfileFacts Proof.ProfileOps Proof.ProfileProps
  Proof.CplxFacts Proof.WaveFacts Proof.WaveSplit Proof.WaveEnergy.
From Coquelicot Require Import Complex.
Local Open Scope R_scope.

(** * C06 *)
Lemma clip_limited D : limited_damping D (clip D 0 0.49).
Proof.
  split; [apply clip_damping|]. unfold clip. split; [|split].
  - intros [H1 H2]. rewrite Rmax_left, Rmin_left by lra. reflexivity.
  - intros H. rewrite Rmax_right, Rmin_left by lra. reflexivity.
  - intros H. rewrite Rmax_left, Rmin_right by lra. reflexivity.
Qed.

Lemma limited_unique D d d' : limited_damping D d -> limited_damping D d' -> d = d'.
Proof.
  intros (A1 & A2 & A3 & A4) (B1 & B2 & B3 & B4).
  destruct (Rlt_dec D 0); [rewrite A3, B3; auto|].
  destruct (Rlt_dec 0.49 D); [rewrite A4, B4; auto|]. rewrite A2, B2; lra.
Qed.

Theorem modulus_default l d : 0 < shear_mod l -> 0 < s_unit_wt (l_soil l) ->
  limited_damping (damping l) d ->
  Cmod (comp_shear_mod l) = shear_mod l /\
  Im (comp_shear_mod l) = 2 * d * shear_mod l /\
  0 < Re (comp_shear_mod l) /\
  Cmult (RtoC (density (l_soil l))) (Cmult (comp_shear_vel l) (comp_shear_vel l)) = comp_shear_mod l /\
  0 < Re (comp_shear_vel l) /\ 0 <= Im (comp_shear_vel l).
Proof.
  intros HG Hu Hd. rewrite (limited_unique _ _ _ Hd (clip_limited (damping l))). clear d Hd.
  unfold comp_shear_mod, COMP_MODULUS_MODEL. rewrite comp_mod_parts.
  pose proof (clip_damping (damping l)) as Hc. pose proof (factor_pos (damping l)) as Hf.
  set (d := clip (damping l) 0 0.49) in *.
  split; [|split; [|split]].
  - unfold Cmod; cbn [fst snd].
    replace ((shear_mod l * sqrt (1 - 4 * d ^ 2)) ^ 2 + (shear_mod l * (2 * d)) ^ 2)
      with (shear_mod l ^ 2 * (sqrt (1 - 4 * d ^ 2) * sqrt (1 - 4 * d ^ 2) + 4 * d ^ 2)) by ring.
    rewrite sqrt_sqrt by nra.
    replace (shear_mod l ^ 2 * (1 - 4 * d ^ 2 + 4 * d ^ 2)) with (shear_mod l ^ 2) by ring.
    apply sqrt_pow2. lra.
  - unfold Im; cbn [snd]. ring.
  - unfold Re; cbn [fst]. now apply Rmult_lt_0_compat.
  - pose proof (vel_sqr l Hu) as V. unfold comp_shear_mod, COMP_MODULUS_MODEL in V.
    rewrite comp_mod_parts in V. fold d in V. split; [exact V|].
    pose proof (density_pos l Hu) as Hr.
    unfold comp_shear_vel. rewrite vel_arg by assumption. fold d. split.
    + apply Csqrt_Re_pos. unfold Re; cbn [fst]. apply Rdiv_lt_0_compat; [|exact Hr].
      now apply Rmult_lt_0_compat.
    + apply Csqrt_Im_nonneg. unfold Im; cbn [snd]. unfold Rdiv. apply Rmult_le_pos; [nra|].
      left. now apply Rinv_0_lt_compat.
Qed.

Theorem modulus_models G D d : 0 < G -> limited_damping D d ->
  (forall m, Im (comp_shear_mod_of m G D) = 2 * d * G) /\
  Cmod (comp_shear_mod_of Seed G D) = G * sqrt (1 + 4 * d ^ 2) /\
  Cmod (comp_shear_mod_of Kramer G D) = G * sqrt (1 + 2 * d ^ 2 + d ^ 4) /\
  Cmod (comp_shear_mod_of Dormieux G D) = G.
Proof.
  intros HG Hd. rewrite (limited_unique _ _ _ Hd (clip_limited D)). clear d Hd.
  pose proof (clip_damping D) as Hc. set (d := clip D 0 0.49) in *.
  assert (SQ : forall x, sqrt (G ^ 2 * x) = G * sqrt x).
  { intros x. rewrite sqrt_mult_alt by (apply pow2_ge_0). rewrite sqrt_pow2 by lra. reflexivity. }
  split; [|split; [|split]].
  - intros m. unfold comp_shear_mod_of. fold d. unfold Cmult, RtoC, Im; cbn [fst snd].
    destruct m; cbn [comp_factor fst snd]; ring.
  - rewrite <- SQ. unfold comp_shear_mod_of, Cmod. fold d. cbn [comp_factor Cmult RtoC fst snd].
    apply f_equal. ring.
  - rewrite <- SQ. unfold comp_shear_mod_of, Cmod. fold d. cbn [comp_factor Cmult RtoC fst snd].
    apply f_equal. ring.
  - rewrite comp_mod_parts. fold d. unfold Cmod; cbn [fst snd].
    replace ((G * sqrt (1 - 4 * d ^ 2)) ^ 2 + (G * (2 * d)) ^ 2)
      with (G ^ 2 * (sqrt (1 - 4 * d ^ 2) * sqrt (1 - 4 * d ^ 2) + 4 * d ^ 2)) by ring.
    rewrite sqrt_sqrt by nra. rewrite SQ.
    replace (1 - 4 * d ^ 2 + 4 * d ^ 2) with 1 by ring. rewrite sqrt_1. ring.
Qed.

(** * C22 *)
Lemma tf_some rs lin lout x y :
  wave_at_location rs lout = Ok (Some x) -> wave_at_location rs lin = Ok (Some y) ->
  y <> RtoC 0 -> calc_accel_tf rs lin lout = Ok (Some (Cdiv x y)).
Proof.
  intros H1 H2 Hy. unfold calc_accel_tf. rewrite H1, H2. cbn [bind]. now rewrite cdivx_some.
Qed.

Theorem tf_self rs lin x : wave_at_location rs lin = Ok (Some x) -> x <> RtoC 0 ->
  calc_accel_tf rs lin lin = Ok (Some (RtoC 1)).
Proof.
  intros H Hx. rewrite (tf_some rs lin lin x x H H Hx). f_equal. f_equal. field. exact Hx.
Qed.

Theorem tf_compose rs la lb lc xa xb xc :
  wave_at_location rs la = Ok (Some xa) -> wave_at_location rs lb = Ok (Some xb) ->
  wave_at_location rs lc = Ok (Some xc) -> xa <> RtoC 0 -> xb <> RtoC 0 ->
  exists t1 t2, calc_accel_tf rs la lb = Ok (Some t1) /\ calc_accel_tf rs lb lc = Ok (Some t2) /\
    calc_accel_tf rs la lc = Ok (Some (Cmult t1 t2)).
Proof.
  intros Ha Hb Hc Na Nb.
  exists (Cdiv xb xa), (Cdiv xc xb).
  rewrite (tf_some rs la lb xb xa), (tf_some rs lb lc xc xb), (tf_some rs la lc xc xa) by assumption.
  split; [reflexivity|]. split; [reflexivity|]. f_equal. f_equal. field. split; assumption.
Qed.

Theorem outcrop_twice rs i z x :
  wave_at_location rs (mkLoc i z IncomingOnly) = Ok (Some x) ->
  wave_at_location rs (mkLoc i z Outcrop) = Ok (Some (Cmult (RtoC 2) x)).
Proof.
  unfold wave_at_location; cbn [loc_index loc_within loc_field].
  destruct (nth_error rs i) as [r|]; [|discriminate]. unfold wave_at.
  destruct (r_k r) as [k|]; [|discriminate]. intros H. injection H as <-.
  f_equal. f_equal. ring.
Qed.

Lemma first_row w l ls rs : calc_waves_python w (l :: ls) = Ok rs ->
  nth_error rs 0 = Some (mkRow (wave_num w l) c_one c_one).
Proof.
  intros H. apply Ok_inj in H. subst rs. rewrite rows_nth. cbn [nth_error].
  destruct (isclose w 0); [|reflexivity]. cbn [waves_from].
  destruct ls; reflexivity.
Qed.

Theorem surface_outcrop w l ls rs : wl_vel l <> RtoC 0 -> calc_waves_python w (l :: ls) = Ok rs ->
  wave_at_location rs (mkLoc 0 0 Within) = Ok (Some (RtoC 2)) /\
  wave_at_location rs (mkLoc 0 0 Outcrop) = Ok (Some (RtoC 2)).
Proof.
  intros Hv H. unfold wave_at_location; cbn [loc_index loc_within loc_field].
  rewrite (first_row w l ls rs H). unfold wave_at; cbn [r_k r_a r_b].
  rewrite wave_num_some by assumption. rewrite cterm_0.
  replace (Copp (RtoC 0)) with (RtoC 0) by ring. rewrite Cexp_0. unfold c_one.
  split; f_equal; f_equal; rewrite <- ?RtoC_mult, <- ?RtoC_plus; apply f_equal; lra.
Qed.

Lemma set_last_ones_repeat n : set_last_ones (repeat (c_one, c_one) n) = repeat (c_one, c_one) n.
Proof.
  induction n as [|n IH]; [reflexivity|]. destruct n; [reflexivity|].
  cbn [repeat set_last_ones] in *. now rewrite IH.
Qed.

Lemma zero_rows ls rs : calc_waves_python 0 ls = Ok rs ->
  rs = rows 0 ls (repeat (c_one, c_one) (length ls)).
Proof.
  intros H. destruct ls as [|l ls]; [discriminate|]. apply Ok_inj in H. subst rs.
  rewrite waves_zero. rewrite set_last_ones_repeat. now destruct (isclose 0 0).
Qed.

Theorem zero_frequency ls rs : List.Forall (fun l => wl_vel l <> RtoC 0) ls ->
  calc_waves_python 0 ls = Ok rs ->
  forall lin lout, (loc_index lin < length ls)%nat -> (loc_index lout < length ls)%nat ->
  loc_field lin <> IncomingOnly -> loc_field lout <> IncomingOnly ->
  calc_accel_tf rs lin lout = Ok (Some (RtoC 1)).
Proof.
  intros HF H lin lout Hi Ho Fi Fo.
  apply zero_rows in H.
  assert (HW : forall loc, (loc_index loc < length ls)%nat -> loc_field loc <> IncomingOnly ->
     wave_at_location rs loc = Ok (Some (RtoC 2))).
  { intros loc Hl Hf. unfold wave_at_location. subst rs. rewrite rows_nth.
    destruct (nth_error ls (loc_index loc)) as [l|] eqn:E.
    2:{ apply nth_error_None in E. lia. }
    rewrite (nth_error_repeat _ Hl). cbn [fst snd].
    rewrite Forall_forall in HF. pose proof (HF l (nth_error_In _ _ E)) as Hv.
    unfold wave_at; cbn [r_k r_a r_b]. rewrite wave_num_some by assumption.
    assert (Hc0 : cterm (Cdiv (RtoC 0) (wl_vel l)) (loc_within loc) = RtoC 0)
      by (unfold cterm, Cdiv; ring).
    rewrite Hc0. replace (Copp (RtoC 0)) with (RtoC 0) by ring. rewrite Cexp_0. unfold c_one.
    destruct (loc_field loc); [| |contradiction];
      f_equal; f_equal; rewrite <- ?RtoC_mult, <- ?RtoC_plus; apply f_equal; lra. }
  rewrite (tf_some rs lin lout (RtoC 2) (RtoC 2)); auto.
  - f_equal. f_equal. field. apply RtoC_neq_0. lra.
  - apply RtoC_neq_0. lra.
Qed.

(** * C21 below the threshold *)
Theorem welded_fails_below w : w <> 0 -> Rabs w <= 1e-8 ->
  exists l l' rs, carries l /\ carries l' /\ calc_waves_python w [l; l'] = Ok rs /\
    forall u u', field_in rs 0 u -> field_in rs 1 u' -> ~ welded l l' u u'.
Proof.
  intros Hw Hs. pose proof PI_RGT_0 as HPI.
  set (v := RtoC (w / PI)). assert (Hv : v <> RtoC 0).
  { apply RtoC_neq_0. intros E. apply Hw. replace w with (w / PI * PI) by (field; lra). rewrite E. ring. }
  exists (mkWL v c_one 1), (mkWL v c_one 1).
  eexists. split; [split; [exact Hv|apply C1_neq_0]|]. split; [split; [exact Hv|apply C1_neq_0]|].
  split; [reflexivity|].
  intros u u' Hu Hu' [HW _].
  specialize (Hu 1). specialize (Hu' 0). cbn [wl_thick] in HW. rewrite <- HW in Hu'.
  rewrite isclose_zero_true in Hu, Hu' by assumption.
  unfold wave_at_location in Hu, Hu'; cbn [loc_index loc_within loc_field nth_error waves_from
     set_last_ones rows combine map fst snd] in Hu, Hu'.
  unfold wave_at in Hu, Hu'; cbn [r_k r_a r_b] in Hu, Hu'.
  rewrite wave_num_some in Hu, Hu' by exact Hv. cbn [wl_vel] in Hu, Hu'.
  rewrite cterm_0 in Hu'. replace (Copp (RtoC 0)) with (RtoC 0) in Hu' by ring.
  rewrite Cexp_0 in Hu'.
  assert (Ek : Cdiv (RtoC w) v = RtoC PI).
  { unfold v. rewrite <- RtoC_div.
    - apply f_equal. field. split; [lra|exact Hw].
    - intros E. apply Hv. unfold v. now rewrite E. }
  rewrite Ek in Hu. injection Hu as Hu. injection Hu' as Hu'.
  rewrite <- Hu in Hu'. apply (f_equal fst) in Hu'. revert Hu'.
  unfold c_one, Cexp, cterm, Ci, RtoC, Cmult, Cplus, Copp, Re, Im; cbn [fst snd].
  replace ((0 * PI - 1 * 0) * 1 - (0 * 0 + 1 * PI) * 0) with 0 by ring.
  replace ((0 * PI - 1 * 0) * 0 + (0 * 0 + 1 * PI) * 1) with PI by ring.
  rewrite Ropp_0, exp_0, cos_neg, cos_PI, sin_neg, sin_PI. lra.
Qed.

(** * C24 *)
Lemma wave_nums_nb_ok w ls : List.Forall (fun l => wl_vel l <> RtoC 0) ls ->
  wave_nums_nb w ls = Ok (map (fun l => Cdiv (RtoC w) (wl_vel l)) ls).
Proof.
  induction 1 as [|l ls H HF IH]; [reflexivity|]. cbn [wave_nums_nb map].
  unfold cdiv_nb. destruct (Ceq_dec (wl_vel l) (RtoC 0)); [contradiction|]. cbn [bind].
  rewrite IH. reflexivity.
Qed.

Lemma waves_nb_py w ls : List.Forall (fun l => wl_vel l <> RtoC 0) ls -> forall ab,
  waves_from_nb (combine ls (map (fun l => Cdiv (RtoC w) (wl_vel l)) ls)) ab = waves_from w ls ab.
Proof.
  induction 1 as [|l ls H HF IH]; intros ab; [reflexivity|].
  destruct ls as [|l' ls']; [reflexivity|].
  cbn [map combine] in IH |- *. cbn [waves_from_nb waves_from]. f_equal.
  inversion HF as [|? ? Hv' _]; subst.
  assert (E : step_nb (Cdiv (RtoC w) (wl_vel l)) (Cdiv (RtoC w) (wl_vel l')) l l' ab = step_py w l l' ab).
  { unfold step_nb, step_py, cimped. rewrite !wave_num_some by assumption.
    unfold cdivx. destruct (Ceq_dec _ _); reflexivity. }
  rewrite E. apply IH.
Qed.

Lemma thresholds w : Rabs w <> 1e-8 -> Rltb (Rabs w) 1e-8 = isclose w 0.
Proof.
  intros N. unfold Rltb. destruct (Rlt_dec (Rabs w) 1e-8) as [H|H].
  - symmetry. apply isclose_zero_true. lra.
  - symmetry. apply isclose_zero_false. lra.
Qed.

Theorem kernels_waves w ls : Rabs w <> 1e-8 -> List.Forall (fun l => wl_vel l <> RtoC 0) ls ->
  calc_waves_numba w ls = calc_waves_python w ls.
Proof.
  intros Hw HF. destruct ls as [|l ls]; [reflexivity|].
  unfold calc_waves_numba, calc_waves_python. rewrite wave_nums_nb_ok by assumption. cbn [bind].
  rewrite waves_nb_py by assumption. rewrite thresholds by assumption. f_equal.
  set (abs := if isclose w 0 then _ else _). clearbody abs. clear Hw.
  unfold rows. revert abs; induction HF as [|m ms Hm HF IH]; intros abs; [reflexivity|].
  destruct abs as [|ab abs]; [reflexivity|]. cbn [map combine fst snd].
  rewrite wave_num_some by assumption. f_equal. apply IH.
Qed.

Theorem kernels_location k a b z f : Some (wave_at_nb k a b z f) = wave_at (mkRow (Some k) a b) z f.
Proof. reflexivity. Qed.

Theorem kernels_strain ko ao bo zo w ki ai bi zi f g : Rabs w <> 1e-8 ->
  strain_tf_numba ko ao bo zo w ki ai bi zi f g =
  match strain_tf_python (mkRow (Some ko) ao bo) zo w (mkRow (Some ki) ai bi) zi f g with
  | Some v => Ok v
  | None => Err ZeroDivisionError
  end.
Proof.
  intros Hw. unfold strain_tf_numba, strain_tf_python. rewrite thresholds by assumption.
  destruct (isclose w 0); [reflexivity|]. cbn [r_k r_a r_b wave_at].
  unfold cdiv_nb, cdivx, cterm. destruct f; destruct (Ceq_dec _ _); reflexivity.
Qed.

Theorem kernels_differ : exists w ls rs rs',
  List.Forall carries ls /\
  calc_waves_python w ls = Ok rs /\ calc_waves_numba w ls = Ok rs' /\ rs <> rs'.
Proof.
  pose proof PI_RGT_0 as HPI.
  set (v := RtoC 1e-8). assert (Hv : v <> RtoC 0) by (apply RtoC_neq_0; lra).
  assert (HF : List.Forall (fun l => wl_vel l <> RtoC 0) [mkWL v c_one PI; mkWL v c_one 0])
    by (repeat constructor; exact Hv).
  exists 1e-8, [mkWL v c_one PI; mkWL v c_one 0].
  do 2 eexists. split; [repeat constructor; (exact Hv || apply C1_neq_0)|].
  split; [reflexivity|]. split.
  - unfold calc_waves_numba. rewrite wave_nums_nb_ok by assumption. cbn [bind]. reflexivity.
  - intros E. apply (f_equal (fun r => nth_error r 1)) in E. revert E.
    rewrite waves_nb_py by assumption. rewrite isclose_zero_true by (rewrite Rabs_pos_eq; lra).
    replace (Rltb (Rabs 1e-8) 1e-8) with false.
    2:{ unfold Rltb. rewrite Rabs_pos_eq by lra. destruct (Rlt_dec 1e-8 1e-8); [lra|reflexivity]. }
    cbn [waves_from set_last_ones rows combine map nth_error fst snd].
    rewrite step_carry by (try split; try exact Hv; try apply C1_neq_0; lra).
    cbn [wl_vel wl_mod wl_thick fst snd].
    assert (Ek : Cdiv (RtoC 1e-8) v = RtoC 1) by (unfold v; field; exact Hv).
    rewrite Ek.
    replace (Cdiv (Cmult (RtoC 1) c_one) (Cmult (RtoC 1) c_one)) with (RtoC 1)
      by (unfold c_one; field; apply C1_neq_0).
    rewrite transmit_one. cbn [fst snd]. intros E. injection E as _ E _ _ _.
    revert E. unfold c_one, Cexp, cterm, Ci, RtoC, Cmult, Re, Im; cbn [fst snd].
    replace ((0 * 1 - 1 * 0) * PI - (0 * 0 + 1 * 1) * 0) with 0 by ring.
    replace ((0 * 1 - 1 * 0) * 0 + (0 * 0 + 1 * 1) * PI) with PI by ring.
    rewrite exp_0, cos_PI, sin_PI. lra.
Qed.

Theorem kernels_zero_velocity w l l' ls : wl_vel l = RtoC 0 ->
  calc_waves_numba w (l :: l' :: ls) = Err ZeroDivisionError /\
  exists rs, calc_waves_python w (l :: l' :: ls) = Ok rs.
Proof.
  intros H. split; [|now eexists]. unfold calc_waves_numba. cbn [wave_nums_nb].
  unfold cdiv_nb at 1. rewrite H. destruct (Ceq_dec (RtoC 0) (RtoC 0)); [reflexivity|congruence].
Qed.

Theorem no_numba_no_module : import_propagation false = Err NameError.
Proof. reflexivity. Qed.

(** * C30 *)
Theorem strain_derivative w ls rs lin xin i l : 1e-8 < Rabs w ->
  calc_waves_python w ls = Ok rs -> nth_error ls i = Some l -> wl_vel l <> RtoC 0 ->
  wave_at_location rs lin = Ok (Some xin) -> xin <> RtoC 0 ->
  exists acc, (forall z, calc_accel_tf rs lin (mkLoc i z Within) = Ok (Some (acc z))) /\
  forall z, exists st, calc_strain_tf rs w lin (mkLoc i z Within) = Ok (Some st) /\
    cderive (fun x => Cmult (RtoC (GRAVITY / (- (w * w)))) (acc x)) z st.
Proof.
  intros Hw H Hl Hv Hin Nin.
  destruct (field_plane w ls rs i l Hw H Hl Hv) as (ab & E1 & E2 & F).
  set (k := Cdiv (RtoC w) (wl_vel l)) in *. pose proof (awake_neq w Hw) as Nw.
  exists (fun z => Cdiv (plane k (fst ab) (snd ab) z) xin). split.
  - intros z. apply tf_some; [apply F|exact Hin|exact Nin].
  - intros z. unfold calc_strain_tf; cbn [loc_field loc_index loc_within].
    unfold wave_at_location in Hin.
    destruct (nth_error rs (loc_index lin)) as [ri|] eqn:Ei; [|discriminate].
    rewrite E2. injection Hin as Hin.
    unfold strain_tf_python. rewrite isclose_zero_false by assumption. cbn [r_k r_a r_b].
    rewrite Hin.
    assert (ND : Cmult (RtoC (- w ^ 2)) xin <> RtoC 0).
    { apply Cmult_neq_0; [|exact Nin]. apply RtoC_neq_0. intros E. apply Nw.
      apply Rsqr_0_uniq. unfold Rsqr. lra. }
    rewrite cdivx_some by exact ND. eexists. split; [reflexivity|].
    assert (Nw2 : - (w * w) <> 0) by (intros E; apply Nw; apply Rsqr_0_uniq; unfold Rsqr; lra).
    match goal with |- cderive _ _ ?t => replace t with
      (Cmult (RtoC (GRAVITY / - (w * w))) (Cmult (Cinv xin) (plane' k (fst ab) (snd ab) z))) end.
    + apply cderive_mult_l.
      apply (cderive_ext (fun x => Cmult (Cinv xin) (plane k (fst ab) (snd ab) x))).
      { intros x. unfold Cdiv. ring. }
      apply cderive_mult_l. apply plane_derive.
    + rewrite RtoC_div by exact Nw2. unfold strain_numer, plane'.
      replace (- w ^ 2) with (- (w * w)) by ring. field.
      split; [exact Nin|apply RtoC_neq_0; exact Nw2].
Qed.

Theorem strain_zero_freq w rs lin lout ro ri : Rabs w <= 1e-8 ->
  loc_field lout = Within ->
  nth_error rs (loc_index lout) = Some ro -> nth_error rs (loc_index lin) = Some ri ->
  calc_strain_tf rs w lin lout = Ok (Some (RtoC 0)).
Proof.
  intros Hw Hf Ho Hi. unfold calc_strain_tf. rewrite Hf, Ho, Hi.
  unfold strain_tf_python. now rewrite isclose_zero_true.
Qed.

Theorem strain_within_only rs w lin lout : loc_field lout <> Within ->
  calc_strain_tf rs w lin lout = Err AssertionError.
Proof. intros H. unfold calc_strain_tf. now destruct (loc_field lout). Qed.

Theorem stress_is_modulus_strain rs w lin lout m st :
  calc_strain_tf rs w lin lout = Ok (Some st) ->
  calc_stress_tf rs w lin lout m = Ok (Some (Cmult m st)).
Proof. intros H. unfold calc_stress_tf. rewrite H. cbn [bind]. do 2 f_equal. ring. Qed.

Theorem stress_surface w l ls rs lin xin m : wl_vel l <> RtoC 0 ->
  calc_waves_python w (l :: ls) = Ok rs ->
  wave_at_location rs lin = Ok (Some xin) -> xin <> RtoC 0 ->
  calc_stress_tf rs w lin (mkLoc 0 0 Within) m = Ok (Some (RtoC 0)).
Proof.
  intros Hv H Hin Nin.
  assert (E : calc_strain_tf rs w lin (mkLoc 0 0 Within) = Ok (Some (RtoC 0))).
  { unfold calc_strain_tf; cbn [loc_field loc_index loc_within].
    rewrite (first_row w l ls rs H). unfold wave_at_location in Hin.
    destruct (nth_error rs (loc_index lin)) as [ri|]; [|discriminate]. injection Hin as Hin.
    unfold strain_tf_python. destruct (isclose w 0) eqn:Ew; [reflexivity|].
    cbn [r_k r_a r_b]. rewrite wave_num_some by assumption. rewrite Hin.
    assert (Nw : w <> 0).
    { intros ->. rewrite isclose_zero_true in Ew; [discriminate|]. rewrite Rabs_R0. lra. }
    rewrite cdivx_some.
    - unfold strain_numer. rewrite cterm_0. replace (Copp (RtoC 0)) with (RtoC 0) by ring.
      rewrite Cexp_0. do 2 f_equal. unfold Cdiv. ring.
    - apply Cmult_neq_0; [|exact Nin]. apply RtoC_neq_0. intros E. apply Nw.
      apply Rsqr_0_uniq. unfold Rsqr. lra. }
  rewrite (stress_is_modulus_strain _ _ _ _ m _ E). do 2 f_equal. ring.
Qed.

(** * C23 for [auto_discretize] *)
Lemma wlayer_reset_eq a b :
  l_soil a = l_soil b -> l_vs a = l_vs b -> l_dmin a = l_dmin b ->
  wlayer_of (layer_reset a) =
  mkWL (wl_vel (wlayer_of (layer_reset b))) (wl_mod (wlayer_of (layer_reset b))) (l_thick a).
Proof.
  intros H1 H2 H3. unfold wlayer_of, comp_shear_vel, comp_shear_mod, shear_mod, damping, layer_reset,
    initial_shear_mod, iter_new; cbn [l_soil l_vs l_dmin l_G l_D l_thick it_value wl_vel wl_mod].
  now rewrite H1, H2, H3.
Qed.

Lemma same_core_wlayer a b : same_core a b -> wlayer_of (layer_reset a) = wlayer_of (layer_reset b).
Proof.
  intros (H1 & H2 & H3 & H4 & _). rewrite (wlayer_reset_eq a b H1 H3 H4), H2. reflexivity.
Qed.

Lemma reset_sound l : site_ok l -> shear_vel l = l_vs l -> sound (layer_reset l).
Proof.
  intros (H1 & H2 & H3) E. rewrite E in H2. unfold sound, layer_reset, shear_mod, iter_new;
    cbn [l_soil l_thick l_G it_value]. repeat split; auto.
  unfold initial_shear_mod. apply Rmult_lt_0_compat; [now apply density_pos|]. nra.
Qed.

Theorem discretize_tf w p f wf nl w' q freq :
  (forall a, In a (layers_of w p) -> (a < w_next w)%nat) -> NoDup (layers_of w p) ->
  layers_of w p <> [] -> List.Forall site_ok (removelast (view w p)) -> 0 < f -> 0 < wf ->
  List.Forall (fun l => shear_vel l = l_vs l) (removelast (view w p)) ->
  auto_discretize w p f wf nl = (w', Ok q) ->
  forall rs, linear_elastic true freq (view w p) = Ok rs ->
  exists rs', linear_elastic true freq (view w' q) = Ok rs' /\
  forall zs zb fs fb,
    calc_accel_tf rs' (mkLoc (length (view w' q) - 1) zb fb) (mkLoc 0 zs fs) =
    calc_accel_tf rs (mkLoc (length (view w p) - 1) zb fb) (mkLoc 0 zs fs) /\
    calc_accel_tf rs' (mkLoc 0 zs fs) (mkLoc (length (view w' q) - 1) zb fb) =
    calc_accel_tf rs (mkLoc 0 zs fs) (mkLoc (length (view w p) - 1) zb fb).
Proof.
  intros Hal Hnd Hne Hok Hf Hwf Hvs E rs Hrs.
  destruct (auto_discretize_refines w p f wf nl Hal Hnd Hne Hok Hf Hwf)
    as (w1 & q1 & groups & bottom & E' & Hbot & Hgr & Hcore & _).
  rewrite E in E'. injection E' as <- <-.
  unfold linear_elastic in *.
  assert (EV : view w p = removelast (view w p) ++ [bottom]) by (now apply last_opt_inv).
  set (wl := fun l => wlayer_of (layer_reset l)).
  assert (HM : map wlayer_of (map layer_reset (view w' q)) =
               concat (map (map wl) groups) ++ [wl bottom]).
  { rewrite map_map. change (map (fun x => wlayer_of (layer_reset x)) (view w' q)) with (map wl (view w' q)).
    transitivity (map wl (concat groups ++ [bottom])).
    - clear -Hcore. induction Hcore as [|a b xs ys H HF IH]; [reflexivity|]. cbn [map]. rewrite IH.
      f_equal. unfold wl. symmetry. now apply same_core_wlayer.
    - rewrite map_app, concat_map. reflexivity. }
  assert (HFin : finer (map wl (removelast (view w p)) ++ [wl bottom])
                       (concat (map (map wl) groups) ++ [wl bottom])).
  { apply finer_groups; [discriminate|].
    clear -Hgr Hok Hvs. induction Hgr as [|l g ls gs H HF IH]; [constructor|].
    inversion Hok as [|? ? Ho1 Ho2]; subst. inversion Hvs as [|? ? Hv1 Hv2]; subst.
    cbn [map]. constructor; [|now apply IH].
    destruct (negb nl || is_nonlinear (l_soil l)); [|subst g; right; reflexivity].
    left. destruct H as (n & Hn & Hlen & HFx & _).
    exists (map l_thick g).
    assert (HS : Rsum (map l_thick g) * INR n = INR (length g) * l_thick l).
    { clear Hlen. induction HFx as [|x xs (X1 & X2 & _) HFx IHx].
      - cbn. ring.
      - cbn [map Rsum fold_right length]. rewrite S_INR. unfold Rsum in IHx.
        rewrite Rmult_plus_distr_r, IHx, X2. ring. }
    split; [destruct g; [cbn in Hlen; lia|discriminate]|]. split; [|split].
    - rewrite map_map. apply map_ext_in. intros x Hx. rewrite Forall_forall in HFx.
      destruct (HFx x Hx) as (X1 & X2 & X3 & X4). unfold wl.
      apply wlayer_reset_eq; congruence.
    - rewrite Hlen in HS. unfold wl; cbn [wlayer_of layer_reset wl_thick l_thick].
      apply Rmult_eq_reg_r with (INR n); [rewrite HS; ring|].
      apply not_0_INR. lia.
    - apply phys_carries, sound_phys. apply reset_sound; assumption. }
  assert (Hrs' : calc_waves_python freq (map wl (removelast (view w p)) ++ [wl bottom]) = Ok rs).
  { rewrite <- Hrs. f_equal. rewrite map_map.
    rewrite EV at 2. rewrite map_app. reflexivity. }
  destruct (finer_tf freq _ _ HFin rs Hrs') as (rs' & E1 & E2).
  exists rs'. split; [now rewrite HM|].
  assert (L1 : length (concat (map (map wl) groups) ++ [wl bottom]) = length (view w' q)).
  { rewrite <- HM, !map_length. reflexivity. }
  assert (L2 : length (map wl (removelast (view w p)) ++ [wl bottom]) = length (view w p)).
  { rewrite EV at 2. rewrite !app_length, map_length. reflexivity. }
  rewrite L1, L2 in E2. exact E2.
Qed.

(** * C22 for physical profiles: no definedness hypothesis left *)
Lemma upgoing_motion w ls rs : 1e-8 < w -> List.Forall sound ls ->
  calc_waves_python w (map wlayer_of ls) = Ok rs ->
  forall loc, (loc_index loc < length ls)%nat -> loc_field loc <> Within ->
  exists x, wave_at_location rs loc = Ok (Some x) /\ x <> RtoC 0.
Proof.
  intros Hw HF H loc Hi Hfield.
  assert (HL : length rs = length ls).
  { destruct ls as [|l ls]; [discriminate|]. apply Ok_inj in H. subst rs.
    unfold rows. rewrite map_length, combine_length.
    destruct (isclose w 0); [rewrite set_last_ones_length|]; rewrite waves_from_length, map_length; lia. }
  destruct (upgoing_nonzero w ls rs Hw HF H) as [HR _]. rewrite Forall_forall in HR.
  unfold wave_at_location. destruct (nth_error rs (loc_index loc)) as [r|] eqn:E.
  2:{ apply nth_error_None in E. lia. }
  destruct (HR r (nth_error_In _ _ E)) as [Ha Hk]. unfold wave_at.
  destruct (r_k r) as [k|]; [|congruence].
  destruct (loc_field loc); [|contradiction|]; eexists; (split; [reflexivity|]).
  - apply Cmult_neq_0; [|apply Cexp_neq_0]. apply Cmult_neq_0; [apply RtoC_neq_0; lra|exact Ha].
  - apply Cmult_neq_0; [exact Ha|apply Cexp_neq_0].
Qed.

Theorem tf_laws_physical w ls rs : 1e-8 < w -> List.Forall sound ls ->
  calc_waves_python w (map wlayer_of ls) = Ok rs ->
  forall la lb lc,
  (loc_index la < length ls)%nat -> (loc_index lb < length ls)%nat -> (loc_index lc < length ls)%nat ->
  loc_field la <> Within -> loc_field lb <> Within ->
  calc_accel_tf rs la la = Ok (Some (RtoC 1)) /\
  exists t1 t2, calc_accel_tf rs la lb = Ok (Some t1) /\ calc_accel_tf rs lb lc = Ok (Some t2) /\
    calc_accel_tf rs la lc = Ok (Some (Cmult t1 t2)).
Proof.
  intros Hw HF H la lb lc Ia Ib Ic Fa Fb.
  destruct (upgoing_motion w ls rs Hw HF H la Ia Fa) as (xa & Ea & Na).
  destruct (upgoing_motion w ls rs Hw HF H lb Ib Fb) as (xb & Eb & Nb).
  split; [exact (tf_self rs la xa Ea Na)|].
  destruct (upgoing_nonzero w ls rs Hw HF H) as [_ HT].
  destruct (HT la lc Ia Ic Fa) as [t Et].
  unfold calc_accel_tf in Et.
  destruct (wave_at_location rs lc) as [[xc|]|] eqn:Ec; cbn [bind] in Et; try (rewrite Ea in Et; discriminate).
  2:discriminate.
  exact (tf_compose rs la lb lc xa xb xc Ea Eb Ec Na Nb).
Qed.
