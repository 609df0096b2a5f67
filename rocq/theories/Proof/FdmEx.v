(** A site for the examples of the frequency-dependent calculator: a layer with modulus and
    damping curves over rock, driven by one frequency. *)
From Coq Require Import String.
From Verif Require Import Common Proof.CommonFacts Model.Curve Model.Layer Model.Cplx Model.Waves Model.Eql Model.Averages Model.Motion Model.Text
  Model.Output Model.Fdm Spec.CurveSpec Spec.LayerSpec Spec.WaveSpec Spec.EqlSpec Spec.FdmSpec Proof.CurveFacts Proof.LayerFacts Proof.CplxFacts Proof.WaveFacts Proof.WaveEnergy Proof.WaveProps Proof.EqlFacts Proof.EqlProps Proof.EqlResults
  Proof.EqlPhysical Proof.EqlRefute Proof.FdmFacts Proof.FdmProps Proof.FdmResults Proof.FdmLinear Proof.FdmOutput.
From Coq Require Import List.
From Coquelicot Require Import Complex.
Local Open Scope R_scope.

Definition dc_soil : soil :=
  mkSoil 0 "soft"%string GRAVITY (Some (modulus_curve 1 [5e-3; 1e-2] [1; 0.1])) (DCurve (damping_curve 2 [5e-3; 1e-2] [0; 0.1])).
Definition dc_layer : layer := layer_make dc_soil 10 200 0.
Definition dc_site : list layer := [dc_layer; stiff_layer].
Definition dc_motion : fmotion := mkFM soft_motion [/ (2 * PI)] [RtoC 1].
Definition dc_fdm (t : text) (n : Z) : fdm := mkFdm t 0.65 0.01 n (Some 0.05) (fun _ _ => (0, 0)) (fun _ _ xs => xs).

Lemma fwlayer_of k l : fwlayer k (of_layer l) = Ok (wlayer_of l).
Proof. reflexivity. Qed.
Lemma fwaves_of m ls : fcalc_waves m (map of_layer ls) = calc_waves m ls.
Proof.
  assert (HW : forall k, mapM (fwlayer k) (map of_layer ls) = Ok (map wlayer_of ls)).
  { intros k. induction ls as [|l ls IH]; [reflexivity|]. cbn [map mapM]. rewrite fwlayer_of, IH. reflexivity. }
  unfold fcalc_waves, calc_waves. generalize (m_freqs m) as fs. intros fs.
  assert (HG : forall a, mapM (fun kw : nat * R => bind (mapM (fwlayer (fst kw)) (map of_layer ls)) (calc_waves_numba (snd kw)))
      (combine (seq a (length fs)) fs) = mapM (fun w => calc_waves_numba w (map wlayer_of ls)) fs).
  { induction fs as [|w fs IH]; intros a; [reflexivity|]. cbn [length seq combine mapM fst snd].
    rewrite HW. cbn [bind]. destruct (calc_waves_numba w _); [|reflexivity]. cbn [bind]. now rewrite IH. }
  exact (HG 0%nat).
Qed.

Lemma dc_table : good_table [5e-3; 1e-2] [0; 0.1].
Proof. unfold good_table. split; [reflexivity|]. split; [discriminate|]. split; repeat constructor; lra. Qed.
Lemma dc_low s : s <= 5e-3 -> curve_call (damping_curve 2 [5e-3; 1e-2] [0; 0.1]) s = Ok 0.
Proof.
  intros H. rewrite (curve_first (damping_curve 2 [5e-3; 1e-2] [0; 0.1]) 5e-3 0 s); try exact dc_table; try lra.
  - cbn. unfold clip. rewrite Rmax_left, Rmin_left by lra. reflexivity.
  - now split.
Qed.
Lemma dc_usable : usable (damping_curve 2 [5e-3; 1e-2] [0; 0.1]).
Proof. destruct (curve_call_any _ 5e-3 1 0 (dc_low 5e-3 ltac:(lra))) as [v Hv]. now exists v. Qed.
Lemma dc_physical : List.Forall physical dc_site.
Proof.
  unfold dc_site. constructor; [|constructor; [|constructor]];
    unfold physical, positive_modulus, dc_layer, stiff_layer, dc_soil, stiff_soil, layer_make, layer_reset,
      modulus_curve, damping_curve, mod_reduc_limits, damping_limits, GRAVITY; cbn; repeat split; lra.
Qed.
Lemma dc_G0 : initial_shear_mod dc_layer = 40000.
Proof. unfold initial_shear_mod, density; cbn. field. exact g_ne. Qed.
Lemma dc_vel : wl_vel (wlayer_of dc_layer) = RtoC 200.
Proof.
  cbn [wlayer_of wl_vel]. unfold comp_shear_vel, comp_shear_mod, COMP_MODULUS_MODEL.
  change (shear_mod dc_layer) with (initial_shear_mod dc_layer). rewrite dc_G0.
  change (damping dc_layer) with 0.
  unfold density; cbn [dc_layer layer_make layer_reset l_soil s_unit_wt dc_soil].
  rewrite real_vel by lra. apply f_equal. replace 40000 with (200 * 200) by lra. apply sqrt_square. lra.
Qed.

Definition dc_tf : R := GRAVITY * (/ 200 * sin (5 * / 200)).
Lemma dc_tf_pos : 0 < dc_tf /\ 2 / GRAVITY * dc_tf < 1e-3.
Proof.
  unfold dc_tf. assert (Hs0 : 0 < sin (5 * / 200)) by (apply sin_gt_0; [lra|]; pose proof PI2_1; lra).
  assert (Hs1 : sin (5 * / 200) < 5 * / 200) by (apply sin_lt_x; lra).
  split.
  - apply Rmult_lt_0_compat; [unfold GRAVITY; lra|]. apply Rmult_lt_0_compat; lra.
  - replace (2 / GRAVITY * (GRAVITY * (/ 200 * sin (5 * / 200)))) with (/ 100 * sin (5 * / 200)) by (field; exact g_ne). lra.
Qed.
Lemma one_strain_tf a b wv : wl_vel (wlayer_of a) = RtoC 200 -> calc_waves soft_motion [a; b] = Ok wv ->
  calc_strain_tfs soft_motion 2 wv soft_input (mkLoc 0 (10 / 2) Within) = Ok [RtoC dc_tf].
Proof.
  intros Ha H. unfold calc_waves in H. cbn [soft_motion sinusoid m_freqs mapM] in H.
  destruct (calc_waves_numba 1 (map wlayer_of [a; b])) as [rs|] eqn:Er; [|discriminate].
  cbn [bind] in H. apply Ok_inj in H. subst wv.
  assert (Hvel : wl_vel (wlayer_of a) <> RtoC 0) by (rewrite Ha; apply RtoC_neq_0; lra).
  assert (E0 : nth_error rs 0 = Some (mkRow (Some (Cdiv (RtoC 1) (RtoC 200))) c_one c_one)).
  { unfold calc_waves_numba in Er. cbn [map wave_nums_nb] in Er. unfold cdiv_nb in Er at 1.
    destruct (Ceq_dec (wl_vel (wlayer_of a)) (RtoC 0)); [contradiction|]. cbn [bind] in Er.
    destruct (cdiv_nb (RtoC 1) (wl_vel (wlayer_of b))) as [kb|]; [|discriminate]. cbn [bind] in Er.
    apply Ok_inj in Er. subst rs. rewrite Ha. unfold Rltb. rewrite Rabs_R1.
    destruct (Rlt_dec 1 1e-8); [lra|]. reflexivity. }
  assert (HL : length rs = 2%nat) by (apply rows_some in Er; rewrite (proj1 Er); reflexivity).
  set (k := / 200).
  assert (Ek : Cdiv (RtoC 1) (RtoC 200) = RtoC k).
  { unfold k. rewrite <- RtoC_div by lra. apply f_equal. unfold Rdiv. ring. }
  unfold calc_strain_tfs; cbn [loc_field loc_index soft_input Nat.ltb Nat.leb andb].
  cbn [soft_motion sinusoid m_freqs combine mapM fst snd].
  unfold strain_tf_row; cbn [loc_index soft_input]. rewrite E0. cbn [r_k r_a r_b loc_within loc_field soft_input].
  unfold strain_tf_numba. unfold Rltb at 1. rewrite Rabs_R1. destruct (Rlt_dec 1 1e-8); [lra|].
  rewrite Ek.
  assert (EN : Cminus (Cmult c_one (Cexp (Cmult (Cmult Ci (RtoC k)) (RtoC (10 / 2)))))
                      (Cmult c_one (Cexp (Copp (Cmult (Cmult Ci (RtoC k)) (RtoC (10 / 2))))))
              = (0, 2 * sin (5 * k))).
  { unfold c_one, Cminus, Cplus, Cexp, Cmult, Copp, Ci, RtoC, Re, Im; cbn [fst snd].
    replace ((0 * k - 1 * 0) * (10 / 2) - (0 * 0 + 1 * k) * 0) with 0 by field.
    replace ((0 * k - 1 * 0) * 0 + (0 * 0 + 1 * k) * (10 / 2)) with (5 * k) by field.
    rewrite Ropp_0, exp_0, cos_neg, sin_neg. f_equal; ring. }
  rewrite EN.
  assert (ED : Cmult (RtoC (- 1 ^ 2)) (Cmult (Cmult (RtoC 2) c_one) (Cexp (Cmult (Cmult Ci (RtoC k)) (RtoC 0)))) = RtoC (-2)).
  { replace (Cmult (Cmult Ci (RtoC k)) (RtoC 0)) with (RtoC 0) by ring. rewrite Cexp_0. unfold c_one.
    rewrite <- !RtoC_mult. apply f_equal. ring. }
  rewrite ED. unfold cdiv_nb. destruct (Ceq_dec (RtoC (-2)) (RtoC 0)) as [X|_].
  { apply (f_equal fst) in X. cbn in X. lra. }
  cbn [bind].
  assert (EV : Cdiv (Cmult (RtoC GRAVITY) (Cmult (Cmult Ci (RtoC k)) (0, 2 * sin (5 * k)))) (RtoC (-2))
               = RtoC dc_tf).
  { unfold dc_tf. fold k. unfold Cdiv, Cinv, Cmult, Ci, RtoC; cbn [fst snd]. f_equal; field. }
  now rewrite EV.
Qed.

Lemma dc_strain_tf wv : calc_waves soft_motion dc_site = Ok wv ->
  calc_strain_tfs soft_motion 2 wv soft_input (mkLoc 0 (l_thick dc_layer / 2) Within) = Ok [RtoC dc_tf].
Proof. exact (one_strain_tf dc_layer stiff_layer wv dc_vel). Qed.

Definition dc_eff : R := 0.65 * (2 / GRAVITY * dc_tf).
Lemma dc_eff_small : 0 < dc_eff <= 5e-3.
Proof.
  unfold dc_eff. destruct dc_tf_pos as [H1 H2].
  assert (0 < 2 / GRAVITY * dc_tf) by (apply Rmult_lt_0_compat; [unfold GRAVITY; lra|exact H1]). lra.
Qed.
Definition dc_end : list flayer := [fset_strain (of_layer dc_layer) [dc_eff]; of_layer stiff_layer].
Lemma dc_pass n wv : calc_waves soft_motion dc_site = Ok wv ->
  fdm_pass (dc_fdm ZR15 n) dc_motion soft_input wv (map of_layer dc_site) = Ok (Some (mkFStep dc_end false (EFin 0))).
Proof.
  intros Hw. pose proof (dc_strain_tf wv Hw) as Et. pose proof dc_eff_small as HE. destruct dc_tf_pos as [HT _].
  assert (ES : fdm_strain (dc_fdm ZR15 n) dc_motion 2 wv soft_input 0 (of_layer dc_layer) = Ok (Some [dc_eff])).
  { unfold fdm_strain. cbn [fm_motion dc_motion fm_amps fm_hz f_layer of_layer]. rewrite Et. cbn [bind].
    unfold np_mul. cbn [length Nat.eqb]. cbn [map2 combine map fst snd bind].
    cbn [m_peak soft_motion sinusoid map fold_right bind].
    replace (Cmult (RtoC dc_tf) (RtoC 1)) with (RtoC dc_tf) by ring.
    rewrite Cmod_R, Rabs_pos_eq by lra. rewrite Rmax_left by lra.
    rewrite spectrum_other by (intros; apply zr15_other). unfold scaled_by_max. cbn [np_max fold_left bind map_opt].
    unfold div_opt, Reqb. destruct (Req_EM_T dc_tf 0); [lra|]. cbn [opt_bind]. do 3 f_equal.
    cbn [x_ratio dc_fdm]. fold dc_eff. field. lra. }
  unfold fdm_pass. change (length (map of_layer dc_site)) with 2%nat.
  change (removelast (map of_layer dc_site)) with [of_layer dc_layer].
  change (last_opt (map of_layer dc_site)) with (Some (of_layer stiff_layer)).
  cbn [fupdate]. rewrite ES. cbn [bind].
  unfold flimit. cbn [x_limit dc_fdm]. unfold Reqb. destruct (Req_EM_T 0.05 0); [lra|]. cbn [existsb].
  unfold Rltb at 1. destruct (Rlt_dec 0.05 dc_eff); [lra|]. cbn [orb bind app]. fold dc_end.
  assert (EE : fmax_errors dc_end = Ok (EFin 0)); [|now rewrite EE].
  unfold dc_end. cbn [fmax_errors].
  assert (EG : fi_value (f_G (fset_strain (of_layer dc_layer) [dc_eff])) = Ar [40000]).
  { cbn [fset_strain f_G fiter_set fi_value f_layer of_layer]. unfold fcompute_mod.
    change (s_mod (l_soil dc_layer)) with (Some (modulus_curve 1 [5e-3; 1e-2] [1; 0.1])). cbn match.
    unfold curve_array. destruct (curve_call_any _ dc_eff 1 1 (soft_low dc_eff (proj2 HE))) as [v1 Ev1]. rewrite Ev1. cbn [bind mapM].
    rewrite (soft_low dc_eff (proj2 HE)). cbn [bind map]. rewrite dc_G0. do 2 f_equal. lra. }
  assert (ED : fi_value (f_D (fset_strain (of_layer dc_layer) [dc_eff])) = Ar [0]).
  { cbn [fset_strain f_D fiter_set fi_value f_layer of_layer]. unfold fcompute_damping.
    change (s_damp (l_soil dc_layer)) with (DCurve (damping_curve 2 [5e-3; 1e-2] [0; 0.1])). cbn match.
    unfold curve_array. destruct dc_usable as [v1 Ev1]. rewrite Ev1. cbn [bind mapM].
    rewrite (dc_low dc_eff (proj2 HE)). cbn [bind]. unfold soil_damping_min.
    change (s_damp (l_soil dc_layer)) with (DCurve (damping_curve 2 [5e-3; 1e-2] [0; 0.1])). cbn [c_values damping_curve map].
    change (l_dmin dc_layer) with 0. do 2 f_equal. lra. }
  assert (E1 : fmax_error (fset_strain (of_layer dc_layer) [dc_eff]) = Ok (EFin 0)).
  { unfold fmax_error, frelative_error. rewrite EG, ED.
    change (fi_prev (f_G (fset_strain (of_layer dc_layer) [dc_eff]))) with (Sc (initial_shear_mod dc_layer)). rewrite dc_G0.
    change (fi_prev (f_D (fset_strain (of_layer dc_layer) [dc_eff]))) with (Sc 0).
    cbn [zipv map bind entries forallb fst snd]. unfold Rltb. destruct (Rlt_dec 0 40000); [|lra]. destruct (Rlt_dec 0 0); [lra|].
    cbn [andb np_max fold_left bind]. unfold isclose, Rleb. rewrite Rminus_diag_eq, Rabs_R0 by reflexivity.
    destruct (Rle_dec 0 (1e-8 + 1e-5 * 0)); [|lra]. cbn [andb bind perr_max]. do 2 f_equal.
    replace (100 * ((40000 - 40000) / 40000)) with 0 by field. apply Rmax_left. lra. }
  assert (HG : initial_shear_mod stiff_layer = 40000) by (unfold initial_shear_mod, density; cbn; field; exact g_ne).
  assert (E2 : fmax_error (of_layer stiff_layer) = Ok (EFin 0)).
  { unfold fmax_error, frelative_error. cbn [of_layer f_G f_D of_iter fi_value fi_prev].
    change (it_value (l_G stiff_layer)) with (initial_shear_mod stiff_layer). rewrite HG.
    change (it_value (l_D stiff_layer)) with 0. change (it_prev (l_G stiff_layer)) with 1e-9. change (it_prev (l_D stiff_layer)) with 1e-9.
    cbn [zipv map bind entries forallb fst snd]. unfold Rltb. destruct (Rlt_dec 0 40000); [|lra]. destruct (Rlt_dec 0 0); [lra|].
    cbn [andb np_max map fold_left bind fst snd]. unfold isclose, Rleb.
    destruct (Rle_dec (Rabs (0 - 1e-9)) (1e-8 + 1e-5 * Rabs 1e-9)) as [|Q].
    2:{ elim Q. rewrite Rabs_left by lra. rewrite Rabs_pos_eq by lra. lra. }
    cbn [andb bind perr_max]. do 2 f_equal. apply Rmax_right. lra. }
  rewrite E1, E2. cbn [bind perr_max]. do 2 f_equal. apply Rmax_left. lra.
Qed.

(** The run converges in one pass. *)
Lemma dc_run n : (0 < n)%Z -> exists wv ls', fcalc_waves soft_motion (map of_layer dc_site) = Ok wv /\
  fdm_call (dc_fdm ZR15 n) dc_motion soft_input false (map of_layer dc_site) =
    mkFRun [] [mkFStep dc_end false (EFin 0)] (Ok (FConverged, ls', wv)).
Proof.
  intros Hn. destruct (waves_sound soft_motion dc_site) as [wv Ew]; [discriminate| |exact soft_clear|].
  { pose proof dc_physical as H. rewrite Forall_forall in H. apply Forall_forall. intros x Hx.
    assert (E : x = layer_reset x) by (destruct Hx as [<-|[<-|[]]]; reflexivity). rewrite E. now apply reset_sound', H. }
  exists wv. unfold fdm_call. cbn [fm_motion dc_motion]. rewrite fwaves_of, Ew.
  cbn [x_max dc_fdm]. destruct (Z.to_nat n) as [|fuel] eqn:Ef; [lia|]. cbn [fdm_loop].
  change (fm_motion dc_motion) with soft_motion. rewrite fwaves_of, Ew. rewrite (dc_pass n wv Ew). cbn [fs_error].
  assert (EB : err_below (EFin 0) (x_tol (dc_fdm ZR15 n)) = true).
  { cbn. unfold Rltb. destruct (Rlt_dec 0 0.01); [reflexivity|lra]. }
  rewrite EB. cbn [fdm_finish bind fs_layers].
  change (length dc_end) with 2%nat. change (removelast dc_end) with [fset_strain (of_layer dc_layer) [dc_eff]].
  cbn [fset_maxs]. unfold calc_strain_max at 1. cbn [f_layer fset_strain of_layer fm_motion dc_motion].
  rewrite (dc_strain_tf wv Ew). cbn [bind m_peak soft_motion sinusoid]. eexists. split; [reflexivity|reflexivity].
Qed.
Lemma dc_matched t n : matched (dc_fdm t n) dc_motion.
Proof. now repeat split. Qed.
Lemma dc_other : x_method (dc_fdm (list_ascii_of_string "KA02") 15) <> KA02 /\
  (forall b, x_method (dc_fdm (list_ascii_of_string "KA02") 15) <> KO ++ b) /\ ~ documented_method (list_ascii_of_string "KA02").
Proof.
  split; [discriminate|]. split; [intros b; discriminate|]. intros [H|[H|(b & x & H & _)]]; discriminate.
Qed.

(** C107 *)
Lemma fdm_name_refuted : exists F m lin ls ls' wv, ~ documented_method (x_method F) /\
  fr_end (fdm_call F m lin false ls) = Ok (FConverged, ls', wv).
Proof.
  destruct dc_other as (A & B & C). assert (H15 : (0 < 15)%Z) by lia. destruct (dc_run 15 H15) as (wv & ls' & _ & E).
  exists (dc_fdm (list_ascii_of_string "KA02") 15), dc_motion, soft_input, (map of_layer dc_site), ls', wv.
  split; [exact C|]. rewrite (fdm_other_method _ dc_motion soft_input false (map of_layer dc_site) A B).
  change (with_method (dc_fdm (list_ascii_of_string "KA02") 15) ZR15) with (dc_fdm ZR15 15). now rewrite E.
Qed.

(** C110 *)
Lemma fdm_damping_refuted : exists F m lin ls ls' wv a, (2 <= length ls)%nat /\ matched F m /\
  fr_end (fdm_call F m lin false ls) = Ok (FConverged, ls', wv) /\
  damping_entries ls' = Ok a /\ (forall xs, a <> A1 xs) /\
  forall o v, o_values o = Some v -> add_array o a = Err AssertionError.
Proof.
  assert (H15 : (0 < 15)%Z) by lia. destruct (dc_run 15 H15) as (wv & ls' & _ & E).
  assert (HP : fr_passes (fdm_call (dc_fdm ZR15 15) dc_motion soft_input false (map of_layer dc_site)) <> []) by (rewrite E; discriminate).
  assert (HE : fr_end (fdm_call (dc_fdm ZR15 15) dc_motion soft_input false (map of_layer dc_site)) = Ok (FConverged, ls', wv)) by (now rewrite E).
  assert (NF : FConverged <> NotFinite) by discriminate.
  destruct (fdm_damping_arrays (dc_fdm ZR15 15) dc_motion soft_input false (map of_layer dc_site) FConverged ls' wv
     (mkOut (A1 []) (Some (A1 [])) []) (A1 [])) as (rows & E1 & _ & _ & _); try assumption; try reflexivity.
  - apply dc_matched.
  - intros l [<-|[]]. eexists. split; [reflexivity|exact dc_usable].
  - exists (dc_fdm ZR15 15), dc_motion, soft_input, (map of_layer dc_site), ls', wv, (A2 1 rows).
    split; [cbn; lia|]. split; [apply dc_matched|]. split; [exact HE|]. split; [exact E1|]. split; [discriminate|].
    intros o v Ho. unfold add_array. now rewrite Ho.
Qed.

(** C108: no iteration is asked for, yet the estimate iterates. *)
Lemma soft_sound : List.Forall sound (map layer_reset soft_site).
Proof.
  pose proof soft_physical as H. rewrite Forall_forall in H. apply Forall_forall. intros x Hx.
  apply in_map_iff in Hx. destruct Hx as (l & <- & Hl). now apply reset_sound', H.
Qed.
Lemma fdm_iterations_refuted : exists F m lin ls ls' wv, x_max F = 0%Z /\
  fr_end (fdm_call F m lin true ls) = Ok (FExhausted, ls', wv) /\
  fr_passes (fdm_call F m lin true ls) = [] /\ fr_estimate (fdm_call F m lin true ls) <> [].
Proof.
  destruct soft_converges as (t & ls1 & wv1 & Ec).
  destruct (waves_sound soft_motion (map layer_reset soft_site)) as [wv0 Ew0]; [discriminate|exact soft_sound|exact soft_clear|].
  set (F := dc_fdm ZR15 0). set (ls := map of_layer soft_site).
  assert (Els : map freset ls = soft_site) by reflexivity.
  assert (Ew : calc_waves soft_motion soft_site = Ok wv0) by exact Ew0.
  assert (Hne : soft_site <> []) by discriminate.
  assert (Ht : t <> []) by (apply (estimate_passes soft_params soft_motion soft_input soft_site t Converged ls1 wv1); [cbn; lia|exact Ec]).
  destruct (eql_compatible soft_params soft_motion soft_input true soft_site t Converged ls1 wv1 Hne (fun H => False_ind _ (diff_true_false H)) Ht Ec) as [HL HC].
  assert (HM : exists upd, fset_maxs dc_motion (length (map of_layer ls1)) wv0 soft_input 0 (removelast (map of_layer ls1)) = Ok upd).
  { apply fset_maxs_ok. intros j l Hj. rewrite map_length, HL. cbn [plus].
    assert (Hj0 : j = 0%nat).
    { assert (Hjl : (j < length (removelast (map of_layer ls1)))%nat) by (apply nth_error_Some; congruence).
      destruct (last_some (map of_layer ls1)) as [z Hz]; [destruct ls1; [discriminate|discriminate]|].
      pose proof (length_removelast _ _ Hz) as Q. rewrite map_length, HL in Q. cbn in Q. lia. }
    subst j. cbn [fm_motion dc_motion]. unfold calc_strain_max.
    destruct (strain_sound soft_motion (map layer_reset soft_site) wv0 soft_input 0 (l_thick (f_layer l) / 2)) as (tf & Etf & _);
      [discriminate|exact soft_sound|exact soft_clear|exact Ew0|cbn; lia|discriminate|cbn; lia|].
    change (length (map layer_reset soft_site)) with (length soft_site) in Etf. rewrite Etf. cbn [bind]. now eexists. }
  destruct HM as [upd EM].
  assert (ER : fdm_call F dc_motion soft_input true ls = mkFRun t [] (fdm_finish dc_motion soft_input (Ok (FExhausted, map of_layer ls1, wv0)))).
  { unfold fdm_call. rewrite Els. cbn [fm_motion dc_motion]. rewrite Ew. change (estimator F) with soft_params. rewrite Ec. reflexivity. }
  exists F, dc_motion, soft_input, ls. rewrite ER. cbn [fr_end fr_passes fr_estimate fdm_finish bind]. rewrite EM. cbn [bind].
  eexists. eexists. split; [reflexivity|]. split; [reflexivity|]. split; [reflexivity|exact Ht].
Qed.

(** C109: a site of linear soils. *)
Definition lin_site : list layer := [layer_make stiff_soil 10 200 0; stiff_layer].
Lemma lin_physical : List.Forall physical lin_site.
Proof.
  unfold lin_site. constructor; [|constructor; [|constructor]];
    unfold physical, positive_modulus, stiff_layer, stiff_soil, layer_make, layer_reset, GRAVITY; cbn; repeat split; lra.
Qed.
Lemma lin_vel : wl_vel (wlayer_of (layer_make stiff_soil 10 200 0)) = RtoC 200.
Proof.
  cbn [wlayer_of wl_vel]. unfold comp_shear_vel, comp_shear_mod, COMP_MODULUS_MODEL.
  change (shear_mod (layer_make stiff_soil 10 200 0)) with (initial_shear_mod (layer_make stiff_soil 10 200 0)).
  replace (initial_shear_mod (layer_make stiff_soil 10 200 0)) with 40000 by (unfold initial_shear_mod, density; cbn; field; exact g_ne).
  change (damping (layer_make stiff_soil 10 200 0)) with 0.
  unfold density; cbn [layer_make layer_reset l_soil s_unit_wt stiff_soil].
  rewrite real_vel by lra. apply f_equal. replace 40000 with (200 * 200) by lra. apply sqrt_square. lra.
Qed.
Lemma scalar_error l : exists e, fmax_error (of_layer l) = Ok e.
Proof.
  unfold fmax_error, frelative_error. cbn [of_layer f_G f_D of_iter fi_value fi_prev zipv bind entries map np_max fold_left].
  destruct (forallb _ [it_value (l_G l)]); cbn [bind].
  2: destruct (forallb _ [(it_prev (l_G l), it_value (l_G l))]); cbn [bind].
  all: destruct (forallb _ [it_value (l_D l)]); cbn [bind]; [now eexists|];
       destruct (forallb _ [(it_prev (l_D l), it_value (l_D l))]); cbn [bind]; now eexists.
Qed.
Lemma lin_run : exists wv stop ls', calc_waves soft_motion (map freset (map of_layer lin_site)) = Ok wv /\ stop <> NotFinite /\
  fr_passes (fdm_call (dc_fdm ZR15 1) dc_motion soft_input true (map of_layer lin_site)) <> [] /\
  fr_end (fdm_call (dc_fdm ZR15 1) dc_motion soft_input true (map of_layer lin_site)) = Ok (stop, ls', wv).
Proof.
  set (F := dc_fdm ZR15 1).
  assert (HS : List.Forall sound lin_site).
  { pose proof lin_physical as H. rewrite Forall_forall in H. apply Forall_forall. intros x Hx.
    assert (E : x = layer_reset x) by (destruct Hx as [<-|[<-|[]]]; reflexivity). rewrite E. now apply reset_sound', H. }
  destruct (waves_sound soft_motion lin_site) as [wv Ew]; [discriminate|exact HS|exact soft_clear|].
  assert (HN : List.Forall (fun l => is_nonlinear (l_soil l) = false) lin_site) by (constructor; [reflexivity|constructor; [reflexivity|constructor]]).
  assert (Hne : lin_site <> []) by discriminate.
  assert (Htl : 0 < e_tol (estimator F)) by (cbn; lra).
  assert (Hmx : (0 < e_max (estimator F))%Z) by (cbn; lia).
  assert (HI : (loc_index soft_input < length lin_site)%nat) by (cbn; lia).
  assert (HW : loc_field soft_input <> Within) by discriminate.
  assert (HPk : answers soft_motion) by (intros tf _; now eexists).
  destruct (eql_linear_physical (estimator F) soft_motion soft_input lin_site wv Hne lin_physical soft_clear HN Htl Hmx HI HW HPk ltac:(intros tf; discriminate) Ew)
    as (t & ls1 & Ec & Lt).
  destruct (eql_linear (estimator F) soft_motion soft_input lin_site wv Hne HN Htl Hmx Ew t _ Ec) as [(e & Q & _)|(_ & lsx & Q & QL & QN)]; [discriminate|].
  injection Q as <-.
  assert (EW1 : calc_waves soft_motion ls1 = Ok wv).
  { rewrite <- Ew. unfold calc_waves. f_equal.
    replace (map wlayer_of ls1) with (map wlayer_of lin_site); [reflexivity|].
    apply nth_error_ext_len; [rewrite !map_length; lia|]. intros i x y Hx Hy.
    apply map_nth_inv in Hx. destruct Hx as (l0 & Hl0 & <-). apply map_nth_inv in Hy. destruct Hy as (l1 & Hl1 & <-).
    destruct (QN i l0 Hl0) as (l1' & E & S1 & S2 & S3 & S4). replace l1' with l1 in * by congruence.
    assert (A0 : at_rest l0). { apply nth_error_In in Hl0. destruct Hl0 as [<-|[<-|[]]]; split; reflexivity. }
    destruct A0 as [A1 A2]. unfold wlayer_of, comp_shear_vel, comp_shear_mod. now rewrite A1, A2, S1, S2, S3, S4. }
  destruct ls1 as [|a [|b [|c ls1]]]; try discriminate QL. clear QL.
  destruct (QN 0%nat _ eq_refl) as (a' & Ea & A1 & A2 & A3 & A4). injection Ea as <-.
  change (l_thick (layer_make stiff_soil 10 200 0)) with 10 in A2.
  pose proof (one_strain_tf _ _ wv lin_vel Ew) as Et. destruct dc_tf_pos as [HT _].
  assert (ES : fdm_strain F dc_motion 2 wv soft_input 0 (of_layer a) = Ok (Some [dc_eff])).
  { unfold fdm_strain. cbn [fm_motion dc_motion fm_amps fm_hz f_layer of_layer]. rewrite A2, Et. cbn [bind].
    unfold np_mul. cbn [length Nat.eqb]. cbn [map2 combine map fst snd bind].
    cbn [m_peak soft_motion sinusoid map fold_right bind].
    replace (Cmult (RtoC dc_tf) (RtoC 1)) with (RtoC dc_tf) by ring.
    rewrite Cmod_R, Rabs_pos_eq by lra. rewrite Rmax_left by lra.
    rewrite spectrum_other by (intros; apply zr15_other). unfold scaled_by_max. cbn [np_max fold_left bind map_opt].
    unfold div_opt, Reqb. destruct (Req_EM_T dc_tf 0); [lra|]. cbn [opt_bind]. do 3 f_equal.
    change (x_ratio F) with 0.65. fold dc_eff. field. lra. }
  destruct (flimit (x_limit F) [dc_eff]) as [used lim] eqn:El.
  assert (EP : exists e, fdm_pass F dc_motion soft_input wv [of_layer a; of_layer b] = Ok (Some (mkFStep [fset_strain (of_layer a) used; of_layer b] lim e))).
  { unfold fdm_pass. cbn [length removelast last_opt fupdate]. rewrite ES. cbn [bind]. rewrite El. cbn [bind app].
    assert (E1 : exists e, fmax_error (fset_strain (of_layer a) used) = Ok e).
    { assert (HX : fset_strain (of_layer a) used = mkFL a (of_iter (mkIter (initial_shear_mod a * 1) (shear_mod a)))
                     (of_iter (mkIter (0 + l_dmin a) (damping a))) (Ar used)).
      { unfold fset_strain, fcompute_mod, fcompute_damping. cbn [f_layer of_layer]. rewrite A1. reflexivity. }
      rewrite HX. destruct (scalar_error (mkLayer (l_soil a) (l_thick a) (l_depth a) (l_svert a) (l_vs a) (l_dmin a)
          (mkIter (initial_shear_mod a * 1) (shear_mod a)) (mkIter (0 + l_dmin a) (damping a)) (l_strain a) (l_smax a) (l_prof a))) as [e He].
      exists e. exact He. }
    destruct E1 as [e1 E1]. destruct (scalar_error b) as [e2 E2]. cbn [fmax_errors]. rewrite E1, E2. cbn [bind].
    exists (perr_max e1 e2). destruct lim; reflexivity. }
  destruct EP as [e EP].
  exists wv. unfold fdm_call. change (map freset (map of_layer lin_site)) with lin_site. cbn [fm_motion dc_motion]. rewrite Ew, Ec.
  change (Z.to_nat (x_max F)) with 1%nat. cbn [fdm_loop map]. change (fm_motion dc_motion) with soft_motion.
  change [of_layer a; of_layer b] with (map of_layer [a; b]). rewrite fwaves_of, EW1. cbn [map]. rewrite EP. cbn [fs_error fs_limited fs_layers].
  assert (EM : exists upd, fset_maxs dc_motion 2 wv soft_input 0 [fset_strain (of_layer a) used] = Ok upd).
  { cbn [fset_maxs]. unfold calc_strain_max. cbn [f_layer fset_strain of_layer fm_motion dc_motion]. rewrite A2, Et. cbn [bind m_peak soft_motion sinusoid]. now eexists. }
  destruct EM as [upd EM].
  destruct (err_below e (x_tol F)).
  - exists FConverged. cbn [fdm_finish bind length removelast]. rewrite EM. cbn [bind fr_passes fr_end].
    eexists. split; [reflexivity|]. split; [discriminate|]. split; [discriminate|reflexivity].
  - change ((-2 =? 0 - 1)%Z) with false. rewrite Bool.andb_false_r. cbn [fst snd].
    exists FExhausted. cbn [fdm_finish bind length removelast]. rewrite EM. cbn [bind fr_passes fr_end].
    eexists. split; [reflexivity|]. split; [discriminate|]. split; [discriminate|reflexivity].
Qed.
