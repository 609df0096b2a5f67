(** Runs that report convergence although the properties have just changed. *)
From Coq Require Import Sorted String.
From Verif Require Import Common Proof.CommonFacts Model.Curve Model.Layer Model.Cplx Model.Waves Model.Eql
  Spec.CurveSpec Spec.LayerSpec Spec.WaveSpec Spec.EqlSpec Proof.CurveFacts Proof.LayerFacts Proof.CplxFacts
  Proof.WaveFacts Proof.WaveEnergy Proof.WaveProps Proof.EqlFacts Proof.EqlProps Proof.EqlResults Proof.EqlPhysical.
From Coq Require Import List.
From Coquelicot Require Import Complex.
Local Open Scope R_scope.

(** A soil with constant damping and a modulus that falls with strain (or none). *)
Definition falling (s : soil) : Prop :=
  (exists d, s_damp s = DConst d) /\
  match s_mod s with
  | None => True
  | Some c => good_table (c_strains c) (c_values c) /\ StronglySorted (fun a b => b <= a) (c_values c)
  end.

Lemma falling_mod l a b : 0 < initial_shear_mod l -> falling (l_soil l) -> a <= b ->
  compute_mod l b <= compute_mod l a.
Proof.
  intros HG [_ H] Hab. unfold compute_mod. apply Rmult_le_compat_l; [lra|].
  destruct (s_mod (l_soil l)) as [c|]; [|lra]. destruct H as [Hg Hs].
  destruct (curve_antitone c a b Hg Hs Hab) as (x & y & -> & -> & H). exact H.
Qed.

Lemma falling_damp l s : falling (l_soil l) -> compute_damping l s = l_dmin l.
Proof. intros [[d H] _]. unfold compute_damping. rewrite H. lra. Qed.

Lemma up_error l e s : physical l -> falling (l_soil l) -> s <= e ->
  err_below (max_error (set_strain (set_strain (layer_reset l) e) s)) 0 = true \/
  max_error (set_strain (set_strain (layer_reset l) e) s) = EFin 0.
Proof.
  intros Hp Hf Hse. pose proof (physical_G l Hp) as HG.
  unfold max_error, set_strain, iter_set; cbn [l_G l_D it_value].
  set (l' := layer_reset l).
  assert (ED : forall x y, compute_damping (mkLayer (l_soil l') (l_thick l') (l_depth l') (l_svert l') (l_vs l') (l_dmin l')
     (mkIter (compute_mod l' e) (it_value (l_G l'))) (mkIter (compute_damping l' e) (it_value (l_D l'))) x (l_smax l') (l_prof l')) y = l_dmin l).
  { intros x y. rewrite falling_damp; [reflexivity|exact Hf]. }
  rewrite ED. rewrite (falling_damp l' e Hf).
  assert (R2 : relative_error (mkIter (l_dmin l) (l_dmin l')) = EFin 0).
  { unfold relative_error, Rltb; cbn [it_value it_prev]. change (l_dmin l') with (l_dmin l).
    destruct (Rlt_dec 0 (l_dmin l)); [f_equal; field; lra|].
    unfold isclose, Rleb. rewrite Rminus_diag_eq by reflexivity. rewrite Rabs_R0.
    pose proof (Rabs_pos (l_dmin l)). destruct (Rle_dec 0 _); [reflexivity|lra]. }
  rewrite R2.
  match goal with |- context[compute_mod (mkLayer ?a ?b ?c0 ?d ?f ?g ?h ?i ?j ?k ?n) s] =>
    change (compute_mod (mkLayer a b c0 d f g h i j k n) s) with (compute_mod l' s) end.
  assert (HG' : 0 < initial_shear_mod l') by exact HG.
  pose proof (falling_mod l' s e HG' Hf Hse) as Hm.
  assert (Hpos : 0 < compute_mod l' s).
  { pose proof (set_strain_sound l' s Hp) as [H _]. exact H. }
  right. unfold relative_error, Rltb; cbn [it_value it_prev].
  destruct (Rlt_dec 0 (compute_mod l' s)) as [_|N]; [|contradiction]. cbn [perr_max]. f_equal.
  apply Rmax_right.
  assert ((compute_mod l' e - compute_mod l' s) / compute_mod l' s <= 0); [|lra].
  unfold Rdiv. rewrite <- (Rmult_0_l (/ compute_mod l' s)). apply Rmult_le_compat_r; [|lra].
  left. now apply Rinv_0_lt_compat.
Qed.

(** If the strains computed in the first pass do not exceed those estimated from
    the peak velocity, the run stops after that pass, however much the moduli
    have changed. *)
Theorem eql_early_stop P m lin ls b wv0 wv1 : last_opt ls = Some b ->
  List.Forall physical ls -> is_nonlinear (l_soil b) = false ->
  List.Forall (fun l => falling (l_soil l)) (removelast ls) -> 0 < e_tol P -> (0 < e_max P)%Z ->
  le_call m true ls = Ok wv0 -> calc_waves m (estimate_strains m ls) = Ok wv1 ->
  (forall i l, nth_error (removelast ls) i = Some l -> exists mx,
     calc_strain_max m (length ls) wv1 lin i l = Ok mx /\
     e_ratio P * mx <= (m_pgv m / 100) / l_vs l) ->
  exists st ls', eql_call P m lin true ls = ([st], Ok (Converged, ls', wv1)).
Proof.
  intros Hb HP Hlin HFa Htol Hmax Hle Hw1 HS.
  assert (Hne : ls <> []) by (intros ->; discriminate).
  destruct (eql_call P m lin true ls) as [t r] eqn:E.
  destruct (call_loop P m lin true ls t r E) as [(_ & e & _ & Ew)|(wv0' & out & Ew & El & ->)].
  { unfold le_call in Hle. congruence. }
  assert (ES : start_layers m true ls = estimate_strains m ls).
  { unfold start_layers, estimate_strains. rewrite map_map. reflexivity. }
  rewrite ES in El. set (ls1 := estimate_strains m ls) in *.
  assert (Hn1 : forall i l, nth_error ls i = Some l ->
     nth_error ls1 i = Some (set_strain (layer_reset l) ((m_pgv m / 100) / l_vs l))).
  { intros i l Hi. unfold ls1, estimate_strains. now apply map_nth_error with (f := fun l => _). }
  assert (HL1 : length ls1 = length ls) by (unfold ls1, estimate_strains; apply map_length).
  assert (Hb1 : last_opt ls1 = Some (set_strain (layer_reset b) ((m_pgv m / 100) / l_vs b))).
  { unfold ls1, estimate_strains. rewrite last_opt_map, Hb. reflexivity. }
  pose proof (length_removelast _ _ Hb) as RL. pose proof (length_removelast _ _ Hb1) as RL1.
  assert (HU : exists u, update_strains P m (length ls1) wv1 lin 0 (removelast ls1) = Ok u).
  { assert (HG : forall xs i, (forall j l, nth_error xs j = Some l -> exists mx,
        calc_strain_max m (length ls1) wv1 lin (i + j) l = Ok mx) ->
        exists u, update_strains P m (length ls1) wv1 lin i xs = Ok u).
    { induction xs as [|x xs IH]; intros i H; [now eexists|]. cbn [update_strains].
      destruct (H 0%nat x eq_refl) as [mx Em]. rewrite Nat.add_0_r in Em. rewrite Em. cbn [bind].
      destruct (limit_strain _ _) as [s lb]. destruct (IH (S i)) as [[u lb'] ->].
      - intros j l Hj. replace (S i + j)%nat with (i + S j)%nat by lia. exact (H (S j) l Hj).
      - cbn [bind]. now eexists. }
    apply HG. intros j l1 Hj. cbn [plus].
    assert (Hj' : (j < length (removelast ls))%nat).
    { assert (j < length (removelast ls1))%nat by (apply nth_error_Some; congruence). lia. }
    destruct (nth_error (removelast ls) j) as [l|] eqn:El0; [|apply nth_error_None in El0; lia].
    destruct (HS j l El0) as (mx & Em & _). exists mx. rewrite HL1, <- Em. apply strain_max_thick.
    apply nth_removelast in Hj. apply nth_removelast in El0. rewrite (Hn1 j l El0) in Hj.
    injection Hj as <-. reflexivity. }
  destruct HU as [[upd lim] Eu].
  assert (HPass : exists st, eql_pass P m lin wv1 ls1 = Ok st).
  { unfold eql_pass. rewrite Eu, Hb1. cbn [bind].
    destruct (max_errors_ok (upd ++ [set_strain (layer_reset b) ((m_pgv m / 100) / l_vs b)])) as [e ->];
      [now destruct upd|]. cbn [bind]. now eexists. }
  destruct HPass as [st Ep].
  destruct (pass_spec _ _ _ _ _ _ _ Hb1 Ep) as (upd' & Est & HLu & Eu' & Emax).
  destruct (pass_nth _ _ _ _ _ _ _ Hb1 Ep) as (L1 & L2 & L3).
  assert (HErr : forall x, In x (st_layers st) -> max_error x = EFin 0 \/ err_below (max_error x) 0 = true).
  { intros x Hx. rewrite (last_opt_inv _ _ L2) in Hx. apply in_app_or in Hx. destruct Hx as [Hx|[<-|[]]].
    - apply In_nth_error in Hx. destruct Hx as [i Hi].
      assert (Hi' : (i < length (removelast ls))%nat).
      { assert (i < length (removelast (st_layers st)))%nat by (apply nth_error_Some; congruence).
        pose proof (length_removelast _ _ L2). lia. }
      destruct (nth_error (removelast ls) i) as [l|] eqn:El0; [|apply nth_error_None in El0; lia].
      pose proof (nth_removelast _ _ _ El0) as El0'. pose proof (Hn1 i l El0') as N1.
      rewrite <- nth_removelast_lt in N1 by lia.
      destruct (L3 i _ N1) as (mx & s & M1 & M2 & M3).
      destruct (HS i l El0) as (mx' & M1' & Hle').
      assert (mx' = mx). { assert (G : Ok mx' = Ok mx); [|congruence]. rewrite <- M1, <- M1', HL1. now apply strain_max_thick. }
      subst mx'. assert (Hs : s <= (m_pgv m / 100) / l_vs l).
      { destruct M2 as [U1 U2]. destruct (e_limit P) as [x0|] eqn:Elim.
        - destruct (Req_dec x0 0) as [Z0|Z0].
          + rewrite U2; [exact Hle'|]. intros y [Ey Ny]. rewrite Elim in Ey. injection Ey as <-. contradiction.
          + destruct (Rlt_dec x0 (e_ratio P * mx)) as [G|G].
            * rewrite (U1 x0); [lra|now split|exact G].
            * rewrite U2; [exact Hle'|]. intros y [Ey _]. rewrite Elim in Ey. injection Ey as <-. lra.
        - rewrite U2; [exact Hle'|]. intros y [Ey _]. rewrite Elim in Ey. discriminate. }
      replace x with (set_strain (set_strain (layer_reset l) (m_pgv m / 100 / l_vs l)) s) by congruence.
      rewrite Forall_forall in HP, HFa.
      destruct (up_error l (m_pgv m / 100 / l_vs l) s) as [G|G];
        [apply HP; now apply nth_error_In with i|apply HFa; now apply nth_error_In with i|exact Hs|now right|now left].
    - left. destruct (linear_set (layer_reset b) (m_pgv m / 100 / l_vs b) Hlin) as [G1 G2].
      apply rest_error; [rewrite G1|rewrite G2]; reflexivity. }
  assert (Hbel : err_below (st_error st) (e_tol P) = true).
  { clear -HErr Emax Htol. revert HErr Emax. generalize (st_layers st) as xs. generalize (st_error st) as e.
    intros e xs. revert e. induction xs as [|x xs IH]; intros e HErr Emax; cbn [max_errors] in Emax; [discriminate|].
    assert (Hx : exists v, max_error x = EFin v /\ v <= 0).
    { destruct (HErr x (or_introl eq_refl)) as [G|G]; [exists 0; split; [exact G|lra]|].
      apply err_below_true in G. destruct G as (v & G1 & G2). exists v. split; [exact G1|lra]. }
    destruct Hx as (v & Ev & Hv). destruct xs as [|y ys].
    - injection Emax as <-. rewrite Ev. cbn. unfold Rltb. destruct (Rlt_dec v (e_tol P)); [reflexivity|lra].
    - destruct (max_errors (y :: ys)) as [e2|] eqn:E2; [|discriminate]. cbn [bind] in Emax. injection Emax as <-.
      assert (G : err_below e2 (e_tol P) = true) by (apply IH; [intros z Hz; apply HErr; now right|reflexivity]).
      apply err_below_true in G. destruct G as (v2 & -> & Hv2). rewrite Ev. cbn [perr_max err_below].
      unfold Rltb. destruct (Rlt_dec (Rmax v v2) (e_tol P)) as [|N]; [reflexivity|].
      elim N. apply Rmax_lub_lt; lra. }
  destruct (Z.to_nat (e_max P)) as [|fuel] eqn:Ef; [lia|]. cbn [eql_loop] in El.
  rewrite Hw1, Ep, Hbel in El. injection El as <- <-. cbn [bind].
  destruct (set_maxs_spec m (length (st_layers st)) wv1 lin (removelast (st_layers st)) 0) as (u & E1 & _ & _).
  { intros j l Hj. cbn [plus].
    assert (HJ : (j < length (removelast ls1))%nat).
    { assert (j < length (removelast (st_layers st)))%nat by (apply nth_error_Some; congruence).
      pose proof (length_removelast _ _ L2). lia. }
    destruct (nth_error (removelast ls1) j) as [l1|] eqn:E1; [|apply nth_error_None in E1; lia].
    destruct (L3 j l1 E1) as (mx & s & B1 & _ & B3). exists mx. rewrite L1, <- B1.
    apply strain_max_thick. replace l with (set_strain l1 s) by congruence. reflexivity. }
  rewrite E1, L2. cbn [bind]. do 2 eexists. reflexivity.
Qed.

(** * A sinusoidal motion *)

(** Acceleration [a sin (w t)], in g: peak velocity [a g / w] and peak response
    [a |tf|]. *)
Definition sinusoid (w a : R) : motion :=
  mkMotion [w] (100 * (GRAVITY * a / w)) (fun tf => Ok (a * fold_right Rmax 0 (map Cmod tf))).

Definition soft_soil : soil :=
  mkSoil 0 "soft"%string GRAVITY (Some (modulus_curve 1 [5e-3; 1e-2] [1; 0.1])) (DConst 0).
Definition stiff_soil : soil := mkSoil 0 "stiff"%string GRAVITY None (DConst 0).
Definition soft_layer : layer := layer_make soft_soil 10 200 0.
Definition stiff_layer : layer := layer_make stiff_soil 0 200 0.
Definition soft_site : list layer := [soft_layer; stiff_layer].
Definition soft_params : eql_params := mkEql 0.65 0.01 15 (Some 0.05).
Definition soft_motion : motion := sinusoid 1 (2 / GRAVITY).
Definition soft_input : wloc := mkLoc 0 0 Outcrop.

Lemma soft_table : good_table [5e-3; 1e-2] [1; 0.1].
Proof. unfold good_table. split; [reflexivity|]. split; [discriminate|]. split; repeat constructor; lra. Qed.

Lemma soft_physical : List.Forall physical soft_site.
Proof.
  unfold soft_site. constructor; [|constructor; [|constructor]];
    unfold physical, positive_modulus, soft_layer, stiff_layer, soft_soil, stiff_soil, layer_make, layer_reset,
      modulus_curve, mod_reduc_limits, GRAVITY; cbn; repeat split; lra.
Qed.

Lemma soft_high : curve_call (modulus_curve 1 [5e-3; 1e-2] [1; 0.1]) 1e-2 = Ok 0.1.
Proof.
  rewrite (curve_last (modulus_curve 1 [5e-3; 1e-2] [1; 0.1]) 1e-2 0.1 1e-2); try exact soft_table; try lra.
  - cbn. unfold clip. rewrite Rmax_left, Rmin_left by lra. reflexivity.
  - now split.
Qed.
Lemma soft_low s : s <= 5e-3 -> curve_call (modulus_curve 1 [5e-3; 1e-2] [1; 0.1]) s = Ok 1.
Proof.
  intros H. rewrite (curve_first (modulus_curve 1 [5e-3; 1e-2] [1; 0.1]) 5e-3 1 s); try exact soft_table; try lra.
  - cbn. unfold clip. rewrite Rmax_left, Rmin_left by lra. reflexivity.
  - now split.
Qed.

Lemma g_ne : GRAVITY <> 0. Proof. unfold GRAVITY. lra. Qed.

Lemma soft_G0 : initial_shear_mod soft_layer = 40000.
Proof. unfold initial_shear_mod, density; cbn. field. exact g_ne. Qed.
Lemma soft_est : (m_pgv soft_motion / 100) / l_vs soft_layer = 1e-2.
Proof.
  unfold soft_motion, sinusoid; cbn [m_pgv soft_layer layer_make layer_reset l_vs].
  replace (100 * (GRAVITY * (2 / GRAVITY) / 1) / 100 / 200) with (1 / 100) by (field; exact g_ne). lra.
Qed.

Lemma real_vel G : 0 < G -> Csqrt (Cdiv (comp_shear_mod_of Dormieux G 0) (RtoC (GRAVITY / GRAVITY))) = RtoC (sqrt G).
Proof.
  intros H. replace (GRAVITY / GRAVITY) with 1 by (field; exact g_ne).
  rewrite comp_mod_parts. unfold clip. rewrite Rmax_left, Rmin_left by lra.
  replace (Cdiv (G * sqrt (1 - 4 * 0 ^ 2), G * (2 * 0)) (RtoC 1)) with (RtoC G).
  2:{ replace (1 - 4 * 0 ^ 2) with 1 by ring. rewrite sqrt_1.
      unfold Cdiv, Cinv, Cmult, RtoC; cbn [fst snd]. f_equal; field. }
  unfold Csqrt. rewrite Cmod_R, Rabs_pos_eq by lra. unfold Re, Im, RtoC; cbn [fst snd].
  unfold Rltb. destruct (Rlt_dec 0 0); [lra|]. replace ((G + G) / 2) with G by field.
  replace ((G - G) / 2) with 0 by field. now rewrite sqrt_0.
Qed.

(** The first layer after the estimate. *)
Definition soft_start : layer := set_strain soft_layer 1e-2.
Lemma soft_start_G : shear_mod soft_start = 4000.
Proof.
  change (shear_mod soft_start) with (compute_mod soft_layer 1e-2). unfold compute_mod.
  change (s_mod (l_soil soft_layer)) with (Some (modulus_curve 1 [5e-3; 1e-2] [1; 0.1])).
  cbn match. rewrite soft_high, soft_G0. lra.
Qed.
Lemma soft_start_vel : wl_vel (wlayer_of soft_start) = RtoC (sqrt 4000).
Proof.
  cbn [wlayer_of wl_vel]. unfold comp_shear_vel, comp_shear_mod, COMP_MODULUS_MODEL.
  rewrite soft_start_G. unfold soft_start, set_strain, damping; cbn [l_D it_value iter_set l_soil].
  replace (compute_damping soft_layer 1e-2) with 0 by (unfold compute_damping; cbn; lra).
  unfold density; cbn [soft_layer layer_make layer_reset l_soil s_unit_wt soft_soil].
  apply real_vel. lra.
Qed.

Lemma soft_estimate : estimate_strains soft_motion soft_site =
  [soft_start; set_strain (layer_reset stiff_layer) (m_pgv soft_motion / 100 / 200)].
Proof.
  unfold estimate_strains, soft_site. cbn [map].
  change (l_vs (layer_reset soft_layer)) with (l_vs soft_layer). rewrite soft_est. reflexivity.
Qed.

(** The peak strain of the first pass. *)
Lemma soft_first_strain wv : calc_waves soft_motion (estimate_strains soft_motion soft_site) = Ok wv ->
  exists mx, calc_strain_max soft_motion 2 wv soft_input 0 soft_layer = Ok mx /\ 0.65 * mx <= 5e-3.
Proof.
  rewrite soft_estimate. intros H. unfold calc_waves in H. cbn [soft_motion sinusoid m_freqs mapM] in H.
  set (b := set_strain (layer_reset stiff_layer) (m_pgv soft_motion / 100 / 200)) in *.
  destruct (calc_waves_numba 1 (map wlayer_of [soft_start; b])) as [rs|] eqn:Er; [|discriminate].
  cbn [bind] in H. apply Ok_inj in H. subst wv.
  assert (Hvel : wl_vel (wlayer_of soft_start) <> RtoC 0).
  { rewrite soft_start_vel. apply RtoC_neq_0. apply Rgt_not_eq, sqrt_lt_R0. lra. }
  assert (E0 : nth_error rs 0 = Some (mkRow (Some (Cdiv (RtoC 1) (RtoC (sqrt 4000)))) c_one c_one)).
  { unfold calc_waves_numba in Er. cbn [map wave_nums_nb] in Er. unfold cdiv_nb in Er at 1.
    destruct (Ceq_dec (wl_vel (wlayer_of soft_start)) (RtoC 0)); [contradiction|]. cbn [bind] in Er.
    destruct (cdiv_nb (RtoC 1) (wl_vel (wlayer_of b))) as [kb|]; [|discriminate]. cbn [bind] in Er.
    apply Ok_inj in Er. subst rs. rewrite soft_start_vel. unfold Rltb. rewrite Rabs_R1.
    destruct (Rlt_dec 1 1e-8); [lra|]. reflexivity. }
  assert (HL : length rs = 2%nat) by (apply rows_some in Er; rewrite (proj1 Er); reflexivity).
  set (k := / sqrt 4000).
  assert (Ek : Cdiv (RtoC 1) (RtoC (sqrt 4000)) = RtoC k).
  { unfold k. rewrite <- RtoC_div by (apply Rgt_not_eq, sqrt_lt_R0; lra). apply f_equal. unfold Rdiv. ring. }
  assert (Hk2 : k * k = / 4000).
  { unfold k. rewrite <- Rinv_mult. rewrite sqrt_sqrt by lra. reflexivity. }
  assert (Hk : 0 < k) by (apply Rinv_0_lt_compat, sqrt_lt_R0; lra).
  unfold calc_strain_max, calc_strain_tfs; cbn [loc_field loc_index soft_input Nat.ltb Nat.leb andb].
  cbn [soft_motion sinusoid m_freqs combine mapM fst snd].
  unfold strain_tf_row; cbn [loc_index soft_input]. rewrite E0. cbn [r_k r_a r_b loc_within loc_field soft_input].
  unfold strain_tf_numba. unfold Rltb at 1. rewrite Rabs_R1. destruct (Rlt_dec 1 1e-8); [lra|].
  rewrite Ek. change (l_thick soft_layer / 2) with (10 / 2).
  assert (EN : Cminus (Cmult c_one (Cexp (Cmult (Cmult Ci (RtoC k)) (RtoC (10 / 2)))))
                      (Cmult c_one (Cexp (Copp (Cmult (Cmult Ci (RtoC k)) (RtoC (10 / 2))))))
              = (0, 2 * sin (5 * k))).
  { unfold c_one, Cminus, Cplus, Cexp, Cmult, Copp, Ci, RtoC, Re, Im; cbn [fst snd].
    replace ((0 * k - 1 * 0) * (10 / 2) - (0 * 0 + 1 * k) * 0) with 0 by field.
    replace ((0 * k - 1 * 0) * 0 + (0 * 0 + 1 * k) * (10 / 2)) with (5 * k) by field.
    rewrite Ropp_0, exp_0, cos_neg, sin_neg. f_equal; ring. }
  rewrite EN.
  assert (ED : Cmult (RtoC (- 1 ^ 2)) (Cmult (Cmult (RtoC 2) c_one) (Cexp (Cmult (Cmult Ci (RtoC k)) (RtoC 0)))) = RtoC (-2)).
  { replace (Cmult (Cmult Ci (RtoC k)) (RtoC 0)) with (RtoC 0) by ring. rewrite Cexp_0. unfold c_one.
    rewrite <- !RtoC_mult. apply f_equal. ring. }
  rewrite ED. unfold cdiv_nb. destruct (Ceq_dec (RtoC (-2)) (RtoC 0)) as [X|_].
  { apply (f_equal fst) in X. cbn in X. lra. }
  cbn [bind m_peak map fold_right soft_motion sinusoid].
  eexists. split; [reflexivity|].
  assert (EV : Cdiv (Cmult (RtoC GRAVITY) (Cmult (Cmult Ci (RtoC k)) (0, 2 * sin (5 * k)))) (RtoC (-2))
               = RtoC (GRAVITY * (k * sin (5 * k)))).
  { unfold Cdiv, Cinv, Cmult, Ci, RtoC; cbn [fst snd]. f_equal; field. }
  rewrite EV, Cmod_R. rewrite Rmax_left by apply Rabs_pos.
  assert (H5 : 5 * k < 1).
  { apply Rnot_le_lt. intros G. assert (1 * 1 <= (5 * k) * (5 * k)) by (apply Rmult_le_compat; lra).
    replace ((5 * k) * (5 * k)) with (25 * (k * k)) in H by ring. rewrite Hk2 in H. lra. }
  assert (Hs0 : 0 < sin (5 * k)) by (apply sin_gt_0; [lra|]; pose proof PI2_1; lra).
  assert (Hs1 : sin (5 * k) < 5 * k) by (apply sin_lt_x; lra).
  rewrite Rabs_pos_eq.
  2:{ unfold GRAVITY. apply Rmult_le_pos; [lra|]. apply Rmult_le_pos; lra. }
  replace (0.65 * (2 / GRAVITY * (GRAVITY * (k * sin (5 * k))))) with (0.65 * (2 * (k * sin (5 * k))))
    by (apply f_equal; field; exact g_ne).
  assert (k * sin (5 * k) <= 5 * (k * k)) by (replace (5 * (k * k)) with (k * (5 * k)) by ring; apply Rmult_le_compat_l; lra).
  rewrite Hk2 in H. lra.
Qed.

Lemma soft_falling : falling (l_soil soft_layer).
Proof.
  split; [now exists 0|]. cbn. split; [exact soft_table|]. repeat constructor; lra.
Qed.
Lemma soft_clear : clear_freqs soft_motion.
Proof. apply List.Forall_cons; [right; lra|apply List.Forall_nil]. Qed.

Lemma soft_converged : exists t ls' wv,
  List.Forall physical soft_site /\ limit_on soft_params 0.05 /\ e_tol soft_params = 0.01 /\
  eql_call soft_params soft_motion soft_input true soft_site = (t, Ok (Converged, ls', wv)) /\
  exists before after l l', history (start_layers soft_motion true soft_site) t = [before; after] /\
    nth_error before 0 = Some l /\ nth_error ls' 0 = Some l' /\
    pct (shear_mod l) (shear_mod l') = - 90.
Proof.
  assert (Hst : List.Forall fit (estimate_strains soft_motion soft_site)).
  { pose proof (start_fit soft_motion soft_site soft_physical) as H. unfold start_layers, estimate_strains in H.
    rewrite map_map in H. exact H. }
  assert (Hm : clear_freqs soft_motion) by exact soft_clear.
  destruct (waves_sound soft_motion (estimate_strains soft_motion soft_site)) as [wv1 Ew1];
    [discriminate|now apply fit_sounds|exact Hm|].
  destruct (waves_sound soft_motion (map layer_reset soft_site)) as [wv0 Ew0]; [discriminate| |exact Hm|].
  { pose proof soft_physical as H. rewrite Forall_forall in H. apply Forall_forall. intros x Hx.
    apply in_map_iff in Hx. destruct Hx as (l & <- & Hl). now apply reset_sound', H. }
  destruct (soft_first_strain wv1 Ew1) as (mx & Emx & Hmx).
  destruct (eql_early_stop soft_params soft_motion soft_input soft_site stiff_layer wv0 wv1) as (st & ls' & E).
  - reflexivity.
  - exact soft_physical.
  - reflexivity.
  - constructor; [exact soft_falling|constructor].
  - cbn; lra.
  - cbn; lia.
  - exact Ew0.
  - exact Ew1.
  - intros [|[|i]] l Hl; cbn in Hl; try discriminate. injection Hl as <-. exists mx. split; [exact Emx|].
    rewrite soft_est. cbn [e_ratio soft_params]. lra.
  - exists [st], ls', wv1. split; [exact soft_physical|]. split; [split; [reflexivity|lra]|]. split; [reflexivity|].
    split; [exact E|].
    assert (ES : start_layers soft_motion true soft_site = estimate_strains soft_motion soft_site).
    { unfold start_layers, estimate_strains. rewrite map_map. reflexivity. }
    assert (N1 : soft_site <> []) by discriminate. assert (N2 : [st] <> []) by discriminate.
    assert (N3 : true = false -> List.Forall assignable soft_site) by discriminate.
    destruct (eql_compatible _ _ _ _ _ _ _ _ _ N1 N3 N2 E) as [HL HC].
    destruct (HC 0%nat soft_layer) as (l & mx' & N & _ & _ & _ & _ & Smax & U & HG & _); [cbn; lia|reflexivity|].
    destruct (call_end _ _ _ _ _ _ _ _ _ N1 N2 E)
      as (h0 & lsp & st' & upd & b & F1 & F2 & _ & F4 & F5 & _ & Fb & Fs & ->).
    exists (estimate_strains soft_motion soft_site), (st_layers st), soft_start, l.
    unfold history. rewrite ES. split; [reflexivity|]. split; [now rewrite soft_estimate|]. split; [exact N|].
    rewrite soft_start_G, HG. cbn [spec_G].
    assert (Hs : strain l <= 5e-3).
    { assert (lsp = estimate_strains soft_motion soft_site).
      { rewrite ES in F1. unfold history in F1. cbn [map] in F1.
        pose proof (f_equal (@length _) F1) as FL. rewrite app_length in FL. cbn [length] in FL.
        destruct h0 as [|h1 h0]; [|cbn [length] in FL; lia]. cbn [app] in F1. congruence. }
      subst lsp. destruct (pass_nth _ _ _ _ _ _ _ Fb F5) as (L1 & L2 & L3).
      destruct (set_maxs_nth _ _ _ _ _ _ _ Fs) as [M1 M2].
      destruct (L3 0%nat soft_start) as (mx2 & s & A1 & A2 & A3); [now rewrite soft_estimate|].
      assert (mx2 = mx).
      { assert (G : Ok mx2 = Ok mx); [|congruence]. rewrite <- A1, <- Emx.
        replace (length (estimate_strains soft_motion soft_site)) with 2%nat by (now rewrite soft_estimate).
        now apply strain_max_thick. }
      subst mx2. destruct (M2 0%nat _ A3) as (mx3 & B1 & B2).
      rewrite nth_error_app1 in N by (apply nth_error_Some; congruence).
      assert (l = set_strain_max (set_strain soft_start s) mx3) by congruence. subst l.
      assert (Es : strain (set_strain_max (set_strain soft_start s) mx3) = s).
      { refine (proj2 (assignable_set soft_start s _)). apply assignable_set, assignable_reset. }
      rewrite Es. destruct A2 as [U1 U2]. rewrite U2; [exact Hmx|].
      intros x [Ex _]. injection Ex as <-. cbn [e_ratio soft_params]. lra. }
    unfold soil_behaviour; cbn [modred].
    change (s_mod (l_soil soft_layer)) with (Some (modulus_curve 1 [5e-3; 1e-2] [1; 0.1])). cbn match.
    rewrite (soft_low _ Hs). unfold pct, density; cbn [soft_layer soft_soil layer_make layer_reset l_soil l_vs s_unit_wt].
    field. exact g_ne.
Qed.

Theorem convergence_refuted : exists P m lin ls t ls' wv,
  List.Forall physical ls /\ limit_on P 0.05 /\ e_tol P = 0.01 /\
  eql_call P m lin true ls = (t, Ok (Converged, ls', wv)) /\
  exists before after l l', history (start_layers m true ls) t = [before; after] /\
    nth_error before 0 = Some l /\ nth_error ls' 0 = Some l' /\
    pct (shear_mod l) (shear_mod l') = - 90.
Proof. exists soft_params, soft_motion, soft_input, soft_site. exact soft_converged. Qed.

(** The half-space is not limited. *)
Theorem limit_refuted : exists P m lin ls t ls' wv b x,
  List.Forall physical ls /\ limit_on P x /\
  eql_call P m lin true ls = (t, Ok (Converged, ls', wv)) /\
  last_opt ls' = Some b /\ x < strain b.
Proof.
  pose proof soft_physical as Hph.
  set (ls := [stiff_layer; stiff_layer]).
  assert (HP : List.Forall physical ls).
  { unfold ls. inversion Hph as [|? ? _ H2]; subst. inversion H2; subst. constructor; assumption. }
  assert (Hm : clear_freqs soft_motion) by exact soft_clear.
  destruct (waves_sound soft_motion (map layer_reset ls)) as [wv0 Ew0]; [discriminate| |exact Hm|].
  { rewrite Forall_forall in HP. apply Forall_forall. intros x Hx.
    apply in_map_iff in Hx. destruct Hx as (l & <- & Hl). now apply reset_sound', HP. }
  set (P := mkEql 0.65 0.01 15 (Some 1e-3)).
  destruct (eql_linear_physical P soft_motion soft_input ls wv0) as (t & ls' & E & Ht); try exact HP; try exact Hm.
  - discriminate.
  - repeat constructor.
  - cbn; lra.
  - cbn; lia.
  - cbn; lia.
  - discriminate.
  - intros tf _. now eexists.
  - intros tf. discriminate.
  - exact Ew0.
  - destruct (eql_bedrock P soft_motion soft_input ls t Converged ls' wv0 stiff_layer eq_refl E) as (b & Eb & Sb & _).
    exists P, soft_motion, soft_input, ls, t, ls', wv0, b, 1e-3. split; [exact HP|].
    split; [split; [reflexivity|lra]|]. split; [exact E|]. split; [exact Eb|]. rewrite Sb.
    unfold soft_motion, sinusoid, GRAVITY; cbn. lra.
Qed.

(** For the examples. *)
Lemma soft_converges : exists t ls' wv,
  eql_call soft_params soft_motion soft_input true soft_site = (t, Ok (Converged, ls', wv)).
Proof.
  assert (Hst : List.Forall fit (estimate_strains soft_motion soft_site)).
  { pose proof (start_fit soft_motion soft_site soft_physical) as H. unfold start_layers, estimate_strains in H.
    rewrite map_map in H. exact H. }
  destruct (waves_sound soft_motion (estimate_strains soft_motion soft_site)) as [wv1 Ew1];
    [discriminate|now apply fit_sounds|exact soft_clear|].
  destruct (waves_sound soft_motion (map layer_reset soft_site)) as [wv0 Ew0]; [discriminate| |exact soft_clear|].
  { pose proof soft_physical as H. rewrite Forall_forall in H. apply Forall_forall. intros x Hx.
    apply in_map_iff in Hx. destruct Hx as (l & <- & Hl). now apply reset_sound', H. }
  destruct (soft_first_strain wv1 Ew1) as (mx & Emx & Hmx).
  destruct (eql_early_stop soft_params soft_motion soft_input soft_site stiff_layer wv0 wv1) as (st & ls' & E).
  - reflexivity.
  - exact soft_physical.
  - reflexivity.
  - constructor; [exact soft_falling|constructor].
  - cbn; lra.
  - cbn; lia.
  - exact Ew0.
  - exact Ew1.
  - intros [|[|i]] l Hl; cbn in Hl; try discriminate. injection Hl as <-. exists mx. split; [exact Emx|].
    rewrite soft_est. cbn [e_ratio soft_params]. lra.
  - now exists [st], ls', wv1.
Qed.

Lemma soft_bedrock_stale : let G := spec_G (density soft_soil) 200 (soil_behaviour soft_soil) (Some 1e-2) in
  0 < G /\ 0.01 <= pct (density soft_soil * (200 * 200)) G.
Proof.
  cbn zeta. unfold spec_G, soil_behaviour; cbn [modred soft_soil s_mod]. rewrite soft_high.
  assert (E : density soft_soil = 1) by (unfold density; cbn; field; exact g_ne). rewrite E.
  unfold pct. split; [lra|]. replace (1 * (200 * 200) * 0.1) with 4000 by lra. lra.
Qed.
