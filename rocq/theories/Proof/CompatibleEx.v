(** The soft site under a sinusoid: with a tolerance of zero no run converges, and the
    runs settle at the initial stiffness. *)
From Verif Require Import Common Proof.CommonFacts Model.Curve Model.Layer Model.Cplx Model.Waves Model.Eql
  Spec.CurveSpec Spec.LayerSpec Spec.WaveSpec Spec.EqlSpec Spec.CompatibleSpec Proof.CplxFacts Proof.WaveFacts Proof.WaveProps Proof.EqlFacts Proof.EqlProps Proof.EqlResults
  Proof.EqlPhysical Proof.EqlRefute Proof.EqlRepeat Proof.RepeatEx Proof.CompatibleLimit.
From Coq Require Import List.
From Coquelicot Require Import Complex.
Local Open Scope R_scope.

Lemma sinusoid_steady w a : steady_peak (sinusoid w a).
Proof.
  intros tf p HL Ep eps He. cbn [sinusoid m_freqs m_peak length] in *.
  destruct tf as [|t [|? ?]]; try discriminate. cbn in Ep. injection Ep as <-.
  exists (eps / (Rabs a + 1)). pose proof (Rabs_pos a). assert (PD : 0 < eps / (Rabs a + 1)) by (apply Rdiv_lt_0_compat; lra).
  split; [exact PD|].
  intros tf' p' HF Ep'. inversion HF as [|t' ? ? ? HC HN]; subst. inversion HN; subst. cbn in Ep'. injection Ep' as <-.
  rewrite !Rmax_left by apply Cmod_ge_0. rewrite <- Rmult_minus_distr_l, Rabs_mult.
  assert (TR : Rabs (Cmod t' - Cmod t) <= Cmod (Cminus t' t)).
  { assert (T1 : Cmod t' <= Cmod (Cminus t' t) + Cmod t).
    { replace t' with (Cplus (Cminus t' t) t) at 1 by (unfold Cminus; ring). apply Cmod_triangle. }
    assert (T2 : Cmod t <= Cmod (Cminus t' t) + Cmod t').
    { replace t with (Cplus (Copp (Cminus t' t)) t') at 1 by (unfold Cminus; ring). eapply Rle_trans; [apply Cmod_triangle|]. rewrite Cmod_opp. lra. }
    apply Rabs_le. lra. }
  assert (Q : (Rabs a + 1) * (eps / (Rabs a + 1)) = eps) by (field; lra).
  eapply Rle_lt_trans; [apply Rmult_le_compat_l; [apply Rabs_pos|exact TR]|].
  pose proof (Cmod_ge_0 (Cminus t' t)). nra.
Qed.

(** The strain caused in a layer of the soft soil with modulus [G]. *)
Lemma soft_strain x b wv : l_soil x = soft_soil -> l_thick x = 10 -> damping x = 0 -> 4000 <= shear_mod x ->
  calc_waves soft_motion [x; b] = Ok wv ->
  exists mx, calc_strain_max soft_motion 2 wv soft_input 0 x = Ok mx /\ 0.65 * mx <= 5e-3.
Proof.
  intros Hs Ht Hd HG H. set (G := shear_mod x) in *.
  assert (V : wl_vel (wlayer_of x) = RtoC (sqrt G)).
  { cbn [wlayer_of wl_vel]. unfold comp_shear_vel, comp_shear_mod, COMP_MODULUS_MODEL. fold G. rewrite Hd, Hs.
    unfold density; cbn [s_unit_wt soft_soil]. apply real_vel. lra. }
  unfold calc_waves in H. cbn [soft_motion sinusoid m_freqs mapM] in H.
  destruct (calc_waves_numba 1 (map wlayer_of [x; b])) as [rs|] eqn:Er; [|discriminate].
  cbn [bind] in H. apply Ok_inj in H. subst wv.
  assert (Hvel : wl_vel (wlayer_of x) <> RtoC 0).
  { rewrite V. apply RtoC_neq_0. apply Rgt_not_eq, sqrt_lt_R0. lra. }
  assert (E0 : nth_error rs 0 = Some (mkRow (Some (Cdiv (RtoC 1) (RtoC (sqrt G)))) c_one c_one)).
  { unfold calc_waves_numba in Er. cbn [map wave_nums_nb] in Er. unfold cdiv_nb in Er at 1.
    destruct (Ceq_dec (wl_vel (wlayer_of x)) (RtoC 0)); [contradiction|]. cbn [bind] in Er.
    destruct (cdiv_nb (RtoC 1) (wl_vel (wlayer_of b))) as [kb|]; [|discriminate]. cbn [bind] in Er.
    apply Ok_inj in Er. subst rs. rewrite V. unfold Rltb. rewrite Rabs_R1.
    destruct (Rlt_dec 1 1e-8); [lra|]. reflexivity. }
  set (k := / sqrt G).
  assert (Ek : Cdiv (RtoC 1) (RtoC (sqrt G)) = RtoC k).
  { unfold k. rewrite <- RtoC_div by (apply Rgt_not_eq, sqrt_lt_R0; lra). apply f_equal. unfold Rdiv. ring. }
  assert (Hk2 : k * k <= / 4000).
  { unfold k. rewrite <- Rinv_mult. rewrite sqrt_sqrt by lra. apply Rinv_le_contravar; lra. }
  assert (Hk : 0 < k) by (apply Rinv_0_lt_compat, sqrt_lt_R0; lra).
  unfold calc_strain_max, calc_strain_tfs; cbn [loc_field loc_index soft_input Nat.ltb Nat.leb andb].
  cbn [soft_motion sinusoid m_freqs combine mapM fst snd].
  unfold strain_tf_row; cbn [loc_index soft_input]. rewrite E0. cbn [r_k r_a r_b loc_within loc_field soft_input].
  unfold strain_tf_numba. unfold Rltb at 1. rewrite Rabs_R1. destruct (Rlt_dec 1 1e-8); [lra|].
  rewrite Ek, Ht.
  assert (EN : Cminus (Cmult c_one (Cexp (Cmult (Cmult Ci (RtoC k)) (RtoC (10 / 2)))))
                      (Cmult c_one (Cexp (Copp (Cmult (Cmult Ci (RtoC k)) (RtoC (10 / 2))))))
              = (0, 2 * sin (5 * k))).
  { unfold c_one, Cminus, Cplus, Cexp, Cmult, Copp, Ci, RtoC, Re, Im; cbn [fst snd].
    replace ((0 * k - 1 * 0) * (10 / 2) - (0 * 0 + 1 * k) * 0) with 0 by field.
    replace ((0 * k - 1 * 0) * 0 + (0 * 0 + 1 * k) * (10 / 2)) with (5 * k) by field.
    rewrite Ropp_0, exp_0, cos_neg, sin_neg. f_equal; ring. }
  rewrite EN.
  assert (ED : Cmult (RtoC (- 1 ^ 2)) (Cmult (Cmult (RtoC 2) c_one) (Cexp (Cmult (Cmult Ci (RtoC k)) (RtoC 0)))) = RtoC (-2)).
  { replace (Cmult (Cmult Ci (RtoC k)) (RtoC 0)) with (RtoC 0) by ring. rewrite Cexp_0. unfold c_one.
    rewrite <- !RtoC_mult. apply f_equal. ring. }
  rewrite ED. unfold cdiv_nb. destruct (Ceq_dec (RtoC (-2)) (RtoC 0)) as [Y|_].
  { apply (f_equal fst) in Y. cbn in Y. lra. }
  cbn [bind m_peak map fold_right soft_motion sinusoid].
  eexists. split; [reflexivity|].
  assert (EV : Cdiv (Cmult (RtoC GRAVITY) (Cmult (Cmult Ci (RtoC k)) (0, 2 * sin (5 * k)))) (RtoC (-2))
               = RtoC (GRAVITY * (k * sin (5 * k)))).
  { unfold Cdiv, Cinv, Cmult, Ci, RtoC; cbn [fst snd]. f_equal; field. }
  rewrite EV, Cmod_R. rewrite Rmax_left by apply Rabs_pos.
  assert (H5 : 5 * k < 1).
  { apply Rnot_le_lt. intros Q. assert (Z : 1 * 1 <= (5 * k) * (5 * k)) by (apply Rmult_le_compat; lra).
    replace ((5 * k) * (5 * k)) with (25 * (k * k)) in Z by ring. lra. }
  assert (Hs0 : 0 < sin (5 * k)) by (apply sin_gt_0; [lra|]; pose proof PI2_1; lra).
  assert (Hs1 : sin (5 * k) < 5 * k) by (apply sin_lt_x; lra).
  rewrite Rabs_pos_eq.
  2:{ unfold GRAVITY. apply Rmult_le_pos; [lra|]. apply Rmult_le_pos; lra. }
  replace (0.65 * (2 / GRAVITY * (GRAVITY * (k * sin (5 * k))))) with (0.65 * (2 * (k * sin (5 * k))))
    by (apply f_equal; field; exact g_ne).
  assert (k * sin (5 * k) <= 5 * (k * k)) by (replace (5 * (k * k)) with (k * (5 * k)) by ring; apply Rmult_le_compat_l; lra).
  lra.
Qed.

Lemma soft_runs n : (0 < n)%nat -> exists t ls' wv, eql_call (with_max rp_params (Z.of_nat n)) soft_motion soft_input true soft_site = (t, Ok (Exhausted, ls', wv)).
Proof.
  intros Hn.
  destruct (eql_call (with_max rp_params (Z.of_nat n)) soft_motion soft_input true soft_site) as [t r] eqn:E.
  assert (Hne : soft_site <> []) by discriminate.
  assert (HPk : answers soft_motion) by (intros tf _; now eexists).
  assert (HL : forall st, In st t -> st_limited st = false).
  { intros st Hin. destruct (st_limited st) eqn:El; [|reflexivity].
    assert (HA : true = false -> List.Forall assignable soft_site) by discriminate.
    destruct (eql_limited_flag _ _ _ _ _ _ _ Hne HA E st Hin El) as (x & l & [Q _] & _). discriminate. }
  assert (HI : (loc_index soft_input < length soft_site)%nat) by (cbn; lia).
  assert (HW : loc_field soft_input <> Within) by discriminate.
  assert (HR : forall tf, m_peak soft_motion tf <> Err RuntimeError) by (intros tf; discriminate).
  destruct (eql_only_limit_error _ _ _ _ _ _ Hne soft_physical soft_clear HI HW HPk E) as [->|[[[stop ls'] wv] ->]].
  { exfalso. destruct (eql_limit_error _ _ _ _ _ _ _ Hne HR E) as [[A _] _].
    destruct (A eq_refl) as (pre & a & b & post & -> & La & _).
    rewrite (HL a) in La; [discriminate|]. apply in_or_app. right. now left. }
  destruct stop; [|now exists t, ls', wv].
  exfalso. pose proof (eql_bedrock_blocks _ _ _ _ _ _ stiff_layer (eq_refl : last_opt soft_site = Some stiff_layer) E) as B. cbv zeta in B.
  refine (B _ _ ls' wv eq_refl); unfold spec_G, soil_behaviour, density, pct; cbn; pose proof g_ne; unfold GRAVITY in *; [lra|].
  apply Req_le. field. all: lra.
Qed.

Definition stiff_end : layer := set_strain (layer_reset stiff_layer) (m_pgv soft_motion / 100 / 200).
Definition like_soft (x : layer) : Prop := description x = description soft_layer /\ damping x = 0 /\ 4000 <= shear_mod x.

Lemma soft_pass x w st : like_soft x -> calc_waves soft_motion [x; stiff_end] = Ok w ->
  eql_pass rp_params soft_motion soft_input w [x; stiff_end] = Ok st ->
  exists y, st_layers st = [y; stiff_end] /\ description y = description soft_layer /\ damping y = 0 /\ shear_mod y = 40000.
Proof.
  intros (D & Dx & Gx) Hw Hp. destruct (pass_spec _ _ _ _ _ _ _ (eq_refl : last_opt [x; stiff_end] = Some stiff_end) Hp) as (upd & E & HL & Eu & _).
  destruct (update_spec _ _ _ _ _ _ _ _ _ Eu) as (_ & U & _). destruct (U 0%nat x eq_refl) as (mx & s & A & B & C0).
  assert (Es : l_soil x = soft_soil) by (unfold description in D; cbn in D; congruence).
  assert (Et : l_thick x = 10) by (unfold description in D; cbn in D; congruence).
  destruct (soft_strain x stiff_end w Es Et Dx Gx Hw) as (mx' & A' & L'). cbn [Nat.add length] in A.
  assert (mx' = mx) by congruence. subst mx'.
  assert (s = 0.65 * mx) by (apply (proj2 B); intros y [Q _]; discriminate). subst s.
  destruct upd as [|y [|? ?]]; try discriminate. cbn in C0. injection C0 as ->.
  exists (set_strain x (0.65 * mx)). split; [exact E|]. split; [exact D|].
  destruct (same_compute x soft_layer (0.65 * mx) D) as [C1 C2]. split.
  - change (compute_damping x (0.65 * mx) = 0). rewrite C2. unfold compute_damping. cbn. lra.
  - change (compute_mod x (0.65 * mx) = 40000). rewrite C1. unfold compute_mod.
    change (s_mod (l_soil soft_layer)) with (Some (modulus_curve 1 [5e-3; 1e-2] [1; 0.1])).
    cbn match. rewrite soft_low by exact L'. rewrite soft_G0. lra.
Qed.

Lemma soft_loop k : forall x t Y w it lim wv, like_soft x ->
  eql_loop rp_params soft_motion soft_input k it lim [x; stiff_end] wv = (t, Ok (Exhausted, Y, w)) ->
  exists y, Y = [y; stiff_end] /\ like_soft y /\ ((0 < k)%nat -> shear_mod y = 40000).
Proof.
  induction k as [|k IH]; intros x t Y w it lim wv Hx H.
  - cbn in H. exists x. split; [congruence|]. split; [exact Hx|lia].
  - destruct (loop_snoc _ _ _ _ _ _ _ _ _ _ _ H) as (t0 & X0 & w0 & st & A & B & C0 & <-).
    destruct (IH x t0 X0 w0 it lim wv Hx A) as (y & -> & Hy & _).
    destruct (soft_pass y w st Hy B C0) as (z & E & Z1 & Z2 & Z3). exists z. split; [exact E|]. split; [|now intros _].
    split; [exact Z1|]. split; [exact Z2|]. lra.
Qed.

Lemma soft_settles : exists f,
  (forall n, (0 < n)%nat -> exists t wv, eql_call (with_max rp_params (Z.of_nat n)) soft_motion soft_input true soft_site = (t, Ok (Exhausted, f n, wv))) /\
  settles f (map layer_reset soft_site).
Proof.
  exists (fun n => match snd (eql_call (with_max rp_params (Z.of_nat n)) soft_motion soft_input true soft_site) with Ok (_, x, _) => x | Err _ => [] end).
  split.
  - intros n Hn. destruct (soft_runs n Hn) as (t & ls' & wv & E). rewrite E. cbn [snd]. now exists t, wv.
  - intros eps He. exists 1%nat. intros n Hn. destruct (soft_runs n ltac:(lia)) as (t & ls' & wv & E). rewrite E. cbn [snd].
    destruct (call_loop _ _ _ _ _ _ _ E) as [(_ & e & Q & _)|(wv0 & out & W0 & El & Q)]; [discriminate|].
    cbn [with_max e_max] in El. rewrite Nat2Z.id, loop_max in El.
    change (start_layers soft_motion true soft_site) with (estimate_strains soft_motion soft_site) in El.
    rewrite soft_estimate in El. fold stiff_end in El.
    destruct out as [[[stop Y] w]|e]; [|discriminate]. cbn [bind] in Q.
    destruct (set_strain_maxs soft_motion (length Y) w soft_input 0 (removelast Y)) as [upd|] eqn:Eu; [|discriminate]. cbn [bind] in Q.
    assert (stop = Exhausted) by congruence. subst stop.
    assert (L0 : like_soft soft_start).
    { split; [reflexivity|]. split; [|rewrite soft_start_G; lra].
      change (compute_damping soft_layer 1e-2 = 0). unfold compute_damping. cbn. lra. }
    destruct (soft_loop n soft_start t Y w _ _ _ L0 El) as (y & -> & (D & Dy & _) & Gy). specialize (Gy ltac:(lia)).
    apply maxs_alike in Eu. cbn [removelast] in Eu. inversion Eu as [|u ? ? us (A1 & A2 & A3 & _) A4]; subst. inversion A4; subst.
    assert (Els : ls' = [u; stiff_end]) by (cbn in Q; congruence). rewrite Els. unfold soft_site. cbn [map].
    constructor; [|constructor; [|constructor]].
    + split; [rewrite A1; exact D|]. unfold shear_mod, damping in *. rewrite A2, A3, Gy, Dy. cbn [layer_reset l_G l_D iter_new it_value].
      change (initial_shear_mod soft_layer) with (initial_shear_mod soft_layer). rewrite soft_G0. change (l_dmin soft_layer) with 0.
      rewrite !Rminus_diag_eq by reflexivity. rewrite Rabs_R0. now split.
    + split; [reflexivity|].
      destruct (linear_set (layer_reset stiff_layer) (m_pgv soft_motion / 100 / 200) eq_refl) as [G1 D1].
      unfold shear_mod, damping, stiff_end. rewrite G1, D1. cbn [it_value layer_reset l_G l_D iter_new].
      rewrite (Rminus_diag_eq (initial_shear_mod stiff_layer)) by reflexivity. rewrite (Rminus_diag_eq (l_dmin stiff_layer)) by reflexivity.
      rewrite Rabs_R0. now split.
Qed.
