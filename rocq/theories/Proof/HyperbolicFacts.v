(** Facts on powers, logarithms and the Masing damping of the hyperbolic model. *)
From Verif Require Import Common Model.SoilModels Spec.SoilModelSpec Proof.CommonFacts.
Local Open Scope R_scope.

Lemma map_opt_map {A B} (f : A -> option B) (g : A -> B) xs :
  List.Forall (fun x => f x = Some (g x)) xs -> map_opt f xs = Some (map g xs).
Proof. induction 1 as [|x xs H _ IH]; [reflexivity|]. cbn. rewrite H; cbn. rewrite IH. reflexivity. Qed.

Lemma pow_opt_pos x y : 0 < x -> pow_opt x y = Some (Rpower x y).
Proof. intros H. unfold pow_opt, Rltb. destruct (Rlt_dec 0 x); [reflexivity|contradiction]. Qed.
Lemma pow_opt_zero y : 0 < y -> pow_opt 0 y = Some 0.
Proof.
  intros H. unfold pow_opt, Rltb, Reqb. destruct (Rlt_dec 0 0) as [F|_]; [lra|].
  destruct (Req_EM_T 0 0); [|congruence]. destruct (Rlt_dec 0 y); [reflexivity|contradiction].
Qed.
Lemma div_opt_ne x y : y <> 0 -> div_opt x y = Some (x / y).
Proof. intros H. unfold div_opt, Reqb. destruct (Req_EM_T y 0); [contradiction|reflexivity]. Qed.
Lemma ln_opt_pos x : 0 < x -> ln_opt x = Some (ln x).
Proof. intros H. unfold ln_opt, Rltb. destruct (Rlt_dec 0 x); [reflexivity|contradiction]. Qed.
Lemma Rpower_gt0 x y : 0 < Rpower x y.
Proof. apply exp_pos. Qed.

Lemma ln_1p_lt x : 0 < x -> ln (1 + x) < x.
Proof. intros H. rewrite <- (ln_exp x) at 2. apply ln_increasing; [lra|]. apply exp_ineq1. lra. Qed.
Lemma ln_1p_gt x : 0 < x -> x / (1 + x) < ln (1 + x).
Proof.
  intros H. assert (Hy : 0 < / (1 + x)) by (apply Rinv_0_lt_compat; lra).
  assert (E : exp (- (x / (1 + x))) > 1 + - (x / (1 + x))).
  { apply exp_ineq1. assert (0 < x / (1 + x)) by (apply Rdiv_lt_0_compat; lra). lra. }
  assert (E1 : 1 + - (x / (1 + x)) = / (1 + x)) by (field; lra). rewrite E1 in E.
  assert (L : ln (/ (1 + x)) < - (x / (1 + x))).
  { rewrite <- (ln_exp (- (x / (1 + x)))). apply ln_increasing; assumption. }
  rewrite ln_Rinv in L by lra. lra.
Qed.

(** [x^2 + 2x - 2(1 + x) ln(1 + x)] is positive: its derivative is [2(x - ln(1 + x))]. *)
Lemma hyper_area_pos x : 0 < x -> 0 < x ^ 2 + 2 * x - 2 * (1 + x) * ln (1 + x).
Proof.
  intros H. set (f := fun t => t ^ 2 + 2 * t - 2 * (1 + t) * ln (1 + t)).
  destruct (MVT_cor2 f (fun t => 2 * (t - ln (1 + t))) 0 x H) as [c [E [H0 H1]]].
  { intros c Hc. unfold f.
    assert (D : derivable_pt_lim (fun t => t ^ 2 + 2 * t - 2 * (1 + t) * ln (1 + t)) c
       ((INR 2 * c ^ 1 + (0 * c + 2 * 1)) - ((0 * (1 + c) + 2 * (0 + 1)) * ln (1 + c) + 2 * (1 + c) * (/ (1 + c) * (0 + 1))))).
    { apply (derivable_pt_lim_minus (fun t => t ^ 2 + 2 * t) (fun t => 2 * (1 + t) * ln (1 + t))).
      - apply (derivable_pt_lim_plus (fun t => t ^ 2) (fun t => 2 * t)).
        + apply derivable_pt_lim_pow.
        + apply (derivable_pt_lim_mult (fun _ => 2) (fun t => t)); [apply derivable_pt_lim_const|apply derivable_pt_lim_id].
      - apply (derivable_pt_lim_mult (fun t => 2 * (1 + t)) (fun t => ln (1 + t))).
        + apply (derivable_pt_lim_mult (fun _ => 2) (fun t => 1 + t)); [apply derivable_pt_lim_const|].
          apply (derivable_pt_lim_plus (fun _ => 1) (fun t => t)); [apply derivable_pt_lim_const|apply derivable_pt_lim_id].
        + apply (derivable_pt_lim_comp (fun t => 1 + t) ln).
          * apply (derivable_pt_lim_plus (fun _ => 1) (fun t => t)); [apply derivable_pt_lim_const|apply derivable_pt_lim_id].
          * apply derivable_pt_lim_ln. lra. }
    replace (2 * (c - ln (1 + c))) with
      ((INR 2 * c ^ 1 + (0 * c + 2 * 1)) - ((0 * (1 + c) + 2 * (0 + 1)) * ln (1 + c) + 2 * (1 + c) * (/ (1 + c) * (0 + 1)))); [exact D|].
    cbn [INR pow]. field. lra. }
  assert (F0 : f 0 = 0) by (unfold f; rewrite Rplus_0_r, ln_1; ring).
  rewrite F0 in E. pose proof (ln_1p_lt c H0).
  assert (0 < f x) by nra. exact H3.
Qed.

(** The damping of the hyperbolic model in terms of [x = s / strain_ref]. *)
Definition hyper_a (x : R) : R := 100 / PI * (4 * (x - ln (1 + x)) * (1 + x) / x ^ 2 - 2).

Lemma masing_a1_some sr s : 0 < sr -> 0 < s -> masing_a1 sr s = Some (hyper_a (s / sr)).
Proof.
  intros Hr Hs. unfold masing_a1.
  rewrite div_opt_ne by lra. cbn [opt_bind].
  assert (E : (s * 100 + sr * 100) / (sr * 100) = 1 + s / sr) by (field; lra).
  rewrite E. assert (0 < s / sr) by (apply Rdiv_lt_0_compat; lra).
  rewrite ln_opt_pos by lra. cbn [opt_bind]. rewrite div_opt_ne by lra. cbn [opt_bind].
  assert (D : (s * 100) ^ 2 / (s * 100 + sr * 100) <> 0).
  { apply Rgt_not_eq. apply Rdiv_lt_0_compat; [apply pow_lt; lra|lra]. }
  rewrite div_opt_ne by exact D. cbn [opt_bind]. f_equal. unfold hyper_a. f_equal. f_equal.
  set (L := ln (1 + s / sr)). field. repeat split; lra.
Qed.

Lemma hyper_a_bounds x : 0 < x -> 0 < hyper_a x < 200 / 3.
Proof.
  intros H. pose proof (hyper_area_pos x H) as HA. pose proof (ln_1p_gt x H) as HG.
  pose proof PI_RGT_0. pose proof PI2_3_2. assert (P3 : 3 < PI) by lra.
  assert (X2 : 0 < x ^ 2) by (apply pow_lt; lra).
  assert (E : 4 * (x - ln (1 + x)) * (1 + x) / x ^ 2 - 2 = 2 * ((x ^ 2 + 2 * x - 2 * (1 + x) * ln (1 + x)) / x ^ 2)) by (field; lra).
  assert (K : 0 < (x ^ 2 + 2 * x - 2 * (1 + x) * ln (1 + x)) / x ^ 2 < 1).
  { split; [apply Rdiv_lt_0_compat; lra|]. apply (Rmult_lt_reg_r (x ^ 2)); [lra|].
    unfold Rdiv. rewrite Rmult_assoc, Rinv_l, Rmult_1_r, Rmult_1_l by lra.
    assert (x < (1 + x) * ln (1 + x)); [|lra].
    apply (Rmult_lt_compat_l (1 + x)) in HG; [|lra]. replace ((1 + x) * (x / (1 + x))) with x in HG by (field; lra). exact HG. }
  unfold hyper_a. rewrite E. clear E. revert K. generalize ((x ^ 2 + 2 * x - 2 * (1 + x) * ln (1 + x)) / x ^ 2). intros k K.
  assert (C : 0 < 100 / PI < 100 / 3).
  { split; [apply Rdiv_lt_0_compat; lra|]. unfold Rdiv. apply Rmult_lt_compat_l; [lra|].
    apply Rinv_lt_contravar; [apply Rmult_lt_0_compat|]; lra. }
  revert C. generalize (100 / PI). intros q C. split; [apply Rmult_lt_0_compat; lra|].
  assert (q * k < q * 1) by (apply Rmult_lt_compat_l; lra). lra.
Qed.

Lemma masing_poly_pos c a : 0 < c <= 3 / 2 -> 0 < a < 200 / 3 -> 0 < damping_masing c a.
Proof.
  intros Hc Ha. unfold damping_masing, mh_c1, mh_c2, mh_c3.
  set (h := 0.0805 * c + 0.0095). set (k := 0.0005 * c + 0.0003).
  assert (E : (-1.1143 * c ^ 2 + 1.8618 * c + 0.2523) * a + (0.0805 * c ^ 2 - 0.0710 * c - 0.0095) * a ^ 2 +
     (-0.0005 * c ^ 2 + 0.0002 * c + 0.0003) * a ^ 3 = a * (0.9998 + (1 - c) * (1.1143 * c - 0.7475 - h * a + k * a ^ 2)))
    by (unfold h, k; lra).
  rewrite E. apply Rmult_lt_0_compat; [lra|]. clear E.
  destruct (Rle_dec c 1) as [H|H].
  - assert (Hk : 0 < k) by (unfold k; lra). apply (Rmult_lt_reg_l (4 * k)); [lra|]. rewrite Rmult_0_r.
    assert (E : 4 * k * (0.9998 + (1 - c) * (1.1143 * c - 0.7475 - h * a + k * a ^ 2)) =
      4 * 0.9998 * k + (1 - c) * (4 * k * (1.1143 * c - 0.7475) - h ^ 2) + (1 - c) * (2 * k * a - h) ^ 2) by ring.
    rewrite E. assert (0 <= (1 - c) * (2 * k * a - h) ^ 2) by (apply Rmult_le_pos; [lra|apply pow2_ge_0]).
    assert (0 < 4 * 0.9998 * k + (1 - c) * (4 * k * (1.1143 * c - 0.7475) - h ^ 2)); [|lra]. unfold h, k. nra.
  - assert (Hk : k * a < k * (200 / 3)) by (apply Rmult_lt_compat_l; unfold k; lra).
    assert (Hq : k * a - h < 0) by (unfold h, k in *; lra).
    assert (Hm : (k * a - h) * a < 0) by (apply Ropp_lt_cancel; rewrite Ropp_0, Ropp_mult_distr_l; apply Rmult_lt_0_compat; lra).
    replace (1.1143 * c - 0.7475 - h * a + k * a ^ 2) with (1.1143 * c - 0.7475 + (k * a - h) * a) by ring.
    revert Hm. generalize ((k * a - h) * a). intros y Hy. clear Hk Hq. clearbody h k. nra.
Qed.
