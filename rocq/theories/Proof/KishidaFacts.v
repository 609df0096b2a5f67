(** Facts about the organic-soil curves: closed form of the modulus and its slope. *)
From Verif Require Import Common Model.Curve Model.Layer Model.SoilModels Model.Kishida.
From Verif Require Import Proof.HyperbolicFacts Proof.TwoParamProps.
From Coquelicot Require Import Coquelicot.
Local Open Scope R_scope.

(** Negative logarithm of the reference strain in percent. *)
Definition ka (x3 : R) : R := 0.935 + 0.95 * x3.

Lemma k_x3_range oc : 0 <= oc -> 0 < k_x3 oc <= 1.
Proof.
  intros H. unfold k_x3. pose proof (exp_pos (oc / 23)).
  assert (1 <= exp (oc / 23)).
  { destruct (Req_dec oc 0) as [->|N]. - replace (0 / 23) with 0 by lra. rewrite exp_0. lra.
    - pose proof (exp_ineq1 (oc / 23)). lra. }
  split. - apply Rdiv_lt_0_compat; lra.
  - apply (Rmult_le_reg_r (1 + exp (oc / 23))); [lra|]. unfold Rdiv. rewrite Rmult_assoc, Rinv_l by lra. lra.
Qed.
Lemma k_ref_pos x3 m : 0 < k_strain_ref x3 m.
Proof. unfold k_strain_ref. pose proof (exp_pos (-1.41 + -0.950 * (x3 - m))). lra. Qed.
Lemma k_ref_percent x3 : k_strain_ref x3 k_x3_mean * 100 = exp (- ka x3).
Proof. unfold k_strain_ref, ka, k_x3_mean. replace (-1.41 + -0.950 * (x3 - 0.5)) with (- (0.935 + 0.95 * x3)) by lra. lra. Qed.

(** The exponent of the modulus, without the terms that do not depend on the strain. *)
Definition kF (x2 x3 g : R) : R :=
  - 0.729 * ln (g + exp (- ka x3))
  - 0.74 * (2.5 - ka x3) / (ln (1 + g) + ka x3)
  + 0.37 * (x2 - 4) * x3 * (ln (g + exp (- ka x3)) + ka x3) / (ln (1 + g) + ka x3).
Definition kC (x2 x3 x4 : R) : R :=
  5.11 + (1 - 0.37 * 0.5) * x2 - 0.693 * x3 + (0.8 - 0.4 * x3) * x4 - 0.37 * (x2 - 4) * (x3 - 0.5).

Lemma ln_1p_nonneg g : 0 <= g -> 0 <= ln (1 + g).
Proof. intros H. destruct (Req_dec g 0) as [->|]. - rewrite Rplus_0_r, ln_1. lra. - rewrite <- ln_1. apply Rlt_le, ln_increasing; lra. Qed.

Lemma k_denom x3 g : 0 <= g -> ln (1 / exp (- ka x3) + g / exp (- ka x3)) = ln (1 + g) + ka x3.
Proof.
  intros H. pose proof (exp_pos (- ka x3)).
  replace (1 / exp (- ka x3) + g / exp (- ka x3)) with ((1 + g) / exp (- ka x3)) by (field; lra).
  rewrite ln_quot by lra. rewrite ln_exp. lra.
Qed.

Lemma k_ln_form x2 x3 x4 g : 0 <= g -> 0 < x3 ->
  k_ln_shear_mod g (exp (- ka x3)) (ln (g + exp (- ka x3))) x2 x3 x4 = Some (kC x2 x3 x4 + kF x2 x3 g).
Proof.
  intros Hg H3. pose proof (exp_pos (- ka x3)) as P. pose proof (ln_1p_nonneg g Hg) as W.
  assert (A : 0 < ka x3) by (unfold ka; lra).
  unfold k_ln_shear_mod. rewrite !div_opt_ne by lra. cbn [opt_bind].
  rewrite ln_opt_pos. 2:{ assert (0 < 1 / exp (- ka x3)) by (apply Rdiv_lt_0_compat; lra).
    assert (0 <= g / exp (- ka x3)) by (apply div_nonneg; lra). lra. }
  cbn [opt_bind]. rewrite (ln_opt_pos (exp (- ka x3))) by lra. cbn [opt_bind].
  rewrite (k_denom x3 g Hg), ln_exp. rewrite !div_opt_ne by lra. cbn [opt_bind]. f_equal.
  unfold row_sum, kF, kC, k_x1_mean, k_x2_mean, k_x3_mean.
  set (L := ln (g + exp (- ka x3))). set (D := ln (1 + g) + ka x3). set (a := ka x3).
  assert (HD : D <> 0) by (unfold D; lra).
  cbn [map combine Rsum fold_right fst snd].
  replace ((- a - -2.5) / D) with ((2.5 - a) * / D) by (unfold Rdiv; f_equal; lra).
  unfold Rdiv. set (i := / D). lra.
Qed.

Lemma k_shear_mod_some stress ratio x3 g : 0 < stress -> 0 < ratio -> 0 <= g -> 0 < x3 ->
  k_shear_mod stress ratio x3 (exp (- ka x3)) g = Some (exp (kC (ln stress) x3 (ln ratio) + kF (ln stress) x3 g)).
Proof.
  intros Hs Hr Hg H3. pose proof (exp_pos (- ka x3)). unfold k_shear_mod.
  rewrite !ln_opt_pos by lra. cbn [opt_bind]. rewrite k_ln_form by lra. reflexivity.
Qed.

Lemma k_r_bound x3 : 0 <= x3 -> exp (- ka x3) <= 0.4432.
Proof.
  intros H. apply Rle_trans with (exp (- 0.935)).
  - destruct (Req_dec x3 0) as [->|]. + unfold ka. replace (- (0.935 + 0.95 * 0)) with (- 0.935) by lra. lra.
    + apply Rlt_le, exp_increasing. unfold ka. lra.
  - replace (exp (- 0.935)) with (/ exp 0.935) by (rewrite <- exp_Ropp; f_equal; lra).
    pose proof (exp_ineq1 (0.935 / 3)) as E.
    assert (E3 : exp 0.935 = exp (0.935 / 3) * exp (0.935 / 3) * exp (0.935 / 3)).
    { rewrite <- !exp_plus. f_equal. lra. }
    assert (B : 2.2565 <= exp 0.935). { rewrite E3. set (e := exp (0.935 / 3)) in *.
      assert (1.31166 <= e) by lra. assert (1.31166 * 1.31166 <= e * e) by (apply Rmult_le_compat; lra).
      assert (1.31166 * 1.31166 * 1.31166 <= e * e * e) by (apply Rmult_le_compat; lra). lra. }
    apply (Rmult_le_reg_r (exp 0.935)); [lra|]. rewrite Rinv_l by lra. lra.
Qed.

(** Slope of the exponent. *)
Definition kF' (x2 x3 g : R) : R :=
  let r := exp (- ka x3) in let D := ln (1 + g) + ka x3 in
  - 0.729 / (g + r) + 0.74 * (2.5 - ka x3) / (D ^ 2 * (1 + g))
  + 0.37 * (x2 - 4) * x3 * (1 / ((g + r) * D) - (ln (g + r) + ka x3) / (D ^ 2 * (1 + g))).

Lemma kF_derive x2 x3 g : 0 <= g -> 0 < x3 -> is_derive (kF x2 x3) g (kF' x2 x3 g).
Proof.
  intros Hg H3. pose proof (exp_pos (- ka x3)) as P. pose proof (ln_1p_nonneg g Hg) as W.
  assert (A : 0 < ka x3) by (unfold ka; lra). unfold kF, kF'.
  set (r := exp (- ka x3)) in *. set (a := ka x3) in *.
  auto_derive.
  - repeat split; try lra.
  - replace 0.729 with (729 / 1000) by lra. replace 0.74 with (74 / 100) by lra. replace 0.37 with (37 / 100) by lra.
    replace 2.5 with (5 / 2) by lra.
    field. repeat split; lra.
Qed.

Lemma exp_ge_1p x : 1 + x <= exp x.
Proof. destruct (Req_dec x 0) as [->|]. - rewrite exp_0. lra. - pose proof (exp_ineq1 x). lra. Qed.

Lemma k_poly a w r X x3 : a = 0.935 + 0.95 * x3 -> 0 < x3 <= 1 -> 0 <= w -> 0 < r <= 0.4432 -> X <= 2.91 ->
  0.74 * (2.5 - a) * (r + w) + 0.37 * X * x3 * (a + w) < 0.729 * (a + w) ^ 2.
Proof.
  intros -> H3 Hw Hr HX.
  assert (0.37 * X * x3 * (0.935 + 0.95 * x3 + w) <= 0.37 * 2.91 * x3 * (0.935 + 0.95 * x3 + w)).
  { apply Rmult_le_compat_r; [nra|]. apply Rmult_le_compat_r; nra. }
  assert (0.74 * (2.5 - (0.935 + 0.95 * x3)) * (r + w) <= 0.74 * (2.5 - (0.935 + 0.95 * x3)) * (0.4432 + w)).
  { apply Rmult_le_compat_l; nra. }
  nra.
Qed.

Lemma kF'_neg x2 x3 g : x2 <= 6.91 -> 0 < x3 <= 1 -> 0 <= g -> kF' x2 x3 g < 0.
Proof.
  intros H2 H3 Hg. pose proof (exp_pos (- ka x3)) as P. pose proof (ln_1p_nonneg g Hg) as W.
  assert (A : 0.935 < ka x3) by (unfold ka; lra). assert (A' : ka x3 <= 1.885) by (unfold ka; lra).
  pose proof (k_r_bound x3 ltac:(lra)) as RB.
  unfold kF'. cbv zeta. set (r := exp (- ka x3)) in *. set (a := ka x3) in *. set (w := ln (1 + g)) in *.
  set (D := w + a). assert (HD : 0 < D) by (unfold D; lra).
  set (L := ln (g + r) + a).
  assert (HL0 : 0 <= L).
  { unfold L. replace a with (- ln r) by (unfold r, a; rewrite ln_exp; lra).
    enough (ln r <= ln (g + r)) by lra. destruct (Req_dec g 0) as [->|]; [rewrite Rplus_0_l; lra|].
    apply Rlt_le, ln_increasing; lra. }
  assert (HL1 : L <= D).
  { unfold L, D, w. enough (ln (g + r) <= ln (1 + g)) by lra. apply Rlt_le, ln_increasing; lra. }
  set (q := (g + r) / (1 + g)).
  assert (Hq0 : 0 < q) by (apply Rdiv_lt_0_compat; lra).
  assert (Hq1 : q <= 1). { unfold q. apply (Rmult_le_reg_r (1 + g)); [lra|]. unfold Rdiv. rewrite Rmult_assoc, Rinv_l by lra. lra. }
  assert (Hqw : q <= r + w).
  { assert (E : 1 - w <= / (1 + g)).
    { pose proof (exp_ge_1p (- w)) as E. replace (exp (- w)) with (/ (1 + g)) in E. 2:{ unfold w. rewrite exp_Ropp, exp_ln by lra. reflexivity. } lra. }
    replace q with (1 - (1 - r) * / (1 + g)) by (unfold q; field; lra). nra. }
  set (X := x2 - 4) in *. assert (HX : X <= 2.91) by (unfold X; lra).
  apply (Rmult_lt_reg_r ((g + r) * D ^ 2)).
  { apply Rmult_lt_0_compat; [lra|]. apply pow_lt. exact HD. }
  rewrite Rmult_0_l.
  replace ((- 0.729 / (g + r) + 0.74 * (2.5 - a) / (D ^ 2 * (1 + g)) + 0.37 * X * x3 * (1 / ((g + r) * D) - L / (D ^ 2 * (1 + g)))) * ((g + r) * D ^ 2))
    with (- 0.729 * D ^ 2 + 0.74 * (2.5 - a) * q + 0.37 * X * x3 * (D - L * q)).
  2:{ unfold q. field. repeat split; lra. }
  assert (HDL : 0 <= D - L * q) by nra.
  assert (HDL' : D - L * q <= D) by nra.
  pose proof (k_poly a w r (Rmax X 0) x3 eq_refl H3 W ltac:(lra)) as K.
  assert (Rmax X 0 <= 2.91) by (apply Rmax_lub; lra). specialize (K H).
  assert (0.37 * X * x3 * (D - L * q) <= 0.37 * Rmax X 0 * x3 * D).
  { apply Rle_trans with (0.37 * Rmax X 0 * x3 * (D - L * q)).
    - pose proof (Rmax_l X 0). apply Rmult_le_compat_r; [lra|]. apply Rmult_le_compat_r; lra.
    - pose proof (Rmax_r X 0). apply Rmult_le_compat_l; [|lra]. apply Rmult_le_pos; lra. }
  assert (0.74 * (2.5 - a) * q <= 0.74 * (2.5 - a) * (r + w)) by (apply Rmult_le_compat_l; lra).
  unfold D in *. replace (w + a) with (a + w) in * by lra. lra.
Qed.

Lemma kF_falls x2 x3 g g' : x2 <= 6.91 -> 0 < x3 <= 1 -> 0 <= g < g' -> kF x2 x3 g' < kF x2 x3 g.
Proof.
  intros H2 H3 Hg.
  destruct (MVT_gen (kF x2 x3) g g' (kF' x2 x3)) as (c & Hc & E).
  - intros x Hx. apply kF_derive; [|lra]. rewrite Rmin_left in Hx by lra. lra.
  - intros x Hx. rewrite Rmin_left in Hx by lra. apply continuity_pt_filterlim.
    apply (ex_derive_continuous (kF x2 x3)). eexists. apply kF_derive; lra.
  - rewrite Rmin_left in Hc by lra. rewrite Rmax_right in Hc by lra.
    pose proof (kF'_neg x2 x3 c H2 H3 ltac:(lra)). nra.
Qed.
