(** Facts about the complex exponential and square root. *)
From Verif Require Import Common Model.Cplx Model.Waves Spec.WaveSpec.
From Coquelicot Require Import Coquelicot.
Local Open Scope R_scope.

Lemma C_ext (x y : C) : Re x = Re y -> Im x = Im y -> x = y.
Proof. destruct x, y; unfold Re, Im; cbn; intros; subst; reflexivity. Qed.

Lemma Cexp_0 : Cexp (RtoC 0) = RtoC 1.
Proof. apply C_ext; unfold Cexp, RtoC, Re, Im; cbn; rewrite exp_0, ?cos_0, ?sin_0; ring. Qed.

Lemma Cexp_plus x y : Cexp (Cplus x y) = Cmult (Cexp x) (Cexp y).
Proof.
  destruct x as [a b], y as [c d].
  apply C_ext; unfold Cexp, Re, Im; cbn; rewrite exp_plus, ?cos_plus, ?sin_plus; ring.
Qed.

Lemma Cexp_opp_r x : Cmult (Cexp x) (Cexp (Copp x)) = RtoC 1.
Proof. rewrite <- Cexp_plus, <- Cexp_0. f_equal. ring. Qed.

Lemma C1_neq_0 : RtoC 1 <> RtoC 0.
Proof. intros H. apply RtoC_inj in H. lra. Qed.

Lemma Cexp_neq_0 x : Cexp x <> RtoC 0.
Proof.
  intros H. pose proof (Cexp_opp_r x) as E. rewrite H, Cmult_0_l in E.
  symmetry in E. exact (C1_neq_0 E).
Qed.

Lemma Cexp_opp x : Cexp (Copp x) = Cinv (Cexp x).
Proof.
  pose proof (Cexp_opp_r x) as E. pose proof (Cexp_neq_0 x) as N.
  rewrite <- (Cmult_1_l (Cinv (Cexp x))), <- E. field. exact N.
Qed.

Lemma half_double : Cplus c_half c_half = c_one.
Proof. unfold c_half, c_one. rewrite <- RtoC_plus. apply f_equal. lra. Qed.

Lemma Ci_neq_0 : Ci <> RtoC 0.
Proof. intros H. apply (f_equal snd) in H. unfold Ci, RtoC in H. cbn in H. lra. Qed.

(** Derivative of the plane-wave factor. *)
Lemma cderive_cexp (k : C) z :
  cderive (fun x => Cexp (cterm k x)) z (Cmult (Cmult Ci k) (Cexp (cterm k z))).
Proof.
  destruct k as [kr ki]. unfold cderive, Cexp, cterm, Ci, RtoC, Re, Im, Cmult; cbn.
  split; auto_derive; auto; unfold Rminus; ring.
Qed.

Lemma cderive_cexp_opp (k : C) z :
  cderive (fun x => Cexp (Copp (cterm k x))) z
    (Copp (Cmult (Cmult Ci k) (Cexp (Copp (cterm k z))))).
Proof.
  destruct k as [kr ki]. unfold cderive, Cexp, cterm, Ci, RtoC, Re, Im, Cmult, Copp; cbn.
  split; auto_derive; auto; unfold Rminus; ring.
Qed.

Lemma cderive_mult_l (a : C) u z du :
  cderive u z du -> cderive (fun x => Cmult a (u x)) z (Cmult a du).
Proof.
  intros [H1 H2]. destruct a as [ar ai]. split.
  - apply (is_derive_ext (fun x => ar * Re (u x) - ai * Im (u x))).
    { intros t. reflexivity. }
    change (Re (Cmult (ar, ai) du)) with (ar * Re du - ai * Im du).
    apply @is_derive_minus; apply is_derive_scal; assumption.
  - apply (is_derive_ext (fun x => ar * Im (u x) + ai * Re (u x))).
    { intros t. reflexivity. }
    change (Im (Cmult (ar, ai) du)) with (ar * Im du + ai * Re du).
    apply @is_derive_plus; apply is_derive_scal; assumption.
Qed.

Lemma cderive_plus u v z du dv :
  cderive u z du -> cderive v z dv ->
  cderive (fun x => Cplus (u x) (v x)) z (Cplus du dv).
Proof.
  intros [H1 H2] [H3 H4]. split.
  - apply (is_derive_ext (fun x => Re (u x) + Re (v x))); [reflexivity|].
    apply @is_derive_plus; assumption.
  - apply (is_derive_ext (fun x => Im (u x) + Im (v x))); [reflexivity|].
    apply @is_derive_plus; assumption.
Qed.

Lemma cderive_ext u v z du : (forall x, u x = v x) -> cderive u z du -> cderive v z du.
Proof.
  intros E [H1 H2]; split.
  - apply (is_derive_ext (fun x => Re (u x))); [intros t; now rewrite E|assumption].
  - apply (is_derive_ext (fun x => Im (u x))); [intros t; now rewrite E|assumption].
Qed.

Lemma cderive_unique u z d d' : cderive u z d -> cderive u z d' -> d = d'.
Proof.
  intros [H1 H2] [H3 H4]. apply C_ext.
  - rewrite <- (is_derive_unique _ _ _ H1). exact (is_derive_unique _ _ _ H3).
  - rewrite <- (is_derive_unique _ _ _ H2). exact (is_derive_unique _ _ _ H4).
Qed.

(** The principal square root. *)
Lemma Cmod_Re_le z : Rabs (Re z) <= Cmod z.
Proof.
  unfold Cmod, Re. rewrite <- sqrt_Rsqr_abs. apply sqrt_le_1_alt. unfold Rsqr.
  pose proof (pow2_ge_0 (snd z)). cbn in *. lra.
Qed.

Lemma Cmod_sqr z : Cmod z * Cmod z = Re z ^ 2 + Im z ^ 2.
Proof.
  unfold Cmod. rewrite sqrt_sqrt; [reflexivity|].
  pose proof (pow2_ge_0 (fst z)). pose proof (pow2_ge_0 (snd z)). lra.
Qed.

Lemma Csqrt_sqr z : Cmult (Csqrt z) (Csqrt z) = z.
Proof.
  pose proof (Cmod_Re_le z) as HR. pose proof (Cmod_sqr z) as HM.
  pose proof (Rle_abs (Re z)). pose proof (Rle_abs (- Re z)). rewrite Rabs_Ropp in *.
  set (m := Cmod z) in *. set (x := Re z) in *. set (y := Im z) in *.
  assert (P1 : 0 <= (m + x) / 2) by lra. assert (P2 : 0 <= (m - x) / 2) by lra.
  assert (S : sqrt ((m + x) / 2) * sqrt ((m - x) / 2) = Rabs y / 2).
  { rewrite <- sqrt_mult by assumption.
    replace ((m + x) / 2 * ((m - x) / 2)) with ((y / 2) * (y / 2)) by nra.
    fold (Rsqr (y / 2)). rewrite sqrt_Rsqr_abs. unfold Rdiv. rewrite Rabs_mult.
    rewrite (Rabs_pos_eq (/ 2)) by lra. reflexivity. }
  apply C_ext; unfold Csqrt; fold m; fold x; fold y.
  - change (Re z) with x. unfold Re at 1; cbn [fst snd Cmult].
    replace (sqrt ((m + x) / 2) * sqrt ((m + x) / 2)) with ((m + x) / 2)
      by (symmetry; now apply sqrt_sqrt).
    pose proof (sqrt_sqrt _ P2) as E2.
    unfold Rltb. destruct (Rlt_dec y 0); nra.
  - unfold Im at 1; cbn [fst snd Cmult]. change (snd z) with y.
    unfold Rltb. destruct (Rlt_dec y 0) as [L|L].
    + rewrite Rabs_left in S by assumption. nra.
    + rewrite Rabs_pos_eq in S by lra. nra.
Qed.

Lemma Csqrt_Re_nonneg z : 0 <= Re (Csqrt z).
Proof. unfold Csqrt, Re; cbn. apply sqrt_pos. Qed.

Lemma Csqrt_Re_pos z : 0 < Re z -> 0 < Re (Csqrt z).
Proof.
  intros H. change (0 < sqrt ((Cmod z + Re z) / 2)). apply sqrt_lt_R0.
  pose proof (Cmod_ge_0 z). lra.
Qed.

Lemma Csqrt_Im_nonneg z : 0 <= Im z -> 0 <= Im (Csqrt z).
Proof.
  intros H. change (0 <= if Rltb (Im z) 0 then - sqrt ((Cmod z - Re z) / 2) else sqrt ((Cmod z - Re z) / 2)).
  unfold Rltb. destruct (Rlt_dec (Im z) 0); [lra|apply sqrt_pos].
Qed.
