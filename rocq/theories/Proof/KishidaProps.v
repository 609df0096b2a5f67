(** Shape of the organic-soil curves. *)
From Coq Require Import String.
From Verif Require Import Common Model.Curve Model.Layer Model.SoilModels Model.Kishida.
From Verif Require Import Spec.SoilModelSpec Spec.KishidaSpec.
From Verif Require Import Proof.HyperbolicFacts Proof.HyperbolicProps Proof.TwoParamProps Proof.KishidaFacts.
From Coquelicot Require Import Coquelicot.
Local Open Scope R_scope.

Lemma ln_1000 : ln 1000 <= 6.91.
Proof.
  assert (E0 : 1.1548 <= exp (691 / 4800)).
  { eapply Rle_trans; [|apply (exp_ge_taylor (691 / 4800) 3); lra]. cbn. lra. }
  assert (SQ : forall x y z, 0 <= y -> y <= exp x -> z <= y * y -> z <= exp (x + x)).
  { intros x y z Hy Hx Hz. rewrite exp_plus. apply Rle_trans with (y * y); [exact Hz|]. apply Rmult_le_compat; lra. }
  assert (E : 10 <= exp (691 / 300)).
  { replace (691 / 300) with (691 / 600 + 691 / 600) by lra. apply (SQ _ 3.1626); try lra.
    replace (691 / 600) with (691 / 1200 + 691 / 1200) by lra. apply (SQ _ 1.77838); try lra.
    replace (691 / 1200) with (691 / 2400 + 691 / 2400) by lra. apply (SQ _ 1.33356); try lra.
    replace (691 / 2400) with (691 / 4800 + 691 / 4800) by lra. apply (SQ _ 1.1548); try lra. }
  assert (ln 10 <= 691 / 300).
  { rewrite <- (ln_exp (691 / 300)). destruct (Req_dec 10 (exp (691 / 300))) as [<-|]; [lra|]. apply Rlt_le, ln_increasing; lra. }
  replace 1000 with (10 * 10 * 10) by lra. rewrite !ln_mult by lra. lra.
Qed.
Lemma ln_stress s : 0.001 <= s <= 1000 -> - 6.91 <= ln s <= 6.91.
Proof.
  intros H. pose proof ln_1000 as L.
  assert (M : forall x y, 0 < x -> x <= y -> ln x <= ln y).
  { intros x y Hx [Hl| ->]; [|lra]. apply Rlt_le, ln_increasing; lra. }
  split; [|pose proof (M s 1000); lra].
  pose proof (M 0.001 s ltac:(lra) ltac:(lra)) as B. replace 0.001 with (/ 1000) in B by lra. rewrite ln_Rinv in B by lra. lra.
Qed.

(** Closed form of the modulus reduction. *)
Definition kM (x2 x3 g0 g : R) : R := exp (kF x2 x3 g - kF x2 x3 g0).

Lemma kM_range x2 x3 g0 g : x2 <= 6.91 -> 0 < x3 <= 1 -> 0 <= g0 <= g -> 0 < kM x2 x3 g0 g <= 1.
Proof.
  intros H2 H3 [H0 [H| ->]].
  - split; [apply exp_pos|]. rewrite <- exp_0. apply Rlt_le, exp_increasing. pose proof (kF_falls x2 x3 g0 g H2 H3 ltac:(lra)). lra.
  - split; [apply exp_pos|]. unfold kM. rewrite Rminus_eq_0, exp_0. lra.
Qed.
Lemma kM_falls x2 x3 g0 g g' : x2 <= 6.91 -> 0 < x3 <= 1 -> 0 <= g < g' -> kM x2 x3 g0 g' < kM x2 x3 g0 g.
Proof. intros H2 H3 H. apply exp_increasing. pose proof (kF_falls x2 x3 g g' H2 H3 H). lra. Qed.

Definition kE (x2 x3 x1 : R) : R :=
  2.86 + 0.571 * x1 - 0.103 * x2 - 0.141 * x3 + 0.0419 * ((x1 + 1) * (x2 - 4)) - 0.240 * ((x2 - 4) * (x3 - 0.5)).
Definition kD (x2 x3 m : R) : R := exp (kE x2 x3 (ln (ln (1 / m) + 0.103))) / 100.

Lemma ln_inv_nonneg m : 0 < m <= 1 -> 0 <= ln (1 / m).
Proof.
  intros H. rewrite ln_quot by lra. rewrite ln_1. enough (ln m <= 0) by lra. rewrite <- ln_1.
  destruct (proj2 H) as [L| ->]; [apply Rlt_le, ln_increasing; lra|lra].
Qed.
Lemma k_damping_some x2 x3 m : 0 < m <= 1 -> k_damping x2 x3 m = Some (kD x2 x3 m).
Proof.
  intros H. unfold k_damping. rewrite div_opt_ne by lra. cbn [opt_bind].
  rewrite ln_opt_pos. 2:{ apply Rdiv_lt_0_compat; lra. }
  cbn [opt_bind]. pose proof (ln_inv_nonneg m H). rewrite ln_opt_pos by lra. cbn [opt_bind].
  unfold kD. f_equal. replace 100.0 with 100 by lra. f_equal. f_equal.
  unfold row_sum, kE, k_x2_mean, k_x3_mean. cbn [map combine Rsum fold_right fst snd]. lra.
Qed.
Lemma kD_pos x2 x3 m : 0 < kD x2 x3 m.
Proof. unfold kD. pose proof (exp_pos (kE x2 x3 (ln (ln (1 / m) + 0.103)))). lra. Qed.
Lemma kD_rises x2 x3 m m' : - 6.91 <= x2 -> 0 < m' < m -> m <= 1 -> kD x2 x3 m < kD x2 x3 m'.
Proof.
  intros H2 Hm H1. unfold kD. apply Rdiv_lt_compat; [lra|]. apply exp_increasing.
  assert (A : ln (1 / m) < ln (1 / m')).
  { rewrite !ln_quot by lra. pose proof (ln_increasing m' m). lra. }
  pose proof (ln_inv_nonneg m ltac:(lra)) as N.
  pose proof (ln_increasing (ln (1 / m) + 0.103) (ln (1 / m') + 0.103) ltac:(lra) ltac:(lra)) as B.
  unfold kE. set (u := ln (ln (1 / m) + 0.103)) in *. set (v := ln (ln (1 / m') + 0.103)) in *.
  assert (0 < (0.571 + 0.0419 * (x2 - 4)) * (v - u)) by (apply Rmult_lt_0_compat; lra). lra.
Qed.

Section Params.
Variables (k : kishida) (s0 : R) (rest : list R).
Let x2 := ln (ki_stress k).
Let x3 := k_x3 (ki_organic k).
Let M s := kM x2 x3 (s0 * 100) (s * 100).
Hypothesis Hs : 0 < ki_stress k.
Hypothesis Hr : 0 < ki_ratio k.
Hypothesis Hp : List.Forall (fun s => 0 <= s) (s0 :: rest).

Lemma x3_pos : 0 < x3.
Proof. unfold x3, k_x3. apply Rdiv_lt_0_compat; [lra|]. pose proof (exp_pos (ki_organic k / 23)). lra. Qed.

Lemma kishida_moduli :
  match map_opt (fun s => k_shear_mod (ki_stress k) (ki_ratio k) x3 (k_strain_ref x3 k_x3_mean * 100) (s * 100)) (s0 :: rest) with
  | None => Ok None
  | Some gs => bind (k_normalise gs) (fun ms => Ok (Some ms))
  end = Ok (Some (map M (s0 :: rest))).
Proof.
  rewrite k_ref_percent.
  rewrite (map_opt_map _ (fun s => exp (kC x2 x3 (ln (ki_ratio k)) + kF x2 x3 (s * 100)))).
  2:{ apply (Forall_impl _ (P := fun s => 0 <= s)); [|exact Hp]. intros s H. apply k_shear_mod_some; auto; [lra|apply x3_pos]. }
  cbn [map k_normalise bind]. f_equal. f_equal. rewrite map_map.
  assert (E : forall s, exp (kC x2 x3 (ln (ki_ratio k)) + kF x2 x3 (s * 100)) / exp (kC x2 x3 (ln (ki_ratio k)) + kF x2 x3 (s0 * 100)) = M s).
  { intros s. unfold M, kM, Rdiv. rewrite <- exp_Ropp, <- exp_plus. f_equal. lra. }
  cbn [map]. rewrite E. f_equal. apply map_ext. intros s. apply E.
Qed.

Lemma kishida_form id name uw : kishida_soil id name uw k (Some (s0 :: rest)) =
  Ok (opt_bind (map_opt (k_damping x2 x3) (map M (s0 :: rest))) (fun ds =>
    Some (soil_curves id 7 name (match uw with Some w => w | None => k_unit_wt x2 x3 end)
      (s0 :: rest) (map M (s0 :: rest)) ds))).
Proof.
  unfold kishida_soil. cbn [strains_or_default]. pose proof kishida_moduli as E. fold x3.
  destruct (map_opt _ (s0 :: rest)) as [gs|]; [|discriminate E].
  destruct (k_normalise gs) as [ms|e]; [|discriminate E]. cbn [bind] in *. injection E as ->.
  rewrite ln_opt_pos by exact Hs. reflexivity.
Qed.

Lemma M_first : M s0 = 1.
Proof. unfold M, kM. rewrite Rminus_eq_0, exp_0. reflexivity. Qed.
End Params.

Lemma kishida_shape id name uw k ss : 0.001 <= ki_stress k <= 1000 -> 0 <= ki_organic k -> 0 < ki_ratio k ->
  first_smallest ss ->
  exists s, kishida_soil id name uw k (Some ss) = Ok (Some s) /\ softens ss s /\
    s_unit_wt s = match uw with Some w => w | None => k_unit_wt (ln (ki_stress k)) (k_x3 (ki_organic k)) end.
Proof.
  intros Hs Ho Hr (s0 & rest & -> & H0 & HF).
  pose proof (ln_stress _ Hs) as L. pose proof (k_x3_range _ Ho) as X.
  assert (Hp : List.Forall (fun s => 0 <= s) (s0 :: rest)).
  { constructor; [lra|]. apply (Forall_impl _ (P := fun s => s0 <= s)); [|exact HF]. intros; lra. }
  assert (Hq : forall s, In s (s0 :: rest) -> s0 <= s).
  { intros s [<-|H]; [lra|]. rewrite Forall_forall in HF. apply HF, H. }
  rewrite (kishida_form k s0 rest) by (auto; lra).
  set (x2 := ln (ki_stress k)) in *. set (x3 := k_x3 (ki_organic k)) in *.
  set (M := fun s => kM x2 x3 (s0 * 100) (s * 100)).
  assert (R : List.Forall (fun m => 0 < m <= 1) (map M (s0 :: rest))).
  { apply Forall_map, Forall_forall. intros s H. specialize (Hq s H). apply kM_range; lra. }
  rewrite (map_opt_map _ (kD x2 x3)).
  2:{ apply (Forall_impl _ (P := fun m => 0 < m <= 1)); [|exact R]. intros m Hm. apply k_damping_some, Hm. }
  cbn [opt_bind]. eexists. split; [reflexivity|]. split; [|reflexivity].
  exists (modulus_curve id (s0 :: rest) (map M (s0 :: rest))), (damping_curve (S id) (s0 :: rest) (map (kD x2 x3) (map M (s0 :: rest)))), (map M rest).
  assert (HF' : falls (s0 :: rest) (map M (s0 :: rest))).
  { apply falls_map. intros s s' H H' Hlt. pose proof (Hq s H). apply kM_falls; lra. }
  cbn [s_mod s_damp soil_curves modulus_curve damping_curve c_strains c_values].
  split; [reflexivity|]. split; [reflexivity|]. split; [reflexivity|]. split; [reflexivity|].
  split. { cbn [map]. f_equal. apply (M_first k s0). }
  split. { cbn [length]. rewrite map_length. reflexivity. }
  split. { rewrite !map_length. reflexivity. }
  split; [exact R|]. split; [exact HF'|]. split.
  { apply Forall_map, Forall_forall. intros m _. apply kD_pos. }
  rewrite map_map. apply rises_map. intros s s' H H' Hlt.
  pose proof (Hq s H). apply kD_rises; try lra; unfold M.
  - split; [apply exp_pos|]. apply kM_falls; lra.
  - apply kM_range; lra.
Qed.

Lemma kishida_default_strains : exists s0 rest, default_strains = s0 :: rest /\ 0 <= s0 /\ List.Forall (fun s => s0 <= s) rest.
Proof.
  exists (Rpower 10 (-6 + 4.5 / 19 * INR 0)), (map (fun i => Rpower 10 (-6 + 4.5 / 19 * INR i)) (seq 1 19)).
  split; [reflexivity|]. split; [left; apply Rpower_gt0|].
  apply Forall_map, Forall_forall. intros i _. apply Rle_Rpower; [lra|]. pose proof (pos_INR i). cbn [INR]. lra.
Qed.

(** The laboratory ratio has no effect. *)
Lemma kishida_ratio id name uw st oc r r' ss : 0 < st -> 0 < r -> 0 < r' -> List.Forall (fun s => 0 <= s) ss ->
  kishida_soil id name uw (mkKishida st oc r) (Some ss) = kishida_soil id name uw (mkKishida st oc r') (Some ss).
Proof.
  intros Hs Hr Hr' Hp. destruct ss as [|s0 rest]; [reflexivity|].
  rewrite !kishida_form by (cbn; auto). reflexivity.
Qed.

Lemma kishida_no_strains id name uw k : kishida_soil id name uw k (Some []) = Err IndexError.
Proof. reflexivity. Qed.

Lemma kishida_unit_wt_pos x2 x3 : 0 < k_unit_wt x2 x3.
Proof. unfold k_unit_wt. apply Rmult_lt_0_compat; [apply exp_pos|unfold GRAVITY; lra]. Qed.
Lemma k_unit_wt_lt a b a' b' : 0.038 * a + 0.36 * b < 0.038 * a' + 0.36 * b' -> k_unit_wt a b < k_unit_wt a' b'.
Proof.
  intros H. unfold k_unit_wt. apply Rmult_lt_compat_r; [unfold GRAVITY; lra|]. apply exp_increasing.
  unfold row_sum. cbn [map combine Rsum fold_right fst snd]. lra.
Qed.
Lemma k_x3_falls a b : a < b -> k_x3 b < k_x3 a.
Proof.
  intros H. unfold k_x3. pose proof (exp_increasing (a / 23) (b / 23) ltac:(lra)). pose proof (exp_pos (a / 23)).
  apply Rmult_lt_compat_l; [lra|]. apply Rinv_lt_contravar; [apply Rmult_lt_0_compat; lra|lra].
Qed.

Lemma kishida_weight id name k k' ss s s' : 0 < ki_stress k -> 0 < ki_ratio k -> 0 < ki_stress k' -> 0 < ki_ratio k' ->
  List.Forall (fun x => 0 <= x) ss ->
  kishida_soil id name None k (Some ss) = Ok (Some s) -> kishida_soil id name None k' (Some ss) = Ok (Some s') ->
  0 < s_unit_wt s /\
  (ki_stress k < ki_stress k' -> ki_organic k' <= ki_organic k -> s_unit_wt s < s_unit_wt s') /\
  (ki_stress k <= ki_stress k' -> ki_organic k' < ki_organic k -> s_unit_wt s < s_unit_wt s').
Proof.
  intros H1 H2 H3 H4 Hp E E'. destruct ss as [|s0 rest]; [discriminate E|].
  rewrite kishida_form in E by auto. rewrite kishida_form in E' by auto.
  destruct (map_opt _ _) as [ds|] in E; [|discriminate E]. destruct (map_opt _ _) as [ds'|] in E'; [|discriminate E'].
  cbn [opt_bind] in E, E'. injection E as <-. injection E' as <-. cbn [s_unit_wt soil_curves].
  split; [apply kishida_unit_wt_pos|]. split; intros A B; apply k_unit_wt_lt.
  - pose proof (ln_increasing _ _ H1 A). destruct B as [B| ->]; [pose proof (k_x3_falls _ _ B)|]; lra.
  - pose proof (k_x3_falls _ _ B). destruct A as [A| ->]; [pose proof (ln_increasing _ _ H1 A)|]; lra.
Qed.

(** The default strains end at [10 ** -1.5], not at the documented [10 ** 0.5]. *)
Lemma kishida_default_end id name uw k s : kishida_soil id name uw k None = Ok (Some s) ->
  exists mc, s_mod s = Some mc /\ last_opt (c_strains mc) = Some (Rpower 10 (-1.5)) /\ Rpower 10 (-1.5) < Rpower 10 0.5.
Proof.
  unfold kishida_soil. cbn [strains_or_default].
  destruct (map_opt _ default_strains) as [gs|]; [|discriminate].
  destruct (k_normalise gs) as [ms|e]; [|discriminate]. cbn [bind].
  destruct (ln_opt _) as [x2|]; [|discriminate]. cbn [opt_bind].
  destruct (map_opt _ ms) as [ds|]; [|discriminate]. cbn [opt_bind]. intros E. injection E as <-.
  eexists. split; [reflexivity|]. cbn [modulus_curve c_strains]. split.
  - change (last_opt default_strains) with (Some (Rpower 10 (-6 + 4.5 / 19 * INR 19))). f_equal. f_equal.
    rewrite INR_IZR_INZ. cbn [Z.of_nat Pos.of_succ_nat Pos.succ]. lra.
  - apply Rpower_lt; lra.
Qed.

(** The density without a unit weight, and with one. *)
Lemma kishida_density id name uw k ss s : 0 < ki_stress k -> 0 < ki_ratio k -> List.Forall (fun x => 0 <= x) ss ->
  kishida_soil id name uw k (Some ss) = Ok (Some s) ->
  density s = match uw with
              | Some w => w / GRAVITY
              | None => exp (-0.112 + 0.038 * ln (ki_stress k) + 0.36 * (2 / (1 + exp (ki_organic k / 23))))
              end.
Proof.
  intros H1 H2 Hp E. destruct ss as [|s0 rest]; [discriminate E|]. rewrite kishida_form in E by auto.
  destruct (map_opt _ _) as [ds|] in E; [|discriminate E]. cbn [opt_bind] in E. injection E as <-. unfold density. cbn [s_unit_wt soil_curves].
  destruct uw as [w|]; [reflexivity|]. unfold k_unit_wt, k_x3. unfold Rdiv at 1. rewrite Rmult_assoc, Rinv_r, Rmult_1_r by (unfold GRAVITY; lra).
  apply f_equal. unfold row_sum. cbn [map combine Rsum fold_right fst snd]. lra.
Qed.
