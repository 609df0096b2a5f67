(** The truncated normal distribution: C63, C64 and C79. *)
From Verif Require Import Common Model.Curve Model.Layer Model.Profile Model.Gauss Model.Variation
  Spec.ProfileSpec Spec.VariationSpec Proof.CommonFacts.
From Coquelicot Require Import Coquelicot.
Local Open Scope R_scope.

Lemma gauss_pos x : 0 < gauss x.
Proof. apply exp_pos. Qed.
Lemma gauss_even x : gauss (- x) = gauss x.
Proof. unfold gauss. replace ((- x) ^ 2)%R with (x ^ 2)%R by ring. reflexivity. Qed.
Lemma gauss_continuous x : continuous gauss x.
Proof. apply (ex_derive_continuous gauss). unfold gauss. auto_derive. exact I. Qed.
Lemma gauss_ex a b : ex_RInt gauss a b.
Proof. apply (ex_RInt_continuous gauss). intros; apply gauss_continuous. Qed.
Lemma gauss_RInt_pos a b : a < b -> 0 < RInt gauss a b.
Proof. intros H. apply RInt_gt_0; auto. - intros; apply gauss_pos. - intros; apply gauss_continuous. Qed.
Lemma gauss_Chasles a b c : RInt gauss a b + RInt gauss b c = RInt gauss a c.
Proof. exact (RInt_Chasles gauss a b c (gauss_ex a b) (gauss_ex b c)). Qed.

Definition moment (x : R) : R := x ^ 2 * gauss x.
Lemma moment_continuous x : continuous moment x.
Proof. apply (ex_derive_continuous moment). unfold moment, gauss. auto_derive. exact I. Qed.
Lemma moment_ex a b : ex_RInt moment a b.
Proof. apply (ex_RInt_continuous moment). intros; apply moment_continuous. Qed.

(** Integration by parts. *)
Lemma moment_parts a : is_RInt (fun x => gauss x - moment x) (- a) a (2 * a * gauss a).
Proof.
  replace (2 * a * gauss a) with (minus (a * gauss a) (- a * gauss (- a))).
  2:{ rewrite gauss_even. unfold minus, plus, opp. cbn. ring. }
  apply (is_RInt_derive (fun x => x * gauss x) (fun x => gauss x - moment x)).
  - intros x _. unfold moment, gauss. auto_derive; [exact I|].
    replace (- (x * (x * 1)) * / 2) with (- x ^ 2 / 2) by (unfold Rdiv; ring). generalize (exp (- x ^ 2 / 2)). intros e. field.
  - intros x _. apply (ex_derive_continuous (fun x => gauss x - moment x)). unfold moment, gauss. auto_derive. exact I.
Qed.

Lemma truncnorm_var_bounds a : 0 < a -> 0 < truncnorm_var a < 1.
Proof.
  intros Ha. unfold truncnorm_var. change (fun x => x ^ 2 * gauss x) with moment.
  assert (Hg : 0 < RInt gauss (- a) a) by (apply gauss_RInt_pos; lra).
  assert (Hm : 0 < RInt moment (- a) a).
  { rewrite <- (RInt_Chasles moment (- a) (a / 2) a) by apply moment_ex.
    apply Rplus_le_lt_0_compat.
    - apply RInt_ge_0; [lra|apply moment_ex|]. intros x _. unfold moment.
      apply Rmult_le_pos; [apply pow2_ge_0|left; apply gauss_pos].
    - apply RInt_gt_0; [lra| |intros; apply moment_continuous]. intros x Hx. unfold moment.
      apply Rmult_lt_0_compat; [apply pow_lt; lra|apply gauss_pos]. }
  assert (Hd : RInt gauss (- a) a - RInt moment (- a) a = 2 * a * gauss a).
  { pose proof (is_RInt_unique (V := R_CompleteNormedModule) _ _ _ _ (moment_parts a)) as H. rewrite <- H. symmetry.
    exact (RInt_minus gauss moment (- a) a (gauss_ex _ _) (moment_ex _ _)). }
  assert (0 < 2 * a * gauss a) by (apply Rmult_lt_0_compat; [lra|apply gauss_pos]).
  split; [now apply Rdiv_lt_0_compat|]. apply (Rmult_lt_reg_r (RInt gauss (- a) a)); [exact Hg|].
  unfold Rdiv. rewrite Rmult_assoc, Rinv_l by lra. lra.
Qed.

Lemma tn_scale_gt_1 a : 0 < a -> 1 < tn_scale a.
Proof.
  intros Ha. destruct (truncnorm_var_bounds a Ha) as [H0 H1]. unfold tn_scale.
  assert (Hs : 0 < sqrt (truncnorm_var a)) by now apply sqrt_lt_R0.
  assert (sqrt (truncnorm_var a) < 1) by (rewrite <- sqrt_1; apply sqrt_lt_1; lra).
  apply (Rmult_lt_reg_r (sqrt (truncnorm_var a))); [exact Hs|]. unfold Rdiv. rewrite Rmult_1_l, Rmult_1_l, Rinv_l by lra. lra.
Qed.

(** C79.  A draw [u] of the normal restricted to [-limit, limit] is returned as
    [scale * u]: variance 1, but the range is wider than the limits. *)
Lemma tn_unit_variance a : 0 < a -> tn_scale a ^ 2 * truncnorm_var a = 1.
Proof.
  intros Ha. destruct (truncnorm_var_bounds a Ha) as [H0 _]. unfold tn_scale.
  assert (Hs : 0 < sqrt (truncnorm_var a)) by now apply sqrt_lt_R0.
  rewrite <- (sqrt_sqrt (truncnorm_var a)) at 2 by lra. field. lra.
Qed.
Lemma tn_out_of_limits a : 0 < a -> exists u0, 0 <= u0 < a /\ forall u, u0 < u <= a -> a < tn_call a u.
Proof.
  intros Ha. pose proof (tn_scale_gt_1 a Ha) as Hs. exists (a / tn_scale a). split.
  - split; [apply Rdiv_le_0_compat; lra|]. apply (Rmult_lt_reg_r (tn_scale a)); [lra|].
    unfold Rdiv. rewrite Rmult_assoc, Rinv_l by lra. nra.
  - intros u [Hu _]. unfold tn_call. apply (Rmult_lt_compat_l (tn_scale a)) in Hu; [|lra].
    replace (tn_scale a * (a / tn_scale a)) with a in Hu by (field; lra). exact Hu.
Qed.
Lemma tn_range a u : 0 < a -> - a <= u <= a -> - (tn_scale a * a) <= tn_call a u <= tn_scale a * a.
Proof. intros Ha Hu. pose proof (tn_scale_gt_1 a Ha). unfold tn_call. nra. Qed.

(** Quantiles exist and are unique. *)
Lemma quantile_unique p a b q q' : a < b -> quantile p a b q -> quantile p a b q' -> q = q'.
Proof.
  intros Hab [H1 H2] [H3 H4].
  assert (Hlt : forall x y, x < y -> RInt gauss a x < RInt gauss a y).
  { intros x y Hxy. rewrite <- (gauss_Chasles a x y). pose proof (gauss_RInt_pos x y Hxy). lra. }
  destruct (Rtotal_order q q') as [L|[L|L]]; [|exact L|]; apply Hlt in L; lra.
Qed.
Lemma quantile_exists p a b : 0 < p < 1 -> a < b -> exists q, quantile p a b q.
Proof.
  intros Hp Hab. pose proof (gauss_RInt_pos a b Hab) as HT.
  set (F := fun x => RInt gauss a x - p * RInt gauss a b).
  assert (Hc : continuity F).
  { intros x. apply continuity_pt_minus; [|apply continuity_pt_const; intros ? ?; reflexivity].
    apply continuity_pt_filterlim. apply (ex_derive_continuous (fun x => RInt gauss a x)).
    exists (gauss x). apply (is_derive_RInt gauss (fun x => RInt gauss a x) a x).
    - apply filter_forall. intros y. apply (RInt_correct (V := R_CompleteNormedModule)), gauss_ex.
    - apply gauss_continuous. }
  destruct (IVT F a b Hc Hab) as (q & Hq & HF).
  - unfold F. rewrite (RInt_point (V := R_CompleteNormedModule)). change (zero (G := R_CompleteNormedModule)) with 0.
    pose proof (Rmult_lt_0_compat p _ (proj1 Hp) HT). lra.
  - unfold F. generalize (RInt gauss a b) HT. intros T HT'. nra.
  - exists q. split; [exact Hq|]. unfold F in HF. lra.
Qed.
Lemma median_zero a : 0 < a -> quantile (1 / 2) (- a) a 0.
Proof.
  intros Ha. split; [lra|].
  assert (E : RInt gauss (- a) 0 = RInt gauss 0 a).
  { assert (H : is_RInt gauss 0 a (RInt gauss 0 a)) by (apply (RInt_correct (V := R_CompleteNormedModule)), gauss_ex).
    assert (Hc : is_RInt (fun y => opp (gauss (- y))) (- 0) (- a) (RInt gauss 0 a)).
    { apply (is_RInt_comp_opp gauss). rewrite !Ropp_involutive. exact H. }
    apply is_RInt_swap in Hc. apply is_RInt_opp in Hc.
    apply (is_RInt_unique (V := R_CompleteNormedModule)) in Hc. rewrite Ropp_0 in Hc.
    assert (HE : RInt gauss (- a) 0 = RInt (fun y => opp (opp (gauss (- y)))) (- a) 0).
    { apply RInt_ext. intros x _. rewrite gauss_even. unfold opp; cbn. ring. }
    rewrite HE. etransitivity; [exact Hc|]. unfold opp; cbn. ring. }
  pose proof (gauss_Chasles (- a) 0 a) as Hc. rewrite E in *. revert Hc. generalize (RInt gauss 0 a) (RInt gauss (- a) a). cbn. intros x y Hc. lra.
Qed.

(** C63 *)
Lemma ppf_range ppf p a b : is_ppf ppf -> 0 < p < 1 -> a < b -> a <= ppf p a b <= b.
Proof. intros H Hp Hab. now destruct (H p a b Hp Hab) as [H1 _]. Qed.

Lemma percentile_inside ppf limit correl p : 0 <= limit ->
  inside_closed limit (correlated_at_percentile ppf limit correl p).
Proof. intros H. unfold inside_closed, correlated_at_percentile; cbn [fst snd]. split; apply clip_bounds; lra. Qed.

(** The first variate is the quantile itself: it is never clipped. *)
Lemma percentile_first ppf limit correl p : is_ppf ppf -> 0 < p < 1 -> 0 < limit ->
  let s := tn_scale limit in
  quantile p (- limit / s) (limit / s) (fst (correlated_at_percentile ppf limit correl p) / s).
Proof.
  intros Hp Hp1 Hl s. pose proof (tn_scale_gt_1 limit Hl) as Hs. fold s in Hs.
  assert (Hab : - limit / s < limit / s).
  { apply Rmult_lt_compat_r; [apply Rinv_0_lt_compat; lra|lra]. }
  pose proof (Hp p _ _ Hp1 Hab) as Hq. pose proof (ppf_range ppf p _ _ Hp Hp1 Hab) as Hr.
  unfold correlated_at_percentile. cbn [fst]. fold s.
  assert (E1 : s * (- limit / s) = - limit) by (field; lra). assert (E2 : s * (limit / s) = limit) by (field; lra).
  rewrite clip_id.
  2:{ generalize dependent (ppf p (- limit / s) (limit / s)). intros q _ Hr. nra. }
  replace (s * ppf p (- limit / s) (limit / s) / s) with (ppf p (- limit / s) (limit / s)) by (field; lra). exact Hq.
Qed.

Lemma percentile_median ppf limit correl : is_ppf ppf -> 0 < limit ->
  correlated_at_percentile ppf limit correl (1 / 2) = (0, 0).
Proof.
  intros Hp Hl. pose proof (tn_scale_gt_1 limit Hl) as Hs. unfold correlated_at_percentile.
  assert (Hpos : 0 < limit / tn_scale limit) by (apply Rdiv_lt_0_compat; lra).
  assert (E : ppf (1 / 2) (- limit / tn_scale limit) (limit / tn_scale limit) = 0).
  { apply (quantile_unique (1 / 2) (- limit / tn_scale limit) (limit / tn_scale limit)).
    - unfold Rdiv at 1. rewrite Ropp_mult_distr_l_reverse. unfold Rdiv in *. lra.
    - apply Hp; [lra|]. unfold Rdiv at 1. rewrite Ropp_mult_distr_l_reverse. unfold Rdiv in *. lra.
    - replace (- limit / tn_scale limit) with (- (limit / tn_scale limit)) by (unfold Rdiv; ring). now apply median_zero. }
  rewrite E, Rmult_0_r, Rmult_0_r, Rmult_0_r, Rplus_0_l. rewrite clip_id by lra. reflexivity.
Qed.

(** C64 *)
Lemma correlated_first limit batches z :
  correlated limit batches = Some z <->
  exists before after, concat batches = before ++ z :: after /\ inside limit z /\
    List.Forall (fun y => ~ inside limit y) before.
Proof.
  assert (Hv : forall y, valid_pair limit y = true <-> inside limit y).
  { intros y. unfold valid_pair, inside. rewrite andb_true_iff, !Rltb_true.
    split; intros [A B]; split; try (apply Rabs_lt_between; assumption); now apply Rabs_lt_between. }
  assert (Hfil : forall b, match filter (valid_pair limit) b with
            | nil => List.Forall (fun y => ~ inside limit y) b
            | y :: _ => exists b1 b2, b = b1 ++ y :: b2 /\ inside limit y /\ List.Forall (fun x => ~ inside limit x) b1 end).
  { induction b as [|x b IH]; cbn [filter]; [constructor|]. destruct (valid_pair limit x) eqn:E.
    - exists nil, b. split; [reflexivity|]. split; [now apply Hv|constructor].
    - assert (Hx : ~ inside limit x) by (intros H; apply Hv in H; congruence).
      destruct (filter (valid_pair limit) b) as [|y r].
      + constructor; assumption.
      + destruct IH as (b1 & b2 & -> & H1 & H2). exists (x :: b1)%list, b2. split; [reflexivity|]. split; [exact H1|]. now constructor. }
  assert (Huniq : forall (b1 b2 c1 c2 : list (R * R)) y y', b1 ++ y :: b2 = c1 ++ y' :: c2 -> inside limit y -> inside limit y' ->
     List.Forall (fun x => ~ inside limit x) b1 -> List.Forall (fun x => ~ inside limit x) c1 -> y = y').
  { induction b1 as [|x b1 IH]; intros b2 c1 c2 y y' E Hy Hy' Hb Hc; destruct c1 as [|x' c1]; cbn in E; injection E as E1 E2; subst.
    - reflexivity.
    - inversion Hc; subst; contradiction.
    - inversion Hb; subst; contradiction.
    - inversion Hb; subst. inversion Hc; subst. eapply IH; eauto. }
  assert (Hsome : forall bs y, correlated limit bs = Some y ->
     exists before after, concat bs = before ++ y :: after /\ inside limit y /\ List.Forall (fun x => ~ inside limit x) before).
  { induction bs as [|b bs IH]; intros y H; [discriminate|]. cbn [correlated concat] in *. specialize (Hfil b).
    destruct (filter (valid_pair limit) b) as [|y0 r].
    - destruct (IH y H) as (u & v & -> & H1 & H2). exists (b ++ u)%list, v. split; [now rewrite app_assoc|]. split; [exact H1|].
      apply List.Forall_app. auto.
    - injection H as ->. destruct Hfil as (u & v & -> & H1 & H2). exists u, (v ++ concat bs)%list.
      split; [now rewrite <- app_assoc|]. auto. }
  assert (Hnone : forall bs, correlated limit bs = None -> List.Forall (fun x => ~ inside limit x) (concat bs)).
  { induction bs as [|b bs IH]; intros H; cbn [correlated concat] in *; [constructor|]. specialize (Hfil b).
    destruct (filter (valid_pair limit) b); [apply List.Forall_app; auto|discriminate]. }
  split; [apply Hsome|].
  intros (u & v & E & H1 & H2). destruct (correlated limit batches) as [y|] eqn:Ec.
  - destruct (Hsome _ _ Ec) as (u' & v' & E' & H1' & H2'). f_equal. rewrite E in E'. symmetry. eapply Huniq; eauto.
  - apply Hnone in Ec. rewrite E in Ec. apply List.Forall_app in Ec. destruct Ec as [_ Ec]. inversion Ec; subst. contradiction.
Qed.
