(** Curves over the same strains are ordered, and as close, as their tables. *)
From Verif Require Import Common Model.Curve Spec.CurveSpec Proof.CommonFacts Proof.CurveFacts.
From Coq Require Import List.
Local Open Scope R_scope.

(** The second point is at most [e] above the first. *)
Definition above (e : R) (p q : R * R) : Prop := fst p = fst q /\ snd q <= snd p + e.

Lemma interp_above e x a b : 0 <= e -> Forall2 (above e) a b -> np_interp x b <= np_interp x a + e.
Proof.
  intros He H. induction H as [|[x0 y0] [x0' y0'] a b H0 H IH]; [cbn; lra|].
  destruct H0 as [E0 L0]. cbn [fst snd] in E0, L0. subst x0'.
  destruct H as [|[x1 y1] [x1' y1'] a b H1 H]; [cbn; lra|].
  pose proof H1 as [E1 L1]. cbn [fst snd] in E1, L1. subst x1'. rewrite !np_interp_cons2.
  unfold Rltb, Rleb. destruct (Rlt_dec x x1) as [Hx|Hx]; [|exact IH].
  destruct (Rle_dec x x0) as [Hy|Hy]; [exact L0|].
  assert (HD : 0 < x1 - x0) by lra.
  set (t := (x - x0) / (x1 - x0)).
  assert (T0 : 0 <= t) by (unfold t; apply Rmult_le_pos; [lra|left; apply Rinv_0_lt_compat; lra]).
  assert (T1 : t <= 1) by (unfold t; apply (Rmult_le_reg_r (x1 - x0)); [lra|]; unfold Rdiv; rewrite Rmult_assoc, Rinv_l by lra; lra).
  replace ((y1' - y0') / (x1 - x0) * (x - x0) + y0') with ((1 - t) * y0' + t * y1') by (unfold t; field; lra).
  replace ((y1 - y0) / (x1 - x0) * (x - x0) + y0) with ((1 - t) * y0 + t * y1) by (unfold t; field; lra).
  assert ((1 - t) * y0' <= (1 - t) * (y0 + e)) by (apply Rmult_le_compat_l; lra).
  assert (t * y1' <= t * (y1 + e)) by (apply Rmult_le_compat_l; lra). lra.
Qed.

Lemma ins_above e p q a b : above e p q -> Forall2 (above e) a b -> Forall2 (above e) (ins_pt p a) (ins_pt q b).
Proof.
  intros Hp H. induction H as [|p' q' a b H0 H IH]; cbn [ins_pt]; [constructor; [exact Hp|constructor]|].
  rewrite <- (proj1 Hp), <- (proj1 H0). destruct (Rleb _ _).
  - constructor; [exact Hp|]. now constructor.
  - now constructor.
Qed.
Lemma sort_above e a b : Forall2 (above e) a b -> Forall2 (above e) (sort_pts a) (sort_pts b).
Proof. induction 1; cbn [sort_pts]; [constructor|]. now apply ins_above. Qed.
Lemma last_above e a b : Forall2 (above e) a b ->
  match last_opt a, last_opt b with Some p, Some q => above e p q | None, None => True | _, _ => False end.
Proof.
  induction 1 as [|p q a b H0 H IH]; [exact I|]. destruct H as [|p' q' a b H1 H]; [exact H0|]. exact IH.
Qed.

Lemma call_above e a b x v : 0 <= e -> Forall2 (above e) a b -> interp1d_call a x = Some v ->
  exists v', interp1d_call b x = Some v' /\ v' <= v + e.
Proof.
  intros He H. unfold interp1d_call. pose proof (last_above e a b H) as HL. pose proof (sort_above e a b H) as HS.
  pose proof (last_above e _ _ HS) as HLS. pose proof (interp_above e x _ _ He HS) as HI.
  destruct H as [|[xa ya] [xb yb] a b H0 H]; [discriminate|].
  destruct (last_opt ((xa, ya) :: a)) as [[xla yla]|], (last_opt ((xb, yb) :: b)) as [[xlb ylb]|]; try contradiction; [|discriminate].
  destruct HS as [|[xs ys] [xs' ys'] sa sb HS0 HS]; [discriminate|].
  destruct (last_opt ((xs, ys) :: sa)) as [[xm ym]|], (last_opt ((xs', ys') :: sb)) as [[xm' ym']|]; try contradiction; [|discriminate].
  destruct H0 as [_ L0], HL as [_ LL], HS0 as [ES _], HLS as [EL _]. cbn [fst snd] in *. subst xs' xm'.
  intros E. injection E as <-. eexists. split; [reflexivity|].
  unfold Rltb. destruct (Rlt_dec x xs); [exact L0|]. destruct (Rlt_dec xm x); [exact LL|exact HI].
Qed.

Lemma clip_above v v' lo hi e : 0 <= e -> v' <= v + e -> clip v' lo hi <= clip v lo hi + e.
Proof. intros He H. unfold clip, Rmin, Rmax. repeat destruct (Rle_dec _ _); lra. Qed.

Lemma table_above e xs a b : Forall2 (fun v v' => v' <= v + e) a b -> Forall2 (above e) (combine xs a) (combine xs b).
Proof.
  intros H. revert xs. induction H as [|v v' a b H0 H IH]; intros [|x xs]; cbn [combine]; try constructor; [split; [reflexivity|exact H0]|apply IH].
Qed.

Lemma curve_no_higher e c c' s v : 0 <= e -> c_strains c = c_strains c' -> c_lo c = c_lo c' -> c_hi c = c_hi c' ->
  Forall2 (fun x y => y <= x + e) (c_values c) (c_values c') -> curve_call c s = Ok v ->
  exists v', curve_call c' s = Ok v' /\ v' <= v + e.
Proof.
  intros He Hs Hl Hh H. unfold curve_call, ln_table. rewrite <- Hs, <- Hl, <- Hh.
  assert (Ln : length (c_values c) = length (c_values c')) by (clear -H; induction H; cbn; congruence). rewrite <- Ln.
  destruct (Nat.eqb _ _); [|discriminate]. pose proof (table_above e (map ln (c_strains c)) _ _ H) as HT.
  destruct (interp1d_call (combine (map ln (c_strains c)) (c_values c)) (ln (Rmax 1e-9 s))) as [w|] eqn:E; [|discriminate].
  destruct (call_above e _ _ _ _ He HT E) as (w' & E' & L). rewrite E'. intros Q. injection Q as <-.
  eexists. split; [reflexivity|]. now apply clip_above.
Qed.

Theorem curve_ordered c c' s v : c_strains c = c_strains c' -> c_lo c = c_lo c' -> c_hi c = c_hi c' ->
  Forall2 Rle (c_values c) (c_values c') -> curve_call c s = Ok v ->
  exists v', curve_call c' s = Ok v' /\ v <= v'.
Proof.
  intros Hs Hl Hh H E.
  assert (H' : Forall2 (fun x y => y <= x + 0) (c_values c') (c_values c)) by (clear -H; induction H; constructor; [lra|assumption]).
  assert (D : exists v', curve_call c' s = Ok v').
  { unfold curve_call, ln_table in *. rewrite <- Hs. assert (Ln : length (c_values c) = length (c_values c')) by (clear -H; induction H; cbn; congruence).
    rewrite <- Ln. destruct (Nat.eqb _ _); [|discriminate].
    destruct (interp1d_call (combine (map ln (c_strains c)) (c_values c)) (ln (Rmax 1e-9 s))) as [w|] eqn:Ew; [|discriminate].
    assert (HT : exists M, 0 <= M /\ Forall2 (fun x y => y <= x + M) (c_values c) (c_values c')).
    { clear -H. induction H as [|x y a b H0 H (M & HM & IH)]; [exists 0; split; [lra|constructor]|].
      exists (Rmax M (y - x)). split; [apply Rle_trans with M; [exact HM|apply Rmax_l]|]. constructor; [pose proof (Rmax_r M (y - x)); lra|].
      pose proof (Rmax_l M (y - x)). clear -IH H1. induction IH; constructor; [lra|assumption]. }
    destruct HT as (M & HM & HT). destruct (call_above M _ _ _ _ HM (table_above M (map ln (c_strains c)) _ _ HT) Ew) as (w' & E' & _).
    rewrite E'. now eexists. }
  destruct D as (v' & D). exists v'. split; [exact D|].
  destruct (curve_no_higher 0 c' c s v' (Rle_refl 0) (eq_sym Hs) (eq_sym Hl) (eq_sym Hh) H' D) as (v2 & E2 & L).
  rewrite E in E2. injection E2 as <-. lra.
Qed.
Theorem curve_close e c c' s v : c_strains c = c_strains c' -> c_lo c = c_lo c' -> c_hi c = c_hi c' ->
  Forall2 (fun x y => Rabs (x - y) <= e) (c_values c) (c_values c') -> curve_call c s = Ok v ->
  exists v', curve_call c' s = Ok v' /\ Rabs (v - v') <= e.
Proof.
  intros Hs Hl Hh H E.
  assert (He : 0 <= e).
  { destruct (c_values c) as [|x a] eqn:Ea.
    - exfalso. unfold curve_call, ln_table in E. rewrite Ea in E. destruct (Nat.eqb _ _); [|discriminate].
      destruct (map ln (c_strains c)); discriminate.
    - inversion H as [|x' y a' b H0 _]; subst. pose proof (Rabs_pos (x - y)). lra. }
  assert (H1 : Forall2 (fun x y => y <= x + e) (c_values c) (c_values c')).
  { clear -H. induction H; constructor; [|assumption]. pose proof (Rle_abs (x - y)). pose proof (Rle_abs (- (x - y))). rewrite Rabs_Ropp in *. lra. }
  assert (H2 : Forall2 (fun x y => y <= x + e) (c_values c') (c_values c)).
  { clear -H. induction H; constructor; [|assumption]. pose proof (Rle_abs (x - y)). pose proof (Rle_abs (- (x - y))). rewrite Rabs_Ropp in *. lra. }
  destruct (curve_no_higher e c c' s v He Hs Hl Hh H1 E) as (v' & E' & L). exists v'. split; [exact E'|].
  destruct (curve_no_higher e c' c s v' He (eq_sym Hs) (eq_sym Hl) (eq_sym Hh) H2 E') as (v2 & E2 & L2).
  rewrite E in E2. injection E2 as <-. apply Rabs_le. lra.
Qed.
