(** Properties C56, C58 and C98: generic profiles. *)
From Coq Require Import String Sorted.
From Verif Require Import Common Model.Curve Model.Layer Model.Tools Model.Generic Spec.GenericSpec Proof.CommonFacts.
Local Open Scope R_scope.

(** ** The Kamai et al. profile *)

Definition kea_good (c : kea16) : Prop := 0 < k1 c /\ 0 < k2 c /\ 0 < k3 c /\ 0 < k4 c /\ 0 < k5 c /\ 0 <= k7 c /\ 0 < k8 c.
Lemma kea16_regions region c : kea16_coefficients region = Ok c -> kea_good c.
Proof.
  unfold kea16_coefficients. destruct (String.eqb region "california"); [|destruct (String.eqb region "japan"); [|discriminate]];
    intros E; injection E as <-; unfold kea_good; cbn; lra.
Qed.
(** Only the two lower-case names are known. *)
Theorem kea16_region depths vs30 region :
  (region = "california"%string \/ region = "japan"%string -> exists rows, kea16_profile depths vs30 region = Ok rows) /\
  (region <> "california"%string -> region <> "japan"%string -> kea16_profile depths vs30 region = Err ValueError).
Proof.
  unfold kea16_profile, kea16_coefficients. split.
  - intros [->| ->]; cbn [String.eqb Ascii.eqb Bool.eqb bind]; eauto.
  - intros H1 H2. apply String.eqb_neq in H1, H2. now rewrite H1, H2.
Qed.
Theorem kea16_documented depths vs30 :
  kea16_profile depths vs30 "California" = Err ValueError /\ kea16_profile depths vs30 "Japan" = Err ValueError.
Proof. split; apply kea16_region; discriminate. Qed.

(** The rows: one for every depth, in order. *)
Theorem kea16_depths depths vs30 region rows : kea16_profile depths vs30 region = Ok rows ->
  map (fun r => fst (fst r)) rows = depths.
Proof.
  unfold kea16_profile. destruct (kea16_coefficients region) as [c|]; [|discriminate]. cbn [bind]. intros E. injection E as <-.
  rewrite map_map. cbn. apply map_id.
Qed.
Lemma kea16_nth depths vs30 region rows i d v s : kea16_profile depths vs30 region = Ok rows ->
  nth_error rows i = Some (d, v, s) -> exists c, kea_good c /\ kea16_coefficients region = Ok c /\ (d, v, s) = kea16_row c vs30 d.
Proof.
  unfold kea16_profile. destruct (kea16_coefficients region) as [c|] eqn:Ec; [|discriminate]. cbn [bind]. intros E. injection E as <-.
  intros N. rewrite nth_error_map in N. destruct (nth_error depths i) as [d'|]; [|discriminate]. cbn in N. injection N as <- <- <-.
  exists c. split; [exact (kea16_regions _ _ Ec)|]. split; reflexivity.
Qed.
(** Surface velocity of either region. *)
Theorem kea16_surface depths vs30 region rows i v s : kea16_profile depths vs30 region = Ok rows -> nth_error rows i = Some (0, v, s) ->
  (region = "california"%string /\ v = 0.25 * vs30 + 104 /\ s = 0.0002 * vs30 + 0.195) \/
  (region = "japan"%string /\ v = 0.2 * vs30 + 40 /\ s = 0.4).
Proof.
  intros E N. destruct (kea16_nth _ _ _ _ _ _ _ _ E N) as (c & _ & Ec & R). unfold kea16_row in R. injection R as Hv Hs.
  assert (L : v = k1 c * vs30 + k2 c).
  { rewrite Hv. assert (A : 0 < k5 c * exp (k6 c * vs30)) by (apply Rmult_lt_0_compat; [apply (kea16_regions _ _ Ec)|apply exp_pos]).
    rewrite Rplus_0_l. unfold Rdiv. rewrite Rinv_r by lra. rewrite Rmax_left by lra. rewrite ln_1. ring. }
  unfold kea16_coefficients in Ec. destruct (String.eqb region "california") eqn:E1; [|destruct (String.eqb region "japan") eqn:E2; [|discriminate]];
    injection Ec as <-; cbn in L, Hs; [left; apply String.eqb_eq in E1|right; apply String.eqb_eq in E2]; repeat split; [exact E1|lra|lra|exact E2|lra|lra].
Qed.
(** At non-negative depths the velocity is at least that of the surface, and the deeper the
    larger. *)
Theorem kea16_increases depths vs30 region rows i j d d' v v' s s' : 0 < vs30 -> kea16_profile depths vs30 region = Ok rows ->
  nth_error rows i = Some (d, v, s) -> nth_error rows j = Some (d', v', s') -> 0 <= d < d' -> 0 < v < v' /\ 0 < s /\ s = s'.
Proof.
  intros Hv E N N' D. destruct (kea16_nth _ _ _ _ _ _ _ _ E N) as (c & (G1 & G2 & G3 & G4 & G5 & G7 & G8) & Ec & R).
  destruct (kea16_nth _ _ _ _ _ _ _ _ E N') as (c' & _ & Ec' & R'). rewrite Ec in Ec'. injection Ec' as <-.
  unfold kea16_row in R, R'. injection R as Rv Rs. injection R' as Rv' Rs'.
  assert (A : 0 < k5 c * exp (k6 c * vs30)) by (apply Rmult_lt_0_compat; [exact G5|apply exp_pos]).
  set (a := k5 c * exp (k6 c * vs30)) in *. clearbody a.
  assert (X : 1 <= (d + a) / a) by (apply Rmult_le_reg_r with a; [exact A|]; unfold Rdiv; rewrite Rmult_assoc, Rinv_l by lra; lra).
  assert (Y : (d + a) / a < (d' + a) / a) by (apply Rmult_lt_compat_r; [now apply Rinv_0_lt_compat|lra]).
  rewrite Rmax_left in Rv, Rv' by lra.
  assert (L : ln ((d + a) / a) < ln ((d' + a) / a)) by (apply ln_increasing; lra).
  assert (L0 : 0 <= ln ((d + a) / a)) by (destruct X as [X|X]; [left; rewrite <- ln_1; apply ln_increasing; lra|right; rewrite <- X, ln_1; reflexivity]).
  assert (P0 : 0 < k1 c * vs30) by now apply Rmult_lt_0_compat.
  assert (P1 : 0 < k3 c * vs30 + k4 c) by (assert (0 < k3 c * vs30) by (now apply Rmult_lt_0_compat); lra).
  assert (P7 : 0 <= k7 c * vs30) by (apply Rmult_le_pos; lra).
  set (x := ln ((d + a) / a)) in *. set (y := ln ((d' + a) / a)) in *. clearbody x y.
  assert (Q1 : 0 <= (k3 c * vs30 + k4 c) * x) by (apply Rmult_le_pos; lra).
  assert (Q2 : (k3 c * vs30 + k4 c) * x < (k3 c * vs30 + k4 c) * y) by (apply Rmult_lt_compat_l; lra).
  repeat split; lra.
Qed.

(** ** Merging rows *)

Lemma close_within tol v0 v : 0 < v0 -> close_vs tol v0 v = true <-> within tol v0 v.
Proof.
  intros P. unfold close_vs, within. destruct (Reqb v0 0) eqn:Z; [unfold Reqb in Z; destruct (Req_EM_T v0 0); [lra|discriminate]|].
  cbn [negb andb]. unfold Rleb. destruct (Rle_dec (Rabs (v - v0) / v0) tol) as [L|L]; split; intros H; try discriminate; try reflexivity.
  - apply Rmult_le_compat_r with (r := v0) in L; [|lra]. unfold Rdiv in L. rewrite Rmult_assoc, Rinv_l in L by lra. lra.
  - exfalso. apply L. apply Rmult_le_reg_r with v0; [exact P|]. unfold Rdiv. rewrite Rmult_assoc, Rinv_l by lra. lra.
Qed.

(** The groups, with the thicknesses. *)
Definition rows_of (gs : list (list trow)) : list (list nrow) := map (map fst) gs.
Lemma group_rows_head tol ref rows : forall c0 cur, exists g gs, group_rows tol ref (cur ++ [c0]) rows = (c0 :: g) :: gs.
Proof.
  induction rows as [|r rows IH]; intros c0 cur; cbn [group_rows]; rewrite ?rev_app_distr; cbn [rev app]; eauto.
  destruct (close_vs tol ref (n_vs (fst r))); [exact (IH c0 (r :: cur))|eauto].
Qed.
Lemma group_rows_concat tol rows : forall ref cur, concat (group_rows tol ref cur rows) = rev cur ++ rows.
Proof.
  induction rows as [|r rows IH]; intros ref cur; cbn [group_rows]; [now cbn|].
  destruct (close_vs tol ref (n_vs (fst r))); [rewrite IH; cbn [rev]; now rewrite <- app_assoc|].
  cbn [concat]. rewrite IH. reflexivity.
Qed.
Lemma group_rows_grouped tol rows : forall c0 cur, Forall (fun r : trow => 0 < n_vs (fst r)) (c0 :: rows) ->
  Forall (fun x : trow => within tol (n_vs (fst c0)) (n_vs (fst x))) cur ->
  grouped tol (rows_of (group_rows tol (n_vs (fst c0)) (cur ++ [c0]) rows)).
Proof.
  induction rows as [|r rows IH]; intros c0 cur P F; inversion P as [|? ? P0 P']; subst; cbn [group_rows].
  - rewrite rev_app_distr. cbn. constructor. apply Forall_map. now apply Forall_rev.
  - inversion P' as [|? ? Pr P'']; subst. destruct (close_vs tol (n_vs (fst c0)) (n_vs (fst r))) eqn:C.
    + apply (IH c0 (r :: cur)); [now constructor|]. constructor; [now apply close_within|exact F].
    + specialize (IH r []). cbn [app] in IH. specialize (IH P' (Forall_nil _)).
      destruct (group_rows_head tol (n_vs (fst r)) rows r []) as (g & gs & E). cbn [app] in E. rewrite E in *.
      rewrite rev_app_distr. cbn [rev app rows_of map] in *. constructor; [apply Forall_map; now apply Forall_rev| |exact IH].
      intros W. apply (close_within tol (n_vs (fst c0)) (n_vs (fst r)) P0) in W. congruence.
Qed.

(** Rows with their thicknesses. *)
Definition annotate (rows : list nrow) : list trow := combine rows (diff_zero (map n_depth rows)).
Lemma annotate_cons r r' rows : annotate (r :: r' :: rows) = (r, n_depth r' - n_depth r) :: annotate (r' :: rows).
Proof. reflexivity. Qed.
Lemma annotate_fst rows : map fst (annotate rows) = rows.
Proof.
  induction rows as [|r rows IH]; [reflexivity|]. destruct rows as [|r' rows]; [reflexivity|].
  rewrite annotate_cons. cbn [map fst]. now rewrite IH.
Qed.
Fixpoint steps (rows : list nrow) : list trow :=
  match rows with
  | [] => []
  | r :: rest => match rest with [] => [] | r' :: _ => (r, n_depth r' - n_depth r) :: steps rest end
  end.
Lemma steps_cons r r' rows : steps (r :: r' :: rows) = (r, n_depth r' - n_depth r) :: steps (r' :: rows).
Proof. reflexivity. Qed.
Lemma annotate_app (g : list trow) : forall r' t' ts rows, g ++ (r', t') :: ts = annotate rows ->
  (r', t') :: ts = annotate (r' :: map fst ts) /\ g = steps (map fst g ++ [r']).
Proof.
  induction g as [|[r t] g IH]; intros r' t' ts rows E.
  - cbn [app] in E. split; [|reflexivity]. pose proof (f_equal (map fst) E) as F. rewrite annotate_fst in F. cbn [map fst] in F. now rewrite F, E.
  - destruct rows as [|r1 rows]; [discriminate|]. destruct rows as [|r2 rows].
    + cbn in E. injection E as _ _ E. destruct g; discriminate.
    + rewrite annotate_cons in E. cbn [app] in E. injection E as -> -> E. destruct (IH _ _ _ _ E) as [A B]. split; [exact A|].
      assert (Hd : exists l, map fst g ++ [r'] = r2 :: l).
      { apply (f_equal (map fst)) in E. rewrite annotate_fst, map_app in E. destruct g as [|x g]; cbn in E |- *; injection E as -> _; eauto. }
      destruct Hd as [l Hd]. cbn [map app fst]. rewrite B at 1. rewrite Hd, steps_cons. reflexivity.
Qed.
Lemma annotate_steps rows r : last_opt rows = Some r -> annotate rows = steps rows ++ [(r, 0)].
Proof.
  induction rows as [|r1 rows IH]; intros L; [discriminate|]. destruct rows as [|r2 rows]; [cbn in L; injection L as ->; reflexivity|].
  rewrite annotate_cons, steps_cons. cbn [app]. rewrite (IH L). reflexivity.
Qed.
Lemma steps_extent rows : Rsum (map snd (steps rows)) = extent rows.
Proof.
  induction rows as [|r rows IH]; [reflexivity|]. destruct rows as [|r' rows]; [cbn; lra|].
  rewrite steps_cons. cbn [map snd]. rewrite Rsum_cons, IH. unfold extent.
  change (last_opt (r :: r' :: rows)) with (last_opt (r' :: rows)). destruct (last_opt (r' :: rows)) eqn:E; [lra|].
  exfalso. clear IH. revert r' E. induction rows as [|x rows IH]; intros r' E; [discriminate|]. exact (IH x E).
Qed.
Lemma steps_travel rows : Forall (fun r => 0 < n_vs r) rows ->
  exists ts, map_opt (fun rt : trow => div_opt (snd rt) (n_vs (fst rt))) (steps rows) = Some ts /\ Rsum ts = travel rows.
Proof.
  induction rows as [|r rows IH]; intros P; [exists []; now split|]. inversion P as [|? ? P0 P']; subst.
  destruct rows as [|r' rows]; [exists []; now split|]. destruct (IH P') as (ts & E & S).
  rewrite steps_cons. cbn [map_opt fst snd]. unfold div_opt at 1. unfold Reqb. destruct (Req_EM_T (n_vs r) 0); [lra|]. cbn [opt_bind].
  rewrite E. cbn [opt_bind]. eexists. split; [reflexivity|].
  rewrite Rsum_cons. change (travel (r :: r' :: rows)) with ((n_depth r' - n_depth r) / n_vs r + travel (r' :: rows)). lra.
Qed.

(** The grouping is the only one. *)
Lemma grouped_prefix tol r : forall g gs g2 gs2, grouped tol ((r :: g) :: gs) -> grouped tol ((r :: g2) :: gs2) ->
  g ++ concat gs = g2 ++ concat gs2 -> g = g2.
Proof.
  assert (Half : forall g gs g2 gs2, grouped tol ((r :: g) :: gs) -> Forall (fun x => within tol (n_vs r) (n_vs x)) g2 ->
    g ++ concat gs = g2 ++ concat gs2 -> (length g2 <= length g)%nat).
  { intros g gs g2 gs2 G F E. destruct (le_lt_dec (length g2) (length g)) as [L|L]; [exact L|exfalso].
    pose proof (f_equal (fun l => nth_error l (length g)) E) as N. cbv beta in N. rewrite (nth_error_app1 g2) in N by exact L.
    rewrite nth_error_app2, Nat.sub_diag in N by lia. destruct (nth_error g2 (length g)) as [y|] eqn:Y; [|apply nth_error_None in Y; lia].
    apply nth_error_In in Y. rewrite Forall_forall in F. specialize (F _ Y). cbv beta in F.
    inversion G as [? ? F'|? ? r' g' gs' F' W G']; subst; [discriminate|]. cbn in N. injection N as ->. contradiction. }
  assert (Fa : forall g gs, grouped tol ((r :: g) :: gs) -> Forall (fun x => within tol (n_vs r) (n_vs x)) g) by (intros g gs G; inversion G; subst; assumption).
  intros g gs g2 gs2 G G2 E. assert (L : length g = length g2).
  { apply Nat.le_antisymm; [exact (Half g2 gs2 g gs G2 (Fa _ _ G) (eq_sym E))|exact (Half g gs g2 gs2 G (Fa _ _ G2) E)]. }
  pose proof (f_equal (firstn (length g)) E) as H. rewrite firstn_app, firstn_all, Nat.sub_diag, firstn_O, app_nil_r in H.
  rewrite L, firstn_app, firstn_all, Nat.sub_diag, firstn_O, app_nil_r in H. exact H.
Qed.
Theorem grouping_unique tol gs : forall gs2, grouped tol gs -> grouped tol gs2 -> concat gs = concat gs2 -> gs = gs2.
Proof.
  induction gs as [|[|r g] gs IH]; intros gs2 G G2 E; [inversion G|inversion G|].
  destruct gs2 as [|[|r2 g2] gs2]; [inversion G2|inversion G2|]. cbn [concat app] in E. injection E as <- E.
  pose proof (grouped_prefix tol r g gs g2 gs2 G G2 E) as <-. apply app_inv_head in E.
  inversion G as [? ? F|? ? r' g' gs' F W G']; subst; inversion G2 as [? ? F2|? ? r2' g2' gs2' F2 W2 G2']; subst; [reflexivity|discriminate|discriminate|].
  f_equal. now apply IH.
Qed.
Theorem grouping_exists tol rows : good_rows rows -> exists gs, grouped tol gs /\ concat gs = rows /\ rows_of (groups tol (annotate rows)) = gs.
Proof.
  intros (N & _ & P). assert (A : map fst (annotate rows) = rows) by apply annotate_fst.
  assert (P' : Forall (fun r : trow => 0 < n_vs (fst r)) (annotate rows)) by (rewrite <- A in P; rewrite Forall_map in P; exact P).
  eexists. split; [|split; [|reflexivity]].
  - destruct (annotate rows) as [|c0 ts]; [cbn in A; congruence|]. cbn [groups].
    exact (group_rows_grouped tol ts c0 [] P' (Forall_nil _)).
  - unfold rows_of. rewrite <- concat_map. transitivity (map fst (annotate rows)); [|exact A]. f_equal.
    destruct (annotate rows) as [|c0 ts]; [reflexivity|]. cbn [groups]. now rewrite group_rows_concat.
Qed.

(** ** The merged rows *)

Lemma sorted_app_inv {A} (r : A -> A -> Prop) xs ys : StronglySorted r (xs ++ ys) -> StronglySorted r xs /\ StronglySorted r ys.
Proof.
  induction xs as [|x xs IH]; intros S; [split; [constructor|exact S]|]. cbn in S. inversion S as [|? ? S' F]; subst. destruct (IH S') as [S1 S2].
  split; [constructor; [exact S1|]|exact S2]. rewrite Forall_app in F. apply F.
Qed.
Lemma steps_pos rows : StronglySorted Rlt (map n_depth rows) -> Forall (fun rt : trow => 0 < snd rt) (steps rows).
Proof.
  induction rows as [|r rows IH]; intros S; [constructor|]. inversion S as [|? ? S' F]; subst. destruct rows as [|r' rows]; [constructor|].
  rewrite steps_cons. constructor; [|now apply IH]. cbn [snd]. apply Forall_inv in F. lra.
Qed.
Lemma steps_in rows : incl (map fst (steps rows)) rows.
Proof.
  induction rows as [|r rows IH]; [intros x []|]. destruct rows as [|r' rows]; [intros x []|]. rewrite steps_cons. cbn [map fst].
  intros x [<-|H]; [now left|right; now apply IH].
Qed.
(** The travel time lies between those of the extreme velocities. *)
Lemma travel_bounds rows lo hi : StronglySorted Rlt (map n_depth rows) -> Forall (fun r => 0 < n_vs r) rows -> 0 < lo ->
  Forall (fun rt : trow => lo <= n_vs (fst rt) <= hi) (steps rows) -> lo * travel rows <= extent rows <= hi * travel rows.
Proof.
  intros S P L B. rewrite <- steps_extent. induction rows as [|r rows IH]; [cbn; lra|]. destruct rows as [|r' rows]; [cbn; lra|].
  inversion S as [|? ? S' F]; subst. inversion P as [|? ? P0 P']; subst. rewrite steps_cons in *. inversion B as [|? ? B0 B']; subst.
  specialize (IH S' P' B'). cbn [map snd fst] in *. rewrite Rsum_cons.
  change (travel (r :: r' :: rows)) with ((n_depth r' - n_depth r) / n_vs r + travel (r' :: rows)).
  apply Forall_inv in F. set (t := n_depth r' - n_depth r). assert (T : 0 < t) by (unfold t; lra).
  set (q := t / n_vs r). assert (E : t = n_vs r * q) by (unfold q; field; lra).
  assert (Q : 0 < q) by (unfold q; apply Rdiv_lt_0_compat; lra). clearbody q t.
  assert (lo * q <= n_vs r * q <= hi * q) by (split; apply Rmult_le_compat_r; lra). lra.
Qed.
Lemma extent_pos r r' rows : StronglySorted Rlt (map n_depth (r :: r' :: rows)) -> 0 < extent (r :: r' :: rows).
Proof.
  intros S. rewrite <- steps_extent. pose proof (steps_pos _ S) as P. rewrite steps_cons in *. inversion P as [|? ? P0 P']; subst.
  cbn [map snd] in *. rewrite Rsum_cons. assert (0 <= Rsum (map snd (steps (r' :: rows)))); [|lra].
  apply Rsum_nonneg, Forall_map. eapply Forall_impl; [|exact P']. cbn. intros; lra.
Qed.
Lemma travel_pos r r' rows : StronglySorted Rlt (map n_depth (r :: r' :: rows)) -> Forall (fun r => 0 < n_vs r) (r :: r' :: rows) ->
  0 < travel (r :: r' :: rows).
Proof.
  revert r r'. induction rows as [|r2 rows IH]; intros r r' S P; inversion S as [|? ? S' F]; subst; inversion P as [|? ? P0 P']; subst; apply Forall_inv in F.
  - cbn [travel]. assert (0 < (n_depth r' - n_depth r) / n_vs r) by (apply Rdiv_lt_0_compat; lra). lra.
  - specialize (IH r' r2 S' P'). change (0 < (n_depth r' - n_depth r) / n_vs r + travel (r' :: r2 :: rows)).
    assert (0 < (n_depth r' - n_depth r) / n_vs r) by (apply Rdiv_lt_0_compat; lra). lra.
Qed.
(** A weighted mean lies between the extremes. *)
Lemma weighted_mean (g : list trow) (w f : trow -> R) lo hi : g <> [] -> (forall x, 0 < w x) -> Forall (fun x => lo <= f x <= hi) g ->
  0 < Rsum (map w g) /\ lo <= Rsum (map (fun x => f x * w x) g) / Rsum (map w g) <= hi.
Proof.
  intros N W B. assert (H : lo * Rsum (map w g) <= Rsum (map (fun x => f x * w x) g) <= hi * Rsum (map w g)).
  { induction g as [|x g IH]; [cbn; lra|]. inversion B as [|? ? B0 B']; subst. cbn [map]. rewrite !Rsum_cons.
    destruct g as [|y g]; [cbn [map]; change (Rsum []) with 0; pose proof (W x); assert (lo * w x <= f x * w x <= hi * w x) by (split; apply Rmult_le_compat_r; lra); lra|].
    specialize (IH ltac:(discriminate) B'). pose proof (W x). assert (lo * w x <= f x * w x <= hi * w x) by (split; apply Rmult_le_compat_r; lra). lra. }
  assert (P : 0 < Rsum (map w g)).
  { destruct g as [|x g]; [congruence|]. cbn [map]. rewrite Rsum_cons. pose proof (W x). assert (0 <= Rsum (map w g)); [|lra].
    apply Rsum_nonneg, Forall_map, Forall_forall. intros y _. pose proof (W y). lra. }
  split; [exact P|]. split; (apply Rmult_le_reg_r with (Rsum (map w g)); [exact P|]); unfold Rdiv; rewrite Rmult_assoc, Rinv_l by lra; lra.
Qed.
Lemma weight_wt_between (r : nrow) (t : R) (g : list trow) d v :
  between n_wt (map fst ((r, t) :: g))
    (mkRow d v (Rsum (map (fun rt : trow => n_wt (fst rt) * Rmax (snd rt) 1e-10) ((r, t) :: g)) / Rsum (map (fun rt : trow => Rmax (snd rt) 1e-10) ((r, t) :: g)))).
Proof.
  intros lo hi B. rewrite Forall_map in B. cbn [n_wt].
  apply (weighted_mean ((r, t) :: g) (fun rt => Rmax (snd rt) 1e-10) (fun rt => n_wt (fst rt)) lo hi); [discriminate| |exact B].
  intros x. pose proof (Rmax_r (snd x) 1e-10). lra.
Qed.
Lemma merge_value r t (g : list trow) ts : 0 < Rsum (map snd ((r, t) :: g)) ->
  map_opt (fun rt : trow => div_opt (snd rt) (n_vs (fst rt))) ((r, t) :: g) = Some ts -> 0 < Rsum ts ->
  merge_group ((r, t) :: g) = Some (mkRow (n_depth r) (Rsum (map snd ((r, t) :: g)) / Rsum ts)
    (Rsum (map (fun rt : trow => n_wt (fst rt) * Rmax (snd rt) 1e-10) ((r, t) :: g)) / Rsum (map (fun rt : trow => Rmax (snd rt) 1e-10) ((r, t) :: g)))).
Proof.
  intros T E P. unfold merge_group. set (tot := Rsum (map snd ((r, t) :: g))) in *. unfold Rltb at 1. destruct (Rlt_dec 0 tot); [|contradiction].
  match goal with |- context [map_opt ?f ?l] => replace (map_opt f l) with (Some ts) by (symmetry; exact E) end.
  cbn [opt_bind]. unfold div_opt, Reqb. destruct (Req_EM_T (Rsum ts) 0); [lra|]. reflexivity.
Qed.
Lemma vel_between span (g : list trow) v : StronglySorted Rlt (map n_depth span) -> Forall (fun r => 0 < n_vs r) span ->
  0 < v -> v * travel span = extent span -> 0 < travel span -> incl (map fst (steps span)) (map fst g) -> steps span <> [] ->
  forall lo hi, Forall (fun r => lo <= n_vs r <= hi) (map fst g) -> lo <= v <= hi.
Proof.
  intros S P V E T I N lo hi B.
  assert (B' : Forall (fun rt : trow => lo <= n_vs (fst rt) <= hi) (steps span)).
  { apply Forall_forall. intros x Hx. rewrite Forall_forall in B. apply B, I, in_map, Hx. }
  assert (Pl : 0 < hi). { destruct (steps span) as [|x l] eqn:Es; [congruence|]. apply Forall_inv in B'.
    assert (0 < n_vs (fst x)); [|lra]. rewrite Forall_forall in P. apply P, (steps_in span). rewrite Es. now left. }
  split.
  - destruct (Rle_lt_dec lo 0) as [L|L]; [lra|]. pose proof (travel_bounds span lo hi S P L B') as [H _].
    rewrite <- E in H. apply Rmult_le_reg_r with (travel span); lra.
  - destruct (Rle_lt_dec v hi) as [L|L]; [exact L|exfalso].
    assert (Hx : exists lo', 0 < lo' /\ Forall (fun rt : trow => lo' <= n_vs (fst rt) <= hi) (steps span)).
    { assert (Pp : Forall (fun rt : trow => 0 < n_vs (fst rt)) (steps span)) by (apply Forall_forall; intros x Hx; rewrite Forall_forall in P; apply P, (steps_in span), in_map, Hx).
      clear - B' Pp Pl. induction (steps span) as [|x l IH]; [exists 1; split; [lra|constructor]|].
      inversion B' as [|? ? B0 B1]; subst. inversion Pp as [|? ? P0 P1]; subst. destruct (IH B1 P1) as (lo' & L' & F').
      exists (Rmin lo' (n_vs (fst x))). split; [now apply Rmin_glb_lt|]. constructor; [split; [apply Rmin_r|lra]|].
      eapply Forall_impl; [|exact F']. cbv beta. intros y Hy. pose proof (Rmin_l lo' (n_vs (fst x))). lra. }
    destruct Hx as (lo' & L' & F'). pose proof (travel_bounds span lo' hi S P L' F') as [_ H]. rewrite <- E in H.
    assert (hi * travel span < v * travel span) by (apply Rmult_lt_compat_r; lra). lra.
Qed.
Lemma weight_steps span : no_thinner 1e-10 span ->
  Rsum (map (fun rt : trow => n_wt (fst rt) * Rmax (snd rt) 1e-10) (steps span)) = weight span /\
  Rsum (map (fun rt : trow => Rmax (snd rt) 1e-10) (steps span)) = extent span.
Proof.
  intros H. rewrite <- steps_extent. induction span as [|r span IH]; [split; reflexivity|]. destruct span as [|r' span]; [split; reflexivity|].
  destruct H as [H0 H]. specialize (IH H) as [I1 I2]. rewrite steps_cons. cbn [map snd fst]. rewrite !Rsum_cons, I1, I2.
  rewrite Rmax_left by exact H0. split; reflexivity.
Qed.
Lemma merge_span r x rest : let span := r :: x :: rest in
  StronglySorted Rlt (map n_depth span) -> Forall (fun r => 0 < n_vs r) span ->
  exists m, merge_group (steps span) = Some m /\ stands_for r span m /\ between n_vs (map fst (steps span)) m /\ between n_wt (map fst (steps span)) m /\
    (no_thinner 1e-10 span -> n_wt m * extent span = weight span).
Proof.
  intros span S P. destruct (steps_travel span P) as (ts & E & T). pose proof (travel_pos r x rest S P) as Tp. pose proof (extent_pos r x rest S) as Ep.
  fold span in Tp, Ep. pose proof (steps_extent span) as X.
  assert (Es : steps span = (r, n_depth x - n_depth r) :: steps (x :: rest)) by apply steps_cons.
  rewrite Es in E, X |- *. rewrite <- X in Ep. rewrite <- T in Tp. eexists. split; [exact (merge_value _ _ _ _ Ep E Tp)|].
  rewrite X, T in *. assert (V : 0 < extent span / travel span) by now apply Rdiv_lt_0_compat.
  split; [|split; [|split; [apply weight_wt_between|]]].
  - split; [reflexivity|]. split; [exact V|]. cbn [n_vs]. field. split; lra.
  - intros lo hi B. cbn [n_vs]. refine (vel_between span (steps span) _ S P V _ Tp (incl_refl _) _ lo hi _); [field; lra|rewrite Es; discriminate|].
    rewrite Es. exact B.
  - intros H. destruct (weight_steps span H) as [W1 W2]. cbn [n_wt]. rewrite <- Es, W1, W2. field. lra.
Qed.
Lemma merge_last r x rest : let span := r :: x :: rest in
  StronglySorted Rlt (map n_depth span) -> Forall (fun r => 0 < n_vs r) span ->
  exists m, merge_group (annotate span) = Some m /\ stands_for r span m /\ between n_vs span m /\ between n_wt span m.
Proof.
  intros span S P. destruct (steps_travel span P) as (ts & E & T). pose proof (travel_pos r x rest S P) as Tp. pose proof (extent_pos r x rest S) as Ep.
  fold span in Tp, Ep. pose proof (steps_extent span) as X.
  destruct (last_opt span) as [l|] eqn:L; [|exfalso; revert L; unfold span; clear; revert x; induction rest as [|y rest IH]; intros x L; [discriminate|exact (IH y L)]].
  assert (Il : In l span). { revert L. unfold span. clear. generalize (r :: x :: rest). intros xs. induction xs as [|y xs IH]; intros L; [discriminate|].
    destruct xs as [|z xs]; [injection L as ->; now left|right; now apply IH]. }
  pose proof (annotate_steps span l L) as A.
  assert (Lv : 0 < n_vs l) by (rewrite Forall_forall in P; now apply P).
  assert (E' : map_opt (fun rt : trow => div_opt (snd rt) (n_vs (fst rt))) (annotate span) = Some (ts ++ [0])).
  { rewrite A. clear - E Lv. revert ts E. induction (steps span) as [|y l0 IH]; intros ts E; cbn [app map_opt fst snd] in *.
    - injection E as <-. unfold div_opt, Reqb. destruct (Req_EM_T (n_vs l) 0); [lra|]. cbn [opt_bind app]. repeat f_equal. unfold Rdiv. ring.
    - destruct (div_opt (snd y) (n_vs (fst y))); [|discriminate]. cbn [opt_bind] in *. destruct (map_opt _ l0) as [ts0|]; [|discriminate].
      cbn [opt_bind] in E. injection E as <-. rewrite (IH ts0 eq_refl). reflexivity. }
  assert (T' : Rsum (ts ++ [0]) = travel span) by (rewrite Rsum_app, T; cbn; lra).
  assert (X' : Rsum (map snd (annotate span)) = extent span) by (rewrite A, map_app, Rsum_app, X; cbn; lra).
  pose proof (annotate_fst span) as Fs.
  assert (Es : annotate span = (r, n_depth x - n_depth r) :: annotate (x :: rest)) by apply annotate_cons.
  rewrite Es in E', X' |- *. rewrite <- X' in Ep. rewrite <- T' in Tp. eexists. split; [exact (merge_value _ _ _ _ Ep E' Tp)|].
  rewrite X', T' in *. assert (V : 0 < extent span / travel span) by now apply Rdiv_lt_0_compat.
  split; [|split].
  - split; [reflexivity|]. split; [exact V|]. cbn [n_vs]. field. split; lra.
  - intros lo hi B. cbn [n_vs]. refine (vel_between span (annotate span) _ S P V _ Tp _ _ lo hi _); [field; lra| |unfold span; rewrite steps_cons; discriminate|].
    + rewrite A, map_app. apply incl_appl, incl_refl.
    + rewrite Fs. exact B.
  - rewrite <- Fs. rewrite Es. apply weight_wt_between.
Qed.
Lemma merge_single r : exists m, merge_group (annotate [r]) = Some m /\ n_depth m = n_depth r /\ n_vs m = n_vs r /\ n_wt m = n_wt r.
Proof.
  unfold annotate. cbn [map diff_zero combine]. unfold merge_group. cbn [map snd fst]. unfold Rsum. cbn [fold_right].
  unfold Rltb. destruct (Rlt_dec 0 (0 + 0)); [lra|]. cbn [opt_bind]. eexists. split; [reflexivity|]. cbn [n_depth n_vs n_wt].
  split; [reflexivity|]. split; [reflexivity|]. rewrite Rmax_right by lra. field.
Qed.


Lemma travel_app a r b : travel (a ++ r :: b) = travel (a ++ [r]) + travel (r :: b).
Proof.
  induction a as [|x a IH]; [cbn [app]; change (travel [r]) with 0; lra|]. destruct a as [|y a].
  - cbn [app]. change (travel (x :: r :: b)) with ((n_depth r - n_depth x) / n_vs x + travel (r :: b)).
    change (travel [x; r]) with ((n_depth r - n_depth x) / n_vs x + 0). lra.
  - cbn [app] in *. change (travel (x :: y :: ?l)) with ((n_depth y - n_depth x) / n_vs x + travel (y :: l)).
    change (travel (x :: y :: a ++ r :: b)) with ((n_depth y - n_depth x) / n_vs x + travel (y :: a ++ r :: b)).
    change (travel (x :: y :: a ++ [r])) with ((n_depth y - n_depth x) / n_vs x + travel (y :: a ++ [r])). lra.
Qed.
Lemma weight_app a r b : weight (a ++ r :: b) = weight (a ++ [r]) + weight (r :: b).
Proof.
  induction a as [|x a IH]; [cbn [app]; change (weight [r]) with 0; lra|]. destruct a as [|y a].
  - cbn [app]. change (weight (x :: r :: b)) with (n_wt x * (n_depth r - n_depth x) + weight (r :: b)).
    change (weight [x; r]) with (n_wt x * (n_depth r - n_depth x) + 0). lra.
  - cbn [app] in *.
    change (weight (x :: y :: a ++ r :: b)) with (n_wt x * (n_depth y - n_depth x) + weight (y :: a ++ r :: b)).
    change (weight (x :: y :: a ++ [r])) with (n_wt x * (n_depth y - n_depth x) + weight (y :: a ++ [r])). lra.
Qed.
Lemma extent_cons x y l : extent (x :: y :: l) = n_depth y - n_depth x + extent (y :: l).
Proof. rewrite <- !steps_extent, steps_cons. cbn [map snd]. now rewrite Rsum_cons. Qed.
Lemma extent_app a r b : extent (a ++ r :: b) = extent (a ++ [r]) + extent (r :: b).
Proof.
  induction a as [|x a IH]; [cbn [app]; change (extent [r]) with (n_depth r - n_depth r); lra|]. destruct a as [|y a].
  - cbn [app]. rewrite !extent_cons. change (extent [r]) with (n_depth r - n_depth r). lra.
  - cbn [app] in *. rewrite !extent_cons. lra.
Qed.
Lemma extent_snoc r g r' : extent ((r :: g) ++ [r']) = n_depth r' - n_depth r.
Proof.
  revert r. induction g as [|x g IH]; intros r; [reflexivity|]. specialize (IH x). cbn [app] in *. rewrite extent_cons. lra.
Qed.
Lemma thin_app t a r b : no_thinner t (a ++ r :: b) -> no_thinner t (a ++ [r]) /\ no_thinner t (r :: b).
Proof.
  induction a as [|x a IH]; intros H; [split; [exact I|exact H]|]. destruct a as [|y a].
  - cbn [app] in *. destruct H as [H0 H]. split; [split; [exact H0|exact I]|exact H].
  - cbn [app] in *. destruct H as [H0 H]. destruct (IH H) as [H1 H2]. split; [split; assumption|exact H2].
Qed.
Lemma merged_head r g gs out : merged ((r :: g) :: gs) out -> exists m ms, out = m :: ms /\ n_depth m = n_depth r.
Proof. intros M. inversion M as [? m D|? x ? m H|? ? ? ? ? m ms H M']; subst; exists m; eexists; (split; [reflexivity|]); [exact D|apply H|apply H]. Qed.

(** Everything about the result, group by group. *)
Lemma simplify_groups gs : forall rows, gs <> [] -> Forall (fun g => g <> []) gs -> concat gs = annotate rows -> good_rows rows ->
  exists out, map_opt merge_group gs = Some out /\ merged (rows_of gs) out /\
    Forall2 (fun g m => between n_vs g m /\ between n_wt g m) (rows_of gs) out /\
    (no_thinner 1e-10 rows -> weight out + weight (last (rows_of gs) []) = weight rows).
Proof.
  induction gs as [|g gs IH]; intros rows N F E (Nr & S & P); [congruence|]. inversion F as [|? ? F0 F']; subst.
  destruct gs as [|g' gs].
  - cbn [concat] in E. rewrite app_nil_r in E. subst g. cbn [rows_of map map_opt]. rewrite annotate_fst. cbn [last].
    destruct rows as [|r [|x rest]]; [congruence| |].
    + destruct (merge_single r) as (m & Em & D & V & W). exists [m]. rewrite Em. cbn [opt_bind]. split; [reflexivity|].
      split; [now constructor|]. split; [|cbn; lra]. constructor; [|constructor]. split; intros lo hi B; apply Forall_inv in B; congruence || (rewrite ?V, ?W; exact B).
    + destruct (merge_last r x rest S P) as (m & Em & H & B1 & B2). exists [m]. rewrite Em. cbn [opt_bind]. split; [reflexivity|].
      split; [now constructor|]. split; [constructor; [split; assumption|constructor]|]. intros _. change (weight [m]) with 0. lra.
  - inversion F' as [|? ? F1 _]; subst. destruct g' as [|[r' t'] g']; [congruence|].
    cbn [concat] in E. cbn [app] in E. destruct (annotate_app _ _ _ _ _ E) as [A G].
    assert (R : rows = map fst g ++ r' :: map fst (g' ++ concat gs)).
    { rewrite <- (annotate_fst rows), <- E, map_app. reflexivity. }
    rewrite R in S, P. rewrite map_app in S. destruct (sorted_app_inv _ _ _ S) as [_ S2]. apply Forall_app in P as P2. destruct P2 as [_ P2].
    destruct (IH (r' :: map fst (g' ++ concat gs)) ltac:(discriminate) F') as (out & Eo & M & B & W); [exact A|split; [discriminate|split; assumption]|].
    destruct g as [|[r t] g]; [congruence|]. cbn [map fst app] in G.
    assert (Sp : exists x rest, map fst g ++ [r'] = x :: rest) by (destruct g as [|y g]; cbn; eauto). destruct Sp as (x & rest & Sp).
    rewrite Sp in G. assert (Sub : exists tl, rows = (r :: x :: rest) ++ tl).
    { exists (map fst (g' ++ concat gs)). rewrite R. transitivity (r :: (map fst g ++ [r']) ++ map fst (g' ++ concat gs)); [now rewrite <- app_assoc|rewrite Sp; reflexivity]. }
    destruct Sub as [tl Sub].
    assert (S1 : StronglySorted Rlt (map n_depth (r :: x :: rest))).
    { rewrite <- map_app, <- R, Sub, map_app in S. exact (proj1 (sorted_app_inv _ _ _ S)). }
    assert (P1 : Forall (fun r => 0 < n_vs r) (r :: x :: rest)).
    { rewrite <- R, Sub in P. apply Forall_app in P. apply P. }
    destruct (merge_span r x rest S1 P1) as (m & Em & H & B1 & B2 & W1). cbv zeta in *.
    exists (m :: out). change (map_opt merge_group (((r, t) :: g) :: ((r', t') :: g') :: gs)) with
      (opt_bind (merge_group ((r, t) :: g)) (fun y => opt_bind (map_opt merge_group (((r', t') :: g') :: gs)) (fun ys => Some (y :: ys)))).
    rewrite G, Em. cbn [opt_bind]. rewrite Eo. cbn [opt_bind]. split; [reflexivity|].
    rewrite <- G in B1, B2.
    assert (Ro : rows_of (steps (r :: x :: rest) :: ((r', t') :: g') :: gs) = (r :: map fst g) :: rows_of (((r', t') :: g') :: gs)) by (rewrite <- G; reflexivity).
    rewrite Ro. split; [|split].
    + constructor; [|exact M]. cbn [app fst]. rewrite Sp. exact H.
    + constructor; [split; assumption|exact B].
    + intros Th. rewrite R in Th |- *.
      assert (Sp' : map fst ((r, t) :: g) ++ [r'] = r :: x :: rest) by (cbn [map fst app]; now rewrite Sp).
      destruct (thin_app 1e-10 (map fst ((r, t) :: g)) r' (map fst (g' ++ concat gs)) Th) as [T1 T2].
      rewrite weight_app, <- (W T2). rewrite Sp' in *. rewrite <- (W1 T1).
      destruct (merged_head _ _ _ _ M) as (m' & ms & -> & Dm).
      change (weight (m :: m' :: ms)) with (n_wt m * (n_depth m' - n_depth m) + weight (m' :: ms)).
      assert (X : extent (r :: x :: rest) = n_depth r' - n_depth r) by (rewrite <- Sp'; cbn [map fst app]; apply extent_snoc).
      rewrite X, Dm, (proj1 H). change (last (_ :: rows_of (((r', t') :: g') :: gs)) []) with (last (rows_of (((r', t') :: g') :: gs)) []). cbn [fst]. lra.
Qed.

(** ** The theorems *)

Lemma nonempty_groups tol rows : Forall (fun g => g <> []) (groups tol rows) /\ (rows <> [] -> groups tol rows <> []).
Proof.
  destruct rows as [|r rows]; [split; [constructor|congruence]|]. cbn [groups]. split.
  - revert r. assert (H : forall ref cur, cur <> [] -> Forall (fun g => g <> []) (group_rows tol ref cur rows)).
    { induction rows as [|x rows IH]; intros ref cur C; cbn [group_rows].
      - constructor; [|constructor]. intros E. apply C. rewrite <- (rev_involutive cur), E. reflexivity.
      - destruct (close_vs _ _ _); [apply IH; discriminate|]. constructor; [|apply IH; discriminate].
        intros E. apply C. rewrite <- (rev_involutive cur), E. reflexivity. }
    intros r. apply H. discriminate.
  - intros _. destruct (group_rows_head tol (n_vs (fst r)) rows r []) as (g & gs & E). cbn [app] in E. rewrite E. discriminate.
Qed.
(** The merged rows, for the only grouping there is. *)
Theorem simplify_merges rows tol gs : good_rows rows -> grouped tol gs -> concat gs = rows ->
  exists out, simplify_profile rows tol = Ok (Some out) /\ merged gs out /\
    Forall2 (fun g m => between n_vs g m /\ between n_wt g m) gs out /\
    (no_thinner 1e-10 rows -> weight out + weight (last gs []) = weight rows).
Proof.
  intros G Hg E. destruct (grouping_exists tol rows G) as (gs' & Hg' & E' & R').
  assert (Q : gs' = gs) by (apply (grouping_unique tol); congruence). rewrite Q in R'. clear Q.
  assert (A : annotate rows <> []). { intros Q. pose proof (annotate_fst rows) as Y. rewrite Q in Y. cbn in Y. destruct G as [N _]. congruence. }
  destruct (nonempty_groups tol (annotate rows)) as [F N].
  destruct (simplify_groups (groups tol (annotate rows)) rows (N A) F) as (out & Eo & M & B & W); [|exact G|].
  - destruct (annotate rows) as [|c ts]; [reflexivity|]. cbn [groups]. now rewrite group_rows_concat.
  - rewrite R' in M, B, W. exists out. split; [|now split]. unfold simplify_profile. destruct rows as [|r rows]; [destruct G; congruence|].
    fold (annotate (r :: rows)). now rewrite Eo.
Qed.
Theorem simplify_empty tol : simplify_profile [] tol = Err IndexError.
Proof. reflexivity. Qed.
(** Thickness and travel time: all that is lost is the inside of the last group. *)
Lemma merged_keeps gs out : merged gs out ->
  travel out + travel (last gs []) = travel (concat gs) /\ extent out + extent (last gs []) = extent (concat gs).
Proof.
  intros M. induction M as [r m D V W|r x g m H|r g r' g' gs m ms H M [IT IE]].
  - cbn. split; lra.
  - cbn [last concat]. rewrite app_nil_r. change (travel [m]) with 0. change (extent [m]) with (n_depth m - n_depth m). split; lra.
  - change (last ((r :: g) :: (r' :: g') :: gs) []) with (last ((r' :: g') :: gs) []).
    destruct (merged_head _ _ _ _ M) as (m' & ms' & -> & D'). destruct H as (D & V & T).
    change (concat ((r :: g) :: (r' :: g') :: gs)) with ((r :: g) ++ r' :: (g' ++ concat gs)).
    change (concat ((r' :: g') :: gs)) with (r' :: (g' ++ concat gs)) in IT, IE.
    assert (X : extent ((r :: g) ++ [r']) = n_depth r' - n_depth r) by apply extent_snoc.
    split.
    + rewrite travel_app, <- IT, <- T, X. change (travel (m :: m' :: ms')) with ((n_depth m' - n_depth m) / n_vs m + travel (m' :: ms')).
      rewrite D, D'. lra.
    + rewrite extent_app, <- IE, X, extent_cons, D, D'. lra.
Qed.
Theorem simplify_keeps rows tol gs out : good_rows rows -> grouped tol gs -> concat gs = rows -> simplify_profile rows tol = Ok (Some out) ->
  travel out + travel (last gs []) = travel rows /\ extent out + extent (last gs []) = extent rows.
Proof.
  intros G Hg E S. destruct (simplify_merges rows tol gs G Hg E) as (out' & S' & M & _). rewrite S in S'. injection S' as <-.
  rewrite <- E. now apply merged_keeps.
Qed.
(** So both are kept exactly if the half-space is a group of its own. *)
Lemma grouped_last_in tol gs : grouped tol gs -> exists a r g, gs = a ++ [r :: g] /\ last gs [] = r :: g.
Proof.
  intros G. induction G as [r g F|r g r' g' gs F W G (a & r2 & g2 & E & L)]; [exists [], r, g; now split|].
  exists ((r :: g) :: a), r2, g2. rewrite E. split; [reflexivity|]. rewrite <- E. exact L.
Qed.
Lemma last_opt_map {A B} (f : A -> B) l : last_opt (map f l) = option_map f (last_opt l).
Proof. induction l as [|x l IH]; [reflexivity|]. destruct l as [|y l]; [reflexivity|exact IH]. Qed.
Lemma last_opt_snoc {A} (l : list A) x : last_opt (l ++ [x]) = Some x.
Proof. induction l as [|y l IH]; [reflexivity|]. destruct l as [|z l]; [reflexivity|exact IH]. Qed.
Lemma merged_last_vel gs out : merged gs out -> forall a h, gs = a ++ [[h]] -> option_map n_vs (last_opt out) = Some (n_vs h).
Proof.
  intros M. induction M as [r m D V W|r x g m H|r g r' g' gs m ms H M IH]; intros a h E.
  - destruct a as [|y a]; [injection E as <-; cbn; now rewrite V|destruct a; discriminate].
  - destruct a as [|y a]; [discriminate|destruct a; discriminate].
  - destruct a as [|y a]; [discriminate|]. cbn [app] in E. injection E as _ E. specialize (IH a h E).
    destruct (merged_head _ _ _ _ M) as (m' & ms' & -> & _). exact IH.
Qed.
Theorem simplify_halfspace rows tol gs h out : good_rows rows -> grouped tol gs -> concat gs = rows -> simplify_profile rows tol = Ok (Some out) ->
  last gs [] = [h] -> travel out = travel rows /\ extent out = extent rows /\
  last_opt (map n_vs out) = last_opt (map n_vs rows).
Proof.
  intros G Hg E S L. destruct (simplify_keeps rows tol gs out G Hg E S) as [T X]. rewrite L in T, X. change (travel [h]) with 0 in T.
  change (extent [h]) with (n_depth h - n_depth h) in X. split; [lra|]. split; [lra|].
  destruct (simplify_merges rows tol gs G Hg E) as (out' & S' & M & _). rewrite S in S'. injection S' as <-.
  destruct (grouped_last_in tol gs Hg) as (a & r & g & Ea & La). rewrite La in L. injection L as -> ->.
  rewrite !last_opt_map, (merged_last_vel gs out M a h Ea). rewrite <- E, Ea, concat_app. cbn [concat app]. now rewrite last_opt_snoc.
Qed.
Theorem simplify_loses rows tol gs out r x g : good_rows rows -> grouped tol gs -> concat gs = rows -> simplify_profile rows tol = Ok (Some out) ->
  last gs [] = r :: x :: g -> travel out < travel rows /\ extent out < extent rows.
Proof.
  intros G Hg E S L. destruct (simplify_keeps rows tol gs out G Hg E S) as [T X]. rewrite L in T, X.
  destruct (grouped_last_in tol gs Hg) as (a & r' & g' & Ea & La). rewrite La in L. injection L as -> ->.
  destruct G as (_ & So & P). rewrite <- E, Ea, concat_app in So, P. cbn [concat] in So, P. rewrite app_nil_r in So, P. rewrite map_app in So.
  apply sorted_app_inv in So as [_ So]. apply Forall_app in P as [_ P].
  pose proof (travel_pos r x g So P). pose proof (extent_pos r x g So). lra.
Qed.
(** Starts of the groups: the depths reported are depths of the original, from the same first one. *)
Theorem simplify_depths rows tol out : good_rows rows -> simplify_profile rows tol = Ok (Some out) ->
  incl (map n_depth out) (map n_depth rows) /\ hd_error (map n_depth out) = hd_error (map n_depth rows) /\
  (0 < length out <= length rows)%nat /\ good_rows out.
Proof.
  intros G S. destruct (grouping_exists tol rows G) as (gs & Hg & E & _).
  destruct (simplify_merges rows tol gs G Hg E) as (out' & S' & M & _). rewrite S in S'. injection S' as <-. clear S.
  destruct G as (_ & So & P). rewrite <- E in *. clear E Hg.
  induction M as [r m D V W|r x g m H|r g r' g' gs m ms H M IH].
  - cbn in *. rewrite D. split; [apply incl_refl|]. split; [reflexivity|]. split; [lia|]. split; [discriminate|].
    split; [repeat constructor|]. constructor; [|constructor]. rewrite V. now apply Forall_inv in P.
  - destruct H as (D & V & T). cbn [concat app map hd_error length] in *. rewrite D. split; [intros y [<-|[]]; now left|]. split; [reflexivity|]. split; [lia|].
    split; [discriminate|]. split; [repeat constructor|]. constructor; [exact V|constructor].
  - change (concat ((r :: g) :: (r' :: g') :: gs)) with ((r :: g) ++ concat ((r' :: g') :: gs)) in *. rewrite map_app in *.
    pose proof (sorted_app_inv _ _ _ So) as [_ So2]. apply Forall_app in P as [P1 P2]. destruct (IH So2 P2) as (I & Hh & Le & Go).
    destruct H as (D & V & T). split; [|split; [|split]].
    + cbn [map]. intros y [<-|Hy]; [rewrite D; now left|]. apply in_or_app. right. now apply I.
    + cbn [map app hd_error]. now rewrite D.
    + rewrite app_length. cbn [length] in *. lia.
    + destruct Go as (_ & Gs & Gp). split; [discriminate|]. split; [|now constructor]. cbn [map]. constructor; [exact Gs|].
      rewrite D. cbn [map app] in So. inversion So as [|? ? _ F]; subst. apply Forall_app in F as [_ F]. apply Forall_forall. intros y Hy.
      rewrite Forall_forall in F. apply F, I, Hy.
Qed.

(** ** Loading *)

Lemma annotate_snd rows : map snd (annotate rows) = diff_zero (map n_depth rows).
Proof.
  induction rows as [|r rows IH]; [reflexivity|]. destruct rows as [|r' rows]; [reflexivity|].
  rewrite annotate_cons. cbn [map snd] in *. rewrite IH. reflexivity.
Qed.
Lemma diff_zero_length ds : length (diff_zero ds) = length ds.
Proof.
  induction ds as [|d ds IH]; [reflexivity|]. destruct ds as [|d' ds]; [reflexivity|].
  change (diff_zero (d :: d' :: ds)) with ((d' - d) :: diff_zero (d' :: ds)). cbn [length] in *. now rewrite IH.
Qed.
Lemma last_opt_some {A} (l : list A) : l <> [] -> exists x, last_opt l = Some x.
Proof. induction l as [|x l IH]; intros N; [congruence|]. destruct l as [|y l]; [exists x; reflexivity|]. apply IH. discriminate. Qed.
Lemma cumsum_from_length xs : forall a, length (cumsum_from a xs) = length xs.
Proof. induction xs as [|x xs IH]; intros a; [reflexivity|]. cbn [cumsum_from length]. now rewrite IH. Qed.
(** What is loaded when the columns have the same length: rows with the stress and the
    thickness of each, and the thicknesses add up to the depth of the half-space. *)
Theorem ncm_loads depths vs density wt simplify rows0 : ncm_rows depths vs density = Ok rows0 -> good_rows rows0 ->
  exists rows ms ths, load_ncm depths vs density wt simplify = Ok (Some (rows, ms, ths)) /\ good_rows rows /\
    length ms = length rows /\ length ths = length rows /\ Rsum ths = extent rows /\ last_opt ths = Some 0 /\
    calc_mean_eff_stress (map n_depth rows) (map n_wt rows) wt 0.5 = Ok ms /\
    match simplify with None => rows = rows0 | Some tol => simplify_profile rows0 tol = Ok (Some rows) end.
Proof.
  intros E G. unfold load_ncm. rewrite E. cbn [bind].
  assert (X : exists rows, match simplify with None => Ok (Some rows0) | Some tol => simplify_profile rows0 tol end = Ok (Some rows) /\ good_rows rows /\
    match simplify with None => rows = rows0 | Some tol => simplify_profile rows0 tol = Ok (Some rows) end).
  { destruct simplify as [tol|]; [|exists rows0; auto]. destruct (grouping_exists tol rows0 G) as (gs & Hg & Ec & _).
    destruct (simplify_merges rows0 tol gs G Hg Ec) as (out & S & _). exists out. split; [exact S|]. split; [|exact S].
    exact (proj2 (proj2 (proj2 (simplify_depths rows0 tol out G S)))). }
  destruct X as (rows & Er & Gr & Hr). rewrite Er. cbn [bind].
  assert (Cm : exists ms, calc_mean_eff_stress (map n_depth rows) (map n_wt rows) wt 0.5 = Ok ms /\ length ms = length rows).
  { unfold calc_mean_eff_stress. destruct (map n_depth rows) eqn:Ed; [destruct rows; [destruct Gr; congruence|discriminate]|]. rewrite <- Ed.
    rewrite !map_length, Nat.eqb_refl. eexists. split; [reflexivity|].
    unfold cumsum, mean_thicknesses. repeat (rewrite map_length || rewrite combine_length || rewrite cumsum_from_length || rewrite diff_zero_length).
    rewrite !Nat.min_id. reflexivity. }
  destruct Cm as (ms & Em & Lm). exists rows, ms, (diff_zero (map n_depth rows)). rewrite Em. cbn [bind].
  split; [reflexivity|]. split; [exact Gr|]. split; [exact Lm|]. split; [rewrite diff_zero_length; apply map_length|].
  destruct (last_opt_some rows ltac:(apply Gr)) as (l & Ll).
  rewrite <- annotate_snd, (annotate_steps rows l Ll), map_app, Rsum_app, steps_extent. split; [cbn; lra|].
  split; [cbn [map snd]; apply last_opt_snoc|]. now split.
Qed.
Theorem ncm_columns depths vs density wt simplify : length depths <> length vs \/ length depths <> length density ->
  load_ncm depths vs density wt simplify = Err ValueError.
Proof.
  intros H. unfold load_ncm, ncm_rows. destruct (Nat.eqb (length depths) (length vs)) eqn:E1, (Nat.eqb (length depths) (length density)) eqn:E2;
    try reflexivity. apply Nat.eqb_eq in E1, E2. lia.
Qed.
(** The density of a soil type with the loaded unit weight is not that of the file. *)
Theorem ncm_density depths vs density rows i r rho soil : ncm_rows depths vs density = Ok rows ->
  nth_error rows i = Some r -> nth_error density i = Some rho -> s_unit_wt soil = n_wt r ->
  Layer.density soil = rho / 1000 * (9.81 / 9.80665).
Proof.
  unfold ncm_rows. destruct (_ && _)%bool eqn:E; [|discriminate]. intros H. injection H as <-. intros N Nd U.
  rewrite nth_error_map in N. destruct (nth_error (combine (combine depths vs) density) i) as [[p q]|] eqn:C; [|discriminate].
  cbn in N. injection N as <-. assert (q = rho).
  { clear - C Nd. revert density i C Nd. induction (combine depths vs) as [|x xs IH]; intros [|y ys] [|i] C Nd; cbn in C, Nd; try discriminate.
    - injection C as _ <-. now injection Nd as <-.
    - eapply IH; eassumption. }
  subst q. unfold Layer.density, GRAVITY. rewrite U. cbn [n_wt snd]. lra.
Qed.
