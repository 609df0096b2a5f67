(** Lemmas about nonlinear curves. *)
From Coq Require Import Sorted Permutation.
From Verif Require Import Common Model.Curve Spec.CurveSpec Proof.CommonFacts.
Local Open Scope R_scope.

Lemma pow9_pos : 0 < 1e-9. Proof. lra. Qed.

Lemma curve_call_bounds c s v :
  c_lo c <= c_hi c -> curve_call c s = Ok v -> c_lo c <= v <= c_hi c.
Proof.
  intros Hl. unfold curve_call. destruct (Nat.eqb _ _); [|discriminate].
  destruct (interp1d_call _ _); [|discriminate]. intros H; injection H as <-.
  now apply clip_bounds.
Qed.

Lemma clip_limited v lo hi : lo <= hi -> limited lo hi v (clip v lo hi).
Proof.
  intros H. destruct (Rlt_dec v lo) as [H1|H1].
  - rewrite clip_below by lra. now apply lim_lo.
  - destruct (Rlt_dec hi v) as [H2|H2].
    + rewrite clip_above by lra. now apply lim_hi.
    + rewrite clip_id by lra. apply lim_in; lra.
Qed.
Lemma limited_clip v lo hi r : lo <= hi -> limited lo hi v r -> r = clip v lo hi.
Proof.
  intros H Hr; inversion Hr; subst.
  - now rewrite clip_id. - rewrite clip_below; lra. - rewrite clip_above; lra.
Qed.

(** Sorting a sorted table. *)
Lemma sort_pts_sorted l : xsorted l -> sort_pts l = l.
Proof.
  induction 1 as [|p l Hs IH Hall]; [reflexivity|]. cbn [sort_pts]. rewrite IH.
  destruct l as [|q l]; [reflexivity|]. cbn [ins_pt].
  inversion Hall as [|? ? H1 _]; subst. unfold xlt in H1.
  rcase; [reflexivity|lra].
Qed.

Lemma xsorted_combine ss vs :
  length ss = length vs -> Forall (fun s => 0 < s) ss -> StronglySorted Rlt ss ->
  xsorted (combine (map ln ss) vs).
Proof.
  intros Hl Hp Hs; revert vs Hl; induction Hs as [|s ss Hs IH Hall]; intros vs Hl.
  - cbn. constructor.
  - destruct vs as [|v vs]; [discriminate|]. inversion Hp as [|? ? Hs0 Hp']; subst.
    cbn [map combine]. constructor; [apply IH; auto|].
    rewrite Forall_forall. intros [x y] Hin. unfold xlt; cbn.
    apply in_combine_l in Hin. apply in_map_iff in Hin. destruct Hin as [t [<- Ht]].
    rewrite Forall_forall in Hall. apply ln_increasing; [exact Hs0|now apply Hall].
Qed.

Lemma interp1d_sorted tab x :
  xsorted tab -> tab <> [] -> interp1d_call tab x = Some (np_interp x tab).
Proof.
  intros Hs Hne. unfold interp1d_call. rewrite (sort_pts_sorted tab Hs).
  destruct tab as [|[x0 y0] rest]; [congruence|].
  destruct (last_opt_some (x0, y0) rest) as [[xl yl] Hl]. rewrite Hl.
  f_equal. rcase.
  - symmetry. apply np_interp_left; [exact Hs|lra].
  - rcase; [|reflexivity]. symmetry. eapply np_interp_right; eauto; lra.
Qed.

Lemma good_table_ln c :
  good_table (c_strains c) (c_values c) -> xsorted (ln_table c) /\ ln_table c <> [].
Proof.
  intros [Hl [Hne [Hp Hs]]]. split; [now apply xsorted_combine|].
  unfold ln_table. destruct (c_strains c), (c_values c); try congruence; discriminate.
Qed.

Lemma curve_call_good c s :
  good_table (c_strains c) (c_values c) ->
  curve_call c s =
  Ok (clip (np_interp (ln (Rmax 1e-9 s)) (ln_table c)) (c_lo c) (c_hi c)).
Proof.
  intros H. destruct (good_table_ln c H) as [Hs Hne]. destruct H as [Hl _].
  unfold curve_call. rewrite Hl, Nat.eqb_refl, interp1d_sorted by assumption. reflexivity.
Qed.

Lemma nth_error_combine {A B} (xs : list A) (ys : list B) i x y :
  nth_error xs i = Some x -> nth_error ys i = Some y ->
  nth_error (combine xs ys) i = Some (x, y).
Proof.
  revert ys i; induction xs as [|a xs IH]; intros [|b ys] [|i] Hx Hy; cbn in *; try discriminate.
  - congruence. - now apply IH.
Qed.
Lemma ln_table_point c i s v :
  point (c_strains c) (c_values c) i s v -> nth_error (ln_table c) i = Some (ln s, v).
Proof.
  intros [H1 H2]. apply nth_error_combine; [|exact H2]. now apply map_nth_error.
Qed.

Lemma Rmax9 s : 1e-9 <= s -> Rmax 1e-9 s = s.
Proof. intros; now apply Rmax_right. Qed.
Lemma ln_le x y : 0 < x -> x <= y -> ln x <= ln y.
Proof.
  intros H [H1| ->]; [left; now apply ln_increasing|lra].
Qed.

Lemma sorted_nth_lt ss i j a b :
  StronglySorted Rlt ss -> (i < j)%nat -> nth_error ss i = Some a -> nth_error ss j = Some b -> a < b.
Proof.
  intros Hs; revert i j; induction Hs as [|s ss Hs IH Hall]; intros i j Hij Ha Hb.
  - destruct i; discriminate.
  - destruct j as [|j]; [lia|]. destruct i as [|i]; cbn in *.
    + injection Ha as <-. apply nth_error_In in Hb. rewrite Forall_forall in Hall. now apply Hall.
    + apply (IH i j); auto; lia.
Qed.

Lemma nth_error_pos {A} (P : A -> Prop) l i x : Forall P l -> nth_error l i = Some x -> P x.
Proof. intros H E; apply nth_error_In in E; rewrite Forall_forall in H; auto. Qed.

Lemma curve_between c i s0 v0 s1 v1 s :
  good_table (c_strains c) (c_values c) ->
  point (c_strains c) (c_values c) i s0 v0 ->
  point (c_strains c) (c_values c) (S i) s1 v1 ->
  1e-9 <= s -> s0 <= s <= s1 ->
  curve_call c s = Ok (clip (chord s0 v0 s1 v1 s) (c_lo c) (c_hi c)).
Proof.
  intros Hg H0 H1 H9 Hs. rewrite (curve_call_good c s Hg), Rmax9 by exact H9.
  destruct (good_table_ln c Hg) as [Hx _].
  pose proof Hg as [_ [_ [Hp Hss]]].
  assert (Hp0 : 0 < s0) by (destruct H0 as [H0 _]; eapply nth_error_pos in H0; eauto).
  assert (Hlt : s0 < s1) by (destruct H0, H1; eapply sorted_nth_lt with (i := i) (j := S i); eauto).
  assert (Hln : ln s0 < ln s1) by now apply ln_increasing.
  rewrite (np_interp_mid _ _ i (ln s0) v0 (ln s1) v1); auto using ln_table_point.
  - f_equal. f_equal. unfold chord. field. lra.
  - split; apply ln_le; lra.
Qed.

Lemma curve_first c s0 v0 s :
  good_table (c_strains c) (c_values c) ->
  point (c_strains c) (c_values c) 0 s0 v0 ->
  1e-9 <= s0 -> s <= s0 ->
  curve_call c s = Ok (clip v0 (c_lo c) (c_hi c)).
Proof.
  intros Hg H0 H9 Hs. rewrite (curve_call_good c s Hg).
  destruct (good_table_ln c Hg) as [Hx _].
  pose proof (ln_table_point c 0 s0 v0 H0) as Hn.
  destruct (ln_table c) as [|[x y] rest] eqn:E; [discriminate|]. injection Hn as -> ->.
  rewrite np_interp_left; [reflexivity|exact Hx|].
  assert (Rmax 1e-9 s <= s0) by (apply Rmax_lub; assumption).
  apply ln_le; [|assumption]. apply Rlt_le_trans with 1e-9; [lra|apply Rmax_l].
Qed.

Lemma ln_table_length c :
  length (c_strains c) = length (c_values c) -> length (ln_table c) = length (c_strains c).
Proof. intros H. unfold ln_table. rewrite combine_length, map_length. lia. Qed.

Lemma curve_last c sl vl s :
  good_table (c_strains c) (c_values c) ->
  point (c_strains c) (c_values c) (length (c_strains c) - 1) sl vl ->
  1e-9 <= s -> sl <= s ->
  curve_call c s = Ok (clip vl (c_lo c) (c_hi c)).
Proof.
  intros Hg H0 H9 Hs. rewrite (curve_call_good c s Hg), Rmax9 by exact H9.
  destruct (good_table_ln c Hg) as [Hx _].
  pose proof (ln_table_point c _ sl vl H0) as Hn. destruct Hg as [Hl [_ [Hp _]]].
  rewrite (np_interp_right _ _ (ln sl) vl); [reflexivity|exact Hx| |].
  - rewrite last_opt_nth, ln_table_length by exact Hl. exact Hn.
  - apply ln_le; [|exact Hs]. destruct H0 as [H0 _]. eapply nth_error_pos in H0; eauto.
Qed.

Lemma chord_at_left s0 v0 s1 v1 : ln s0 < ln s1 -> chord s0 v0 s1 v1 s0 = v0.
Proof. intros. unfold chord. field. lra. Qed.

Lemma curve_knot c i s v :
  good_table (c_strains c) (c_values c) ->
  point (c_strains c) (c_values c) i s v -> 1e-9 <= s ->
  curve_call c s = Ok (clip v (c_lo c) (c_hi c)).
Proof.
  intros Hg Hp H9. pose proof Hg as [Hl [_ [Hpos Hs]]].
  destruct (Nat.eq_dec i (length (c_strains c) - 1)) as [->|Hi].
  - apply (curve_last c s v); auto; lra.
  - pose proof Hp as [Hp1 Hp2].
    assert (Hlt : (i < length (c_strains c))%nat) by (apply nth_error_Some; congruence).
    destruct (nth_error (c_strains c) (S i)) as [s1|] eqn:E1;
      [|apply nth_error_None in E1; lia].
    destruct (nth_error (c_values c) (S i)) as [v1|] eqn:E2;
      [|apply nth_error_None in E2; lia].
    assert (Hss : s < s1) by (eapply sorted_nth_lt with (i := i) (j := S i); eauto).
    rewrite (curve_between c i s v s1 v1 s); auto; [|split; assumption|lra].
    rewrite chord_at_left; [reflexivity|]. apply ln_increasing; [lra|exact Hss].
Qed.

Lemma chord_between s0 v0 s1 v1 s :
  0 < s0 -> s0 < s1 -> s0 <= s <= s1 ->
  Rmin v0 v1 <= chord s0 v0 s1 v1 s <= Rmax v0 v1.
Proof.
  intros H0 Hlt Hs. set (t := (ln s - ln s0) / (ln s1 - ln s0)).
  assert (Hln : ln s0 < ln s1) by now apply ln_increasing.
  assert (Hl : ln s0 <= ln s) by (apply ln_le; lra).
  assert (Hr : ln s <= ln s1) by (apply ln_le; lra).
  assert (Ht : 0 <= t <= 1).
  { unfold t; split.
    - apply Rmult_le_pos; [lra|]. left; apply Rinv_0_lt_compat; lra.
    - apply (Rmult_le_reg_r (ln s1 - ln s0)); [lra|]. unfold Rdiv.
      rewrite Rmult_assoc, Rinv_l by lra. lra. }
  unfold chord. fold t.
  assert (Hc : v0 + (v1 - v0) * t = (1 - t) * v0 + t * v1) by ring. rewrite Hc.
  pose proof (Rmin_l v0 v1); pose proof (Rmin_r v0 v1).
  pose proof (Rmax_l v0 v1); pose proof (Rmax_r v0 v1).
  split.
  - replace (Rmin v0 v1) with ((1 - t) * Rmin v0 v1 + t * Rmin v0 v1) by ring.
    apply Rplus_le_compat; apply Rmult_le_compat_l; lra.
  - replace (Rmax v0 v1) with ((1 - t) * Rmax v0 v1 + t * Rmax v0 v1) by ring.
    apply Rplus_le_compat; apply Rmult_le_compat_l; lra.
Qed.

(** Monotonicity. *)
Lemma ss_combine_snd (Rel : R -> R -> Prop) (xs vs : list R) :
  length xs = length vs -> StronglySorted Rel vs ->
  StronglySorted (fun p q => Rel (snd p) (snd q)) (combine xs vs).
Proof.
  intros Hl Hs; revert xs Hl; induction Hs as [|v vs Hs IH Hall]; intros xs Hl.
  - destruct xs; constructor.
  - destruct xs as [|x xs]; [discriminate|]. cbn [combine]. constructor; [apply IH; auto|].
    rewrite Forall_forall. intros [a b] Hin. apply in_combine_r in Hin.
    rewrite Forall_forall in Hall. now apply Hall.
Qed.

Lemma ln9_mono s t : s <= t -> ln (Rmax 1e-9 s) <= ln (Rmax 1e-9 t).
Proof.
  intros H. apply ln_le; [apply Rlt_le_trans with 1e-9; [lra|apply Rmax_l]|].
  apply Rle_max_compat_l, H.
Qed.

Lemma curve_antitone c s t :
  good_table (c_strains c) (c_values c) ->
  StronglySorted (fun a b => b <= a) (c_values c) -> s <= t ->
  exists a b, curve_call c s = Ok a /\ curve_call c t = Ok b /\ b <= a.
Proof.
  intros Hg Hv Hst. destruct (good_table_ln c Hg) as [Hx _].
  do 2 eexists. split; [apply curve_call_good, Hg|]. split; [apply curve_call_good, Hg|].
  apply clip_mono, np_interp_antitone; [exact Hx| |now apply ln9_mono].
  apply (ss_combine_snd (fun a b => b <= a)); [|exact Hv].
  destruct Hg as [Hl _]. now rewrite map_length.
Qed.

Lemma curve_monotone c s t :
  good_table (c_strains c) (c_values c) ->
  StronglySorted Rle (c_values c) -> s <= t ->
  exists a b, curve_call c s = Ok a /\ curve_call c t = Ok b /\ a <= b.
Proof.
  intros Hg Hv Hst. destruct (good_table_ln c Hg) as [Hx _].
  do 2 eexists. split; [apply curve_call_good, Hg|]. split; [apply curve_call_good, Hg|].
  apply clip_mono.
  assert (H : np_interp (ln (Rmax 1e-9 t)) (map (fun p => (fst p, - snd p)) (ln_table c))
           <= np_interp (ln (Rmax 1e-9 s)) (map (fun p => (fst p, - snd p)) (ln_table c))).
  { apply np_interp_antitone; [| |now apply ln9_mono].
    - clear - Hx. induction Hx as [|p l Hs IH Hall]; cbn [map]; constructor; [exact IH|].
      rewrite Forall_map. eapply Forall_impl; [|exact Hall]. intros q Hq. exact Hq.
    - pose proof (ss_combine_snd Rle (map ln (c_strains c)) (c_values c)) as Hm.
      destruct Hg as [Hl _]. rewrite map_length in Hm. specialize (Hm Hl Hv).
      fold (ln_table c) in Hm. clear - Hm.
      induction Hm as [|p l Hs IH Hall]; cbn [map]; constructor; [exact IH|].
      rewrite Forall_map. eapply Forall_impl; [|exact Hall]. intros q Hq; cbn in *; lra. }
  rewrite !np_interp_opp in H. lra.
Qed.

(** Order of the points. *)
Lemma ins_pt_perm p l : Permutation (p :: l) (ins_pt p l).
Proof.
  induction l as [|q l IH]; cbn; [reflexivity|]. destruct (Rleb _ _); [reflexivity|].
  rewrite perm_swap. now constructor.
Qed.
Lemma sort_pts_perm l : Permutation l (sort_pts l).
Proof.
  induction l as [|p l IH]; cbn; [constructor|]. rewrite <- ins_pt_perm. now constructor.
Qed.
Lemma ins_pt_sorted p l :
  ~ In (fst p) (map fst l) -> xsorted l -> xsorted (ins_pt p l).
Proof.
  intros Hn Hs; induction Hs as [|q l Hs IH Hall]; cbn; [repeat constructor|].
  rcase.
  - assert (fst p < fst q).
    { destruct Hle as [H|H]; [exact H|]. exfalso; apply Hn; left; auto. }
    constructor; [constructor; auto|]. constructor; [exact H|].
    eapply Forall_impl; [|exact Hall]. unfold xlt; intros; lra.
  - constructor; [apply IH; intros Hi; apply Hn; now right|].
    rewrite Forall_forall in *. intros x Hx.
    apply Permutation_in with (l' := p :: l) in Hx; [|symmetry; apply ins_pt_perm].
    destruct Hx as [<-|Hx]; [exact Hle|now apply Hall].
Qed.
Lemma sort_pts_xsorted l : NoDup (map fst l) -> xsorted (sort_pts l).
Proof.
  induction l as [|p l IH]; cbn; intros Hn; [constructor|].
  inversion Hn as [|? ? Hni Hn']; subst. apply ins_pt_sorted; [|auto].
  intros Hi; apply Hni. eapply Permutation_in; [|exact Hi].
  apply Permutation_map. symmetry; apply sort_pts_perm.
Qed.
Lemma xsorted_unique l1 l2 : xsorted l1 -> xsorted l2 -> Permutation l1 l2 -> l1 = l2.
Proof.
  intros H1; revert l2; induction H1 as [|p l Hs IH Hall]; intros l2 H2 HP.
  - apply Permutation_nil in HP. congruence.
  - destruct l2 as [|q l2]; [symmetry in HP; apply Permutation_nil in HP; discriminate|].
    inversion H2 as [|? ? Hs2 Hall2]; subst. rewrite Forall_forall in Hall, Hall2.
    assert (p = q).
    { assert (Hp : In p (q :: l2)) by (eapply Permutation_in; [exact HP|now left]).
      assert (Hq : In q (p :: l)) by (eapply Permutation_in; [symmetry; exact HP|now left]).
      destruct Hp as [Hp|Hp]; [auto|]. destruct Hq as [Hq|Hq]; [auto|].
      apply Hall in Hq. apply Hall2 in Hp. unfold xlt in *. lra. }
    subst q. f_equal. apply IH; [exact Hs2|]. eapply Permutation_cons_inv; exact HP.
Qed.

Lemma ln_inj_map ss : Forall (fun s => 0 < s) ss -> NoDup ss -> NoDup (map ln ss).
Proof.
  intros Hp Hn; induction Hn as [|s ss Hni Hn IH]; cbn; constructor.
  - intros Hi. apply in_map_iff in Hi. destruct Hi as [t [He Ht]].
    inversion Hp as [|? ? H1 H2]; subst. rewrite Forall_forall in H2.
    apply ln_inv in He; auto. congruence.
  - inversion Hp; auto.
Qed.
Lemma map_fst_combine {A B} (xs : list A) (ys : list B) :
  length xs = length ys -> map fst (combine xs ys) = xs.
Proof.
  revert ys; induction xs as [|x xs IH]; intros [|y ys] H; cbn in *; try discriminate; auto.
  f_equal; auto.
Qed.
Lemma combine_map_l {A B C} (f : A -> C) (xs : list A) (ys : list B) :
  combine (map f xs) ys = map (fun p => (f (fst p), snd p)) (combine xs ys).
Proof.
  revert ys; induction xs as [|x xs IH]; intros [|y ys]; cbn; auto. f_equal; auto.
Qed.

(** Inside the range of the strains the order of the points is irrelevant. *)
Lemma curve_order_inside c c' s :
  length (c_strains c) = length (c_values c) ->
  length (c_strains c') = length (c_values c') ->
  Forall (fun s => 0 < s) (c_strains c) -> NoDup (c_strains c) ->
  Permutation (combine (c_strains c) (c_values c)) (combine (c_strains c') (c_values c')) ->
  c_lo c = c_lo c' -> c_hi c = c_hi c' ->
  (exists a, In a (c_strains c) /\ a <= Rmax 1e-9 s) ->
  (exists b, In b (c_strains c) /\ Rmax 1e-9 s <= b) ->
  curve_call c s = curve_call c' s.
Proof.
  intros Hl Hl' Hp Hn HP Elo Ehi [a [Ha1 Ha2]] [b [Hb1 Hb2]].
  unfold curve_call. rewrite Hl, Hl', !Nat.eqb_refl.
  assert (HPt : Permutation (ln_table c) (ln_table c')).
  { unfold ln_table. rewrite !combine_map_l. now apply Permutation_map. }
  assert (HPs : Permutation (c_strains c) (c_strains c')).
  { rewrite <- (map_fst_combine (c_strains c) (c_values c)) by exact Hl.
    rewrite <- (map_fst_combine (c_strains c') (c_values c')) by exact Hl'.
    now apply Permutation_map. }
  assert (Hn1 : NoDup (map fst (ln_table c))).
  { unfold ln_table. rewrite map_fst_combine by (rewrite map_length; exact Hl).
    apply ln_inj_map; assumption. }
  assert (Hn2 : NoDup (map fst (ln_table c'))).
  { eapply Permutation_NoDup; [apply Permutation_map; exact HPt|exact Hn1]. }
  assert (Hsrt : sort_pts (ln_table c) = sort_pts (ln_table c')).
  { apply xsorted_unique; auto using sort_pts_xsorted.
    rewrite <- !sort_pts_perm. exact HPt. }
  set (x := ln (Rmax 1e-9 s)) in *.
  assert (Hx9 : 0 < Rmax 1e-9 s) by (apply Rlt_le_trans with 1e-9; [lra|apply Rmax_l]).
  assert (Hmin : forall t, t = ln_table c \/ t = ln_table c' ->
     exists y, In y (map fst t) /\ y <= x).
  { intros t Ht. exists (ln a). split; [|apply ln_le; [|exact Ha2]].
    - assert (In (ln a) (map fst (ln_table c))).
      { unfold ln_table. rewrite map_fst_combine by (rewrite map_length; exact Hl).
        now apply in_map. }
      destruct Ht as [-> | ->]; [assumption|].
      eapply Permutation_in; [apply Permutation_map; exact HPt|assumption].
    - rewrite Forall_forall in Hp; auto. }
  assert (Hmax : forall t, t = ln_table c \/ t = ln_table c' ->
     exists y, In y (map fst t) /\ x <= y).
  { intros t Ht. exists (ln b). split; [|apply ln_le; [exact Hx9|exact Hb2]].
    assert (In (ln b) (map fst (ln_table c))).
    { unfold ln_table. rewrite map_fst_combine by (rewrite map_length; exact Hl).
      now apply in_map. }
    destruct Ht as [-> | ->]; [assumption|].
    eapply Permutation_in; [apply Permutation_map; exact HPt|assumption]. }
  assert (Hin : forall t, xsorted (sort_pts t) ->
     (exists y, In y (map fst t) /\ y <= x) -> (exists y, In y (map fst t) /\ x <= y) ->
     interp1d_call t x = Some (np_interp x (sort_pts t))).
  { intros t Hsorted [y1 [Hy1 Hy1x]] [y2 [Hy2 Hy2x]]. unfold interp1d_call.
    destruct t as [|[x0 y0] rest]; [destruct Hy1|].
    destruct (last_opt_some (x0, y0) rest) as [[xl yl] Hlast]. rewrite Hlast.
    pose proof (sort_pts_perm ((x0, y0) :: rest)) as Hperm.
    destruct (sort_pts ((x0, y0) :: rest)) as [|[xm ym] srt] eqn:Es.
    { symmetry in Hperm; apply Permutation_nil in Hperm; discriminate. }
    destruct (last_opt_some (xm, ym) srt) as [[xM yM] HM]. rewrite HM.
    assert (Hy1s : In y1 (map fst ((xm, ym) :: srt)))
      by (eapply Permutation_in; [apply Permutation_map; exact Hperm|exact Hy1]).
    assert (Hy2s : In y2 (map fst ((xm, ym) :: srt)))
      by (eapply Permutation_in; [apply Permutation_map; exact Hperm|exact Hy2]).
    inversion Hsorted as [|? ? Hs' Hall]; subst. rewrite Forall_forall in Hall.
    assert (xm <= y1).
    { destruct Hy1s as [<-|H]; [cbn; lra|]. apply in_map_iff in H. destruct H as [[u v] [<- Hu]].
      apply Hall in Hu. unfold xlt in Hu; cbn in *; lra. }
    assert (y2 <= xM).
    { apply in_map_iff in Hy2s. destruct Hy2s as [[u v] [<- Hu]]. cbn [fst].
      pose proof (last_opt_inv _ _ HM) as Hinv. rewrite Hinv in Hu, Hsorted.
      apply in_app_or in Hu. destruct Hu as [Hu|[Hu|[]]]; [|injection Hu as -> ->; lra].
      clear - Hu Hsorted. induction (removelast ((xm, ym) :: srt)) as [|q l IH]; [destruct Hu|].
      cbn [app] in Hsorted. inversion Hsorted as [|? ? Hs' Hall]; subst.
      destruct Hu as [->|Hu]; [|now apply IH].
      rewrite Forall_forall in Hall. specialize (Hall (xM, yM)).
      assert (xlt (u, v) (xM, yM)) by (apply Hall, in_or_app; right; now left).
      unfold xlt in H; cbn in H; lra. }
    f_equal. rcase; [lra|]. rcase; [lra|]. reflexivity. }
  rewrite !Hin by auto using sort_pts_xsorted. now rewrite Hsrt, Elo, Ehi.
Qed.

(** Outside it, the listed first and last values are used. *)
Lemma curve_order_counter :
  exists c c' s,
    good_table (c_strains c) (c_values c) /\
    Permutation (combine (c_strains c) (c_values c)) (combine (c_strains c') (c_values c')) /\
    length (c_strains c') = length (c_values c') /\
    c_lo c = c_lo c' /\ c_hi c = c_hi c' /\
    curve_call c s = Ok 1 /\ curve_call c' s = Ok 0.5.
Proof.
  set (c := mkCurve 0 [1; 2] [1; 0.5] 0.001 1).
  set (c' := mkCurve 1 [2; 1] [0.5; 1] 0.001 1).
  exists c, c', 0.5.
  assert (Hg : good_table (c_strains c) (c_values c)).
  { repeat split; cbn; [discriminate|repeat constructor; lra|repeat constructor; lra]. }
  split; [exact Hg|]. split; [cbn; apply perm_swap|]. split; [reflexivity|].
  split; [reflexivity|]. split; [reflexivity|]. split.
  - rewrite (curve_first c 1 1 0.5); [rewrite clip_id; [reflexivity|cbn; lra]|exact Hg|split; reflexivity|lra|lra].
  - assert (Hl2 : ln 1 < ln 2) by (apply ln_increasing; lra).
    assert (Hl5 : ln 0.5 < ln 1) by (apply ln_increasing; lra).
    unfold curve_call, c'; cbn [c_strains c_values c_lo c_hi length Nat.eqb].
    unfold ln_table; cbn [map combine c_strains c_values].
    unfold interp1d_call; cbn [last_opt sort_pts ins_pt fst snd].
    rewrite (proj2 (Rleb_false (ln 2) (ln 1))) by lra. cbn [last_opt].
    rewrite Rmax_right by lra.
    rewrite (proj2 (Rltb_true (ln 0.5) (ln 1))) by lra.
    rewrite clip_id by lra. reflexivity.
Qed.

(** Shape errors. *)
Lemma curve_call_mismatch c s :
  length (c_strains c) <> length (c_values c) -> curve_call c s = Err TypeError.
Proof.
  intros H. unfold curve_call. apply Nat.eqb_neq in H. now rewrite H.
Qed.
