(** Facts about the shared definitions. *)
From Coq Require Import Sorted Permutation.
From Verif Require Import Common.
Local Open Scope R_scope.

Lemma Rltb_true x y : Rltb x y = true <-> x < y.
Proof. unfold Rltb; destruct (Rlt_dec x y); split; congruence || auto. Qed.
Lemma Rltb_false x y : Rltb x y = false <-> y <= x.
Proof. unfold Rltb; destruct (Rlt_dec x y); split; intros; try congruence; lra. Qed.
Lemma Rleb_true x y : Rleb x y = true <-> x <= y.
Proof. unfold Rleb; destruct (Rle_dec x y); split; congruence || auto. Qed.
Lemma Rleb_false x y : Rleb x y = false <-> y < x.
Proof. unfold Rleb; destruct (Rle_dec x y); split; intros; try congruence; lra. Qed.
Lemma Reqb_true x y : Reqb x y = true <-> x = y.
Proof. unfold Reqb; destruct (Req_EM_T x y); split; congruence || auto. Qed.
Lemma Reqb_false x y : Reqb x y = false <-> x <> y.
Proof. unfold Reqb; destruct (Req_EM_T x y); split; intros; congruence. Qed.
Lemma Reqb_refl x : Reqb x x = true.
Proof. apply Reqb_true; reflexivity. Qed.

(** Case analysis on every boolean comparison in the goal. *)
Ltac rcase :=
  match goal with
  | |- context [Rltb ?x ?y] =>
      let H := fresh "Hlt" in destruct (Rltb x y) eqn:H;
      [apply Rltb_true in H | apply Rltb_false in H]
  | |- context [Rleb ?x ?y] =>
      let H := fresh "Hle" in destruct (Rleb x y) eqn:H;
      [apply Rleb_true in H | apply Rleb_false in H]
  | |- context [Reqb ?x ?y] =>
      let H := fresh "Heq" in destruct (Reqb x y) eqn:H;
      [apply Reqb_true in H | apply Reqb_false in H]
  end.

Lemma clip_bounds v lo hi : lo <= hi -> lo <= clip v lo hi <= hi.
Proof.
  intros H; unfold clip, Rmin, Rmax.
  destruct (Rle_dec v lo); match goal with |- context [Rle_dec ?a ?b] => destruct (Rle_dec a b) end; lra.
Qed.
Lemma clip_id v lo hi : lo <= v <= hi -> clip v lo hi = v.
Proof.
  intros H; unfold clip, Rmin, Rmax.
  destruct (Rle_dec v lo); match goal with |- context [Rle_dec ?a ?b] => destruct (Rle_dec a b) end; lra.
Qed.
Lemma clip_mono v w lo hi : v <= w -> clip v lo hi <= clip w lo hi.
Proof.
  intros H; unfold clip. apply Rle_min_compat_r, Rle_max_compat_r, H.
Qed.
Lemma clip_below v lo hi : v <= lo -> lo <= hi -> clip v lo hi = lo.
Proof. intros; unfold clip; rewrite Rmax_right, Rmin_left; lra. Qed.
Lemma clip_above v lo hi : hi <= v -> lo <= hi -> clip v lo hi = hi.
Proof. intros; unfold clip; rewrite Rmin_right; [lra|]. apply Rle_trans with v; [lra|apply Rmax_l]. Qed.

(** Lists. *)
Lemma last_opt_some {A} (x : A) l : exists y, last_opt (x :: l) = Some y.
Proof. revert x; induction l as [|z l IH]; intros x; [eexists; reflexivity|]. apply IH. Qed.
Lemma last_opt_app {A} (l : list A) x : last_opt (l ++ [x]) = Some x.
Proof.
  induction l as [|y l IH]; [reflexivity|]. cbn [app]. destruct l; [reflexivity|exact IH].
Qed.
Lemma last_opt_In {A} (l : list A) x : last_opt l = Some x -> In x l.
Proof.
  induction l as [|y l IH]; [discriminate|]. destruct l as [|z l].
  - intros H; injection H as ->; now left.
  - intros H; right; apply IH, H.
Qed.
Lemma last_opt_inv {A} (l : list A) x : last_opt l = Some x -> l = removelast l ++ [x].
Proof.
  induction l as [|y l IH]; [discriminate|]. destruct l as [|z l].
  - intros H; injection H as ->; reflexivity.
  - intros H. change (removelast (y :: z :: l)) with (y :: removelast (z :: l)).
    cbn [app]. f_equal. apply IH, H.
Qed.
Lemma last_opt_map {A B} (f : A -> B) (l : list A) :
  last_opt (map f l) = option_map f (last_opt l).
Proof.
  induction l as [|y l IH]; [reflexivity|]. destruct l as [|z l]; [reflexivity|exact IH].
Qed.
Lemma last_opt_nth {A} (l : list A) :
  last_opt l = nth_error l (length l - 1).
Proof.
  induction l as [|y l IH]; [reflexivity|]. destruct l as [|z l]; [reflexivity|].
  change (last_opt (y :: z :: l)) with (last_opt (z :: l)). rewrite IH.
  cbn [length]. replace (S (S (length l)) - 1)%nat with (S (S (length l) - 1)) by lia.
  reflexivity.
Qed.
Lemma last_opt_none {A} (l : list A) : last_opt l = None -> l = [].
Proof.
  destruct l as [|x l]; [reflexivity|]. destruct (last_opt_some x l) as [y ->]. discriminate.
Qed.
Lemma map_removelast {A B} (f : A -> B) (l : list A) :
  map f (removelast l) = removelast (map f l).
Proof.
  induction l as [|y l IH]; [reflexivity|]. destruct l as [|z l]; [reflexivity|].
  change (removelast (y :: z :: l)) with (y :: removelast (z :: l)).
  change (map f (y :: removelast (z :: l))) with (f y :: map f (removelast (z :: l))).
  rewrite IH. reflexivity.
Qed.
Lemma removelast_length {A} (l : list A) : length (removelast l) = (length l - 1)%nat.
Proof.
  induction l as [|y l IH]; [reflexivity|]. destruct l as [|z l]; [reflexivity|].
  change (removelast (y :: z :: l)) with (y :: removelast (z :: l)).
  cbn [length] in *. rewrite IH. lia.
Qed.

Lemma Rsum_app xs ys : Rsum (xs ++ ys) = Rsum xs + Rsum ys.
Proof. unfold Rsum; induction xs as [|x xs IH]; cbn; [lra|rewrite IH; lra]. Qed.
Lemma Rsum_cons x xs : Rsum (x :: xs) = x + Rsum xs.
Proof. reflexivity. Qed.
Lemma Rsum_nonneg xs : Forall (fun x => 0 <= x) xs -> 0 <= Rsum xs.
Proof. induction 1; cbn; [lra|]. unfold Rsum in IHForall; lra. Qed.
Lemma Rsum_repeat x n : Rsum (repeat x n) = INR n * x.
Proof.
  induction n as [|n IH]; [cbn; lra|]. cbn [repeat]. rewrite Rsum_cons, IH, S_INR. lra.
Qed.
Lemma Rsum_map_ext {A} (f g : A -> R) l :
  (forall x, In x l -> f x = g x) -> Rsum (map f l) = Rsum (map g l).
Proof. intros H; f_equal; apply map_ext_in, H. Qed.
Lemma Rsum_map_scal {A} k (f : A -> R) l : Rsum (map (fun x => k * f x) l) = k * Rsum (map f l).
Proof. induction l as [|x l IH]; cbn [map]; [cbn; lra|]. rewrite !Rsum_cons, IH. lra. Qed.
Lemma Rsum_map_plus {A} (f g : A -> R) l :
  Rsum (map (fun x => f x + g x) l) = Rsum (map f l) + Rsum (map g l).
Proof. induction l as [|x l IH]; cbn [map]; [cbn; lra|]. rewrite !Rsum_cons, IH. lra. Qed.
Lemma Rsum_perm xs ys : Permutation xs ys -> Rsum xs = Rsum ys.
Proof. induction 1; rewrite ?Rsum_cons in *; lra || (cbn; lra). Qed.

Lemma cumsum_from_length a xs : length (cumsum_from a xs) = length xs.
Proof. revert a; induction xs as [|x xs IH]; intros a; cbn; auto. Qed.
Lemma cumsum_length xs : length (cumsum xs) = length xs.
Proof. apply cumsum_from_length. Qed.
Lemma cumsum_from_nth a xs i x :
  nth_error (cumsum_from a xs) i = Some x -> x = a + Rsum (firstn (S i) xs).
Proof.
  revert a i; induction xs as [|y xs IH]; intros a i H; [destruct i; discriminate|].
  destruct i as [|i]; cbn [cumsum_from nth_error] in H.
  - injection H as <-. cbn. lra.
  - apply IH in H. rewrite H. cbn [firstn]. rewrite Rsum_cons. lra.
Qed.
Lemma cumsum_from_app a xs ys :
  cumsum_from a (xs ++ ys) = cumsum_from a xs ++ cumsum_from (a + Rsum xs) ys.
Proof.
  revert a; induction xs as [|x xs IH]; intros a; cbn [app cumsum_from].
  - cbn. f_equal. lra.
  - rewrite IH, Rsum_cons. cbn [app]. f_equal. f_equal. f_equal. lra.
Qed.

(** Piecewise-linear interpolation on increasing abscissae. *)
Definition xlt (p q : R * R) : Prop := fst p < fst q.
Definition xsorted := StronglySorted xlt.

Lemma np_interp_cons2 x x0 y0 x1 y1 rest :
  np_interp x ((x0, y0) :: (x1, y1) :: rest) =
  if Rltb x x1
  then if Rleb x x0 then y0 else (y1 - y0) / (x1 - x0) * (x - x0) + y0
  else np_interp x ((x1, y1) :: rest).
Proof. reflexivity. Qed.

Lemma np_interp_left x x0 y0 rest :
  xsorted ((x0, y0) :: rest) -> x <= x0 -> np_interp x ((x0, y0) :: rest) = y0.
Proof.
  intros Hs Hx. destruct rest as [|[x1 y1] rest]; [reflexivity|].
  rewrite np_interp_cons2. inversion Hs as [|? ? _ Hall]; subst.
  inversion Hall as [|? ? H1 _]; subst. unfold xlt in H1; cbn in H1.
  rcase; [|lra]. rcase; [reflexivity|lra].
Qed.

Lemma xsorted_last_ge pts p q :
  xsorted (p :: pts) -> last_opt (p :: pts) = Some q -> fst p <= fst q.
Proof.
  intros Hs Hl. apply last_opt_In in Hl. destruct Hl as [->|Hl]; [lra|].
  inversion Hs as [|? ? _ Hall]; subst. rewrite Forall_forall in Hall.
  apply Hall in Hl. unfold xlt in Hl. lra.
Qed.

Lemma np_interp_right x pts xl yl :
  xsorted pts -> last_opt pts = Some (xl, yl) -> xl <= x -> np_interp x pts = yl.
Proof.
  intros Hs Hl Hx. induction pts as [|[x0 y0] pts IH]; [discriminate|].
  destruct pts as [|[x1 y1] rest].
  - injection Hl as -> ->. reflexivity.
  - rewrite np_interp_cons2. inversion Hs as [|? ? Hs' _]; subst.
    change (last_opt ((x1, y1) :: rest) = Some (xl, yl)) in Hl.
    pose proof (xsorted_last_ge _ _ _ Hs' Hl) as Hle. cbn in Hle.
    rcase; [lra|]. apply IH; assumption.
Qed.

Lemma np_interp_mid x pts i x0 y0 x1 y1 :
  xsorted pts -> nth_error pts i = Some (x0, y0) -> nth_error pts (S i) = Some (x1, y1) ->
  x0 <= x <= x1 ->
  np_interp x pts = (y1 - y0) / (x1 - x0) * (x - x0) + y0.
Proof.
  revert i; induction pts as [|[a b] pts IH]; intros i Hs H0 H1 Hx; [destruct i; discriminate|].
  inversion Hs as [|? ? Hs' Hall]; subst. rewrite Forall_forall in Hall.
  destruct pts as [|[a1 b1] rest]; [destruct i as [|[|i]]; discriminate|].
  rewrite np_interp_cons2. destruct i as [|i].
  - injection H0 as -> ->. cbn in H1; injection H1 as -> ->.
    assert (Hlt : x0 < x1) by (apply (Hall (x1, y1)); now left).
    rcase.
    + rcase; [|reflexivity]. replace x with x0 by lra. field. lra.
    + assert (x = x1) by lra; subst x. rewrite np_interp_left; [field; lra|exact Hs'|lra].
  - assert (Hge : a1 <= x0).
    { destruct i as [|i]; cbn in H0; [injection H0 as -> ->; lra|].
      apply nth_error_In in H0. inversion Hs' as [|? ? _ Hall']; subst.
      rewrite Forall_forall in Hall'. apply Hall' in H0. unfold xlt in H0; cbn in H0; lra. }
    rcase; [lra|]. apply (IH i); assumption.
Qed.

(** Monotone tables. *)
Definition ynonincr := StronglySorted (fun p q : R * R => snd q <= snd p).

Lemma line_between x x0 y0 x1 y1 :
  x0 < x1 -> x0 <= x <= x1 -> y1 <= y0 ->
  y1 <= (y1 - y0) / (x1 - x0) * (x - x0) + y0 <= y0.
Proof.
  intros Hl Hx Hy. set (t := (x - x0) / (x1 - x0)).
  assert (Ht : 0 <= t <= 1).
  { unfold t; split.
    - apply Rmult_le_pos; [lra|]. left; apply Rinv_0_lt_compat; lra.
    - apply (Rmult_le_reg_r (x1 - x0)); [lra|]. unfold Rdiv.
      rewrite Rmult_assoc, Rinv_l by lra. lra. }
  replace ((y1 - y0) / (x1 - x0) * (x - x0) + y0) with (y0 - t * (y0 - y1))
    by (unfold t; field; lra).
  assert (0 <= t * (y0 - y1)) by (apply Rmult_le_pos; lra).
  assert (t * (y0 - y1) <= 1 * (y0 - y1)) by (apply Rmult_le_compat_r; lra). lra.
Qed.

Lemma np_interp_le_first x x0 y0 rest :
  xsorted ((x0, y0) :: rest) -> ynonincr ((x0, y0) :: rest) ->
  np_interp x ((x0, y0) :: rest) <= y0.
Proof.
  revert x0 y0; induction rest as [|[x1 y1] rest IH]; intros x0 y0 Hs Hy; [cbn; lra|].
  rewrite np_interp_cons2. inversion Hs as [|? ? Hs' Hall]; subst.
  inversion Hy as [|? ? Hy' Hyall]; subst. rewrite Forall_forall in Hall, Hyall.
  assert (Hx01 : x0 < x1) by (apply (Hall (x1, y1)); now left).
  assert (Hy01 : y1 <= y0) by (apply (Hyall (x1, y1)); now left).
  rcase.
  - rcase; [lra|]. apply line_between; lra.
  - apply Rle_trans with y1; [apply IH; assumption|exact Hy01].
Qed.

Lemma np_interp_antitone pts x x' :
  xsorted pts -> ynonincr pts -> x <= x' -> np_interp x' pts <= np_interp x pts.
Proof.
  intros Hs Hy Hx. induction pts as [|[x0 y0] pts IH]; [cbn; lra|].
  destruct pts as [|[x1 y1] rest]; [cbn; lra|].
  rewrite !np_interp_cons2. inversion Hs as [|? ? Hs' Hall]; subst.
  inversion Hy as [|? ? Hy' Hyall]; subst. rewrite Forall_forall in Hall, Hyall.
  assert (Hx01 : x0 < x1) by (apply (Hall (x1, y1)); now left).
  assert (Hy01 : y1 <= y0) by (apply (Hyall (x1, y1)); now left).
  destruct (Rltb x' x1) eqn:E'; [apply Rltb_true in E'|apply Rltb_false in E'].
  - destruct (Rltb x x1) eqn:E; [apply Rltb_true in E|apply Rltb_false in E; lra].
    destruct (Rleb x' x0) eqn:F'; [apply Rleb_true in F'|apply Rleb_false in F'].
    + destruct (Rleb x x0) eqn:F; [lra|apply Rleb_false in F; lra].
    + destruct (Rleb x x0) eqn:F; [apply Rleb_true in F|apply Rleb_false in F].
      * apply line_between; lra.
      * assert (Hk : (y1 - y0) / (x1 - x0) <= 0).
        { unfold Rdiv. assert (0 < / (x1 - x0)) by (apply Rinv_0_lt_compat; lra).
          assert (0 <= (y0 - y1) * / (x1 - x0)) by (apply Rmult_le_pos; lra). lra. }
        assert ((y1 - y0) / (x1 - x0) * (x' - x) <= 0).
        { assert (0 <= - ((y1 - y0) / (x1 - x0)) * (x' - x)) by (apply Rmult_le_pos; lra). lra. }
        lra.
  - destruct (Rltb x x1) eqn:E; [apply Rltb_true in E|apply Rltb_false in E].
    + apply Rle_trans with y1; [apply np_interp_le_first; assumption|].
      destruct (Rleb x x0) eqn:F; [exact Hy01|apply Rleb_false in F]. apply line_between; lra.
    + apply IH; assumption.
Qed.

Lemma np_interp_opp x pts :
  np_interp x (map (fun p => (fst p, - snd p)) pts) = - np_interp x pts.
Proof.
  induction pts as [|[x0 y0] pts IH]; [cbn; lra|]. destruct pts as [|[x1 y1] rest]; [reflexivity|].
  cbn [map fst snd] in *. rewrite !np_interp_cons2, IH.
  rcase; [|reflexivity]. rcase; [reflexivity|]. unfold Rdiv; lra.
Qed.

Lemma Forall2_len {A B} (P : A -> B -> Prop) l l' : Forall2 P l l' -> length l = length l'.
Proof. induction 1; cbn; congruence. Qed.

Lemma nth_error_ext {A} (xs ys : list A) : (forall i, nth_error xs i = nth_error ys i) -> xs = ys.
Proof.
  revert ys. induction xs as [|x xs IH]; intros [|y ys] H; [reflexivity|discriminate (H 0%nat)|discriminate (H 0%nat)|].
  pose proof (H 0%nat) as H0. injection H0 as ->. f_equal. apply IH. intros i. exact (H (S i)).
Qed.
Lemma nth_error_firstn_lt {A} (xs : list A) n j : (j < n)%nat -> nth_error (firstn n xs) j = nth_error xs j.
Proof. revert xs j. induction n as [|n IH]; intros [|x xs] [|j] H; try lia; cbn; try reflexivity. apply IH. lia. Qed.
Lemma nth_error_repeat_lt {A} (x : A) n j : (j < n)%nat -> nth_error (repeat x n) j = Some x.
Proof. revert j. induction n as [|n IH]; intros [|j] H; try lia; cbn; try reflexivity. apply IH. lia. Qed.
Lemma nth_error_skipn_add {A} (xs : list A) n i : nth_error (skipn n xs) i = nth_error xs (n + i).
Proof. revert xs. induction n as [|n IH]; intros [|x xs]; cbn; try reflexivity; [now destruct i|apply IH]. Qed.

(** Decide closed comparisons. *)
Ltac rdec := repeat match goal with
  | |- context [Reqb ?a ?b] =>
      first [rewrite (proj2 (Reqb_true a b)) by lra | rewrite (proj2 (Reqb_false a b)) by lra]
  | |- context [Rleb ?a ?b] =>
      first [rewrite (proj2 (Rleb_true a b)) by lra | rewrite (proj2 (Rleb_false a b)) by lra]
  | |- context [Rltb ?a ?b] =>
      first [rewrite (proj2 (Rltb_true a b)) by lra | rewrite (proj2 (Rltb_false a b)) by lra]
  end.
