(** Edited curves and tables with several columns: C153 and C154. *)
From Verif Require Import Common Model.Curve Model.CurveObject Spec.CurveSpec Spec.CurveObjectSpec Proof.CommonFacts Proof.CurveFacts Proof.CurveProps.
From Coq Require Import Sorted.
Local Open Scope R_scope.

Lemma all_some_map {A B} (f : A -> option B) xs ys : Forall2 (fun x y => f x = Some y) xs ys -> all_some (map f xs) = Some ys.
Proof. induction 1 as [|x y xs ys H _ IH]; [reflexivity|]. cbn. rewrite H, IH. reflexivity. Qed.

Lemma asarray_ok g : accepted g <-> exists v, asarray g = Ok v.
Proof.
  destruct g as [vs|rows]; cbn [accepted asarray]; [split; [intros _; now exists (Vec vs)|trivial]|].
  destruct rows as [|r rs]; [split; intros _; [now exists (Vec [])|exists 0%nat; constructor]|].
  destruct (forallb (fun x => Nat.eqb (length x) (length r)) rs) eqn:E; split.
  - intros _. eexists; reflexivity.
  - intros _. exists (length r). constructor; [reflexivity|]. apply Forall_forall. intros x Hx. rewrite forallb_forall in E. now apply Nat.eqb_eq, E.
  - intros [m H]. inversion H as [|? ? H1 H2]; subst. rewrite Forall_forall in H2.
    assert (T : forallb (fun x => Nat.eqb (length x) (length r)) rs = true) by (apply forallb_forall; intros x Hx; now apply Nat.eqb_eq, H2). congruence.
  - intros [v H]. discriminate.
Qed.
Lemma asarray_err g : ~ accepted g -> exists e, asarray g = Err e.
Proof.
  intros H. destruct (asarray g) as [v|e] eqn:E; [|now exists e]. exfalso. apply H, asarray_ok. now exists v.
Qed.

(** C153 *)
Theorem edited_fresh ss g lo hi o es ss' g' : obj_new ss g lo hi = Ok o -> now_holds ss g es ss' g' ->
  obj_new ss' g' lo hi = Ok (obj_edits o es).
Proof.
  intros HN H. induction H as [|es s1 g1 s2 _ IH|es s1 g1 g2 _ IH HA|es s1 g1 g2 _ IH HA]; [exact HN| | |];
    unfold obj_edits in *; rewrite fold_left_app; cbn [fold_left obj_edit]; unfold obj_new in IH |- *.
  - destruct (asarray g1) as [v|]; [|discriminate]. cbn [bind] in *. injection IH as E. rewrite <- E. reflexivity.
  - apply asarray_ok in HA. destruct HA as [v HA]. rewrite HA.
    destruct (asarray g1) as [v1|]; [|discriminate]. cbn [bind] in *. injection IH as E. rewrite <- E. reflexivity.
  - apply asarray_err in HA. destruct HA as [e HA]. rewrite HA. exact IH.
Qed.
Theorem edit_raises o e x : snd (obj_edit o e) = Some x -> exists g, e = SetValues g /\ ~ accepted g /\ x = ValueError /\ fst (obj_edit o e) = o.
Proof.
  destruct e as [ss|g]; cbn; [discriminate|]. destruct (asarray g) as [v|e] eqn:E; cbn; [discriminate|]. intros H. injection H as <-.
  exists g. split; [reflexivity|]. split; [intros K; apply asarray_ok in K; destruct K; congruence|]. split; [|reflexivity].
  destruct g as [vs|[|r rs]]; cbn in E; try discriminate. destruct (forallb _ rs); [discriminate|]. now injection E.
Qed.

Lemma interp_defined ss vs s : ss <> [] -> length ss = length vs -> exists v, interp1d_call (combine (map ln ss) vs) (ln_arg s) = Some v.
Proof.
  intros H1 H2. destruct ss as [|a ss]; [contradiction|]. destruct vs as [|b vs]; [discriminate|]. cbn [map combine].
  generalize (combine (map ln ss) vs) as t. generalize (ln a). intros x0 t. unfold interp1d_call.
  assert (LN : forall A (x : A) l, exists y, last_opt (x :: l) = Some y).
  { intros A x l. revert x. induction l as [|y l IH]; intros x; [now exists x|]. destruct (IH y) as [z Hz]. exists z. exact Hz. }
  assert (SN : exists p l, sort_pts ((x0, b) :: t) = p :: l).
  { cbn [sort_pts]. destruct (sort_pts t) as [|q r]; cbn; [eauto|]. destruct (Rleb x0 (fst q)); eauto. }
  destruct (LN _ (x0, b) t) as [[x1 y1] ->]. destruct SN as ([x2 y2] & l & ->). cbv zeta. destruct (LN _ (x2, y2) l) as [[x3 y3] ->]. eauto.
Qed.

(** C153: the object with one column answers as the curve of Model.Curve. *)
Theorem object_curve ss vs lo hi o id : obj_new ss (GList vs) lo hi = Ok o ->
  (forall s, obj_call o (One s) = bind (curve_call (mkCurve id ss vs lo hi) s) (fun v => Ok (ANum v))) /\
  (forall xs, length ss = length vs -> ss <> [] -> exists ys, obj_call o (Many xs) = Ok (AArr ys) /\
     Forall2 (fun x y => curve_call (mkCurve id ss vs lo hi) x = Ok y) xs ys).
Proof.
  intros H. unfold obj_new in H. cbn in H. injection H as <-. split.
  - intros s. unfold obj_call, curve_call, Curve.ln_table. cbn [ob_strains ob_values ob_interp ob_lo ob_hi c_strains c_values c_lo c_hi same_shape].
    destruct (Nat.eqb (length ss) (length vs)) eqn:E.
    + unfold build. destruct ss as [|a ss]; [destruct vs; reflexivity|]. rewrite E. fold (ln_arg s).
      destruct (interp1d_call _ _); reflexivity.
    + unfold build. destruct ss as [|a ss]; [reflexivity|]. rewrite E. reflexivity.
  - intros xs HL HN. assert (E : Nat.eqb (length ss) (length vs) = true) by now apply Nat.eqb_eq.
    assert (B : build ss (Vec vs) = IOne (combine (map ln ss) vs)) by (destruct ss; [contradiction|]; unfold build; now rewrite E).
    assert (D : exists zs, Forall2 (fun s v => interp1d_call (combine (map ln ss) vs) (ln_arg s) = Some v) xs zs).
    { induction xs as [|x xs [zs IH]]; [exists []; constructor|]. destruct (interp_defined ss vs x HN HL) as [v Hv]. exists (v :: zs). now constructor. }
    destruct D as [zs D]. exists (map (fun v => clip v lo hi) zs). split.
    + unfold obj_call. cbn [ob_strains ob_values ob_interp ob_lo ob_hi same_shape]. rewrite E, B.
      rewrite (all_some_map (fun s => interp1d_call (combine (map ln ss) vs) (ln_arg s)) xs zs D). reflexivity.
    + induction D as [|x z xs zs Hz _ IH]; cbn [map]; constructor; [|exact IH].
      unfold curve_call, Curve.ln_table. cbn [c_strains c_values c_lo c_hi]. rewrite E. unfold ln_arg in Hz. rewrite Hz. reflexivity.
Qed.

Lemma column_spec j m rows : rectangular m rows -> (j < m)%nat -> Forall2 (fun r v => nth_error r j = Some v) rows (column j rows).
Proof.
  intros H L. induction H as [|r rows Hr _ IH]; cbn; constructor; [|exact IH]. apply nth_error_nth'. lia.
Qed.
Lemma column_unique j rows vs : Forall2 (fun r v => nth_error r j = Some v) rows vs -> vs = column j rows.
Proof. induction 1 as [|r v rows vs H _ IH]; [reflexivity|]. unfold column in *. cbn [map]. rewrite <- IH. f_equal. symmetry. now apply nth_error_nth. Qed.

Lemma rows_new ss rows lo hi m : rectangular m rows -> length ss = length rows -> ss <> [] ->
  obj_new ss (GRows rows) lo hi = Ok (mkObj ss (Mat m rows) (IMany (map (fun i => combine (map ln ss) (column i rows)) (seq 0 m))) lo hi).
Proof.
  intros H L N. destruct rows as [|r rs]; [destruct ss; [contradiction|discriminate]|]. unfold obj_new. cbn [asarray].
  inversion H as [|? ? H1 H2]; subst. rewrite Forall_forall in H2.
  replace (forallb (fun x => Nat.eqb (length x) (length r)) rs) with true by (symmetry; apply forallb_forall; intros x Hx; now apply Nat.eqb_eq, H2).
  cbn [bind]. unfold build. destruct ss as [|a ss]; [contradiction|]. apply Nat.eqb_eq in L. rewrite L. reflexivity.
Qed.

(** C154 *)
Theorem columns_are_curves ss rows lo hi m id : rectangular m rows -> length ss = length rows -> ss <> [] ->
  exists o, obj_new ss (GRows rows) lo hi = Ok o /\ forall s, exists ys, obj_call o (One s) = Ok (AArr ys) /\ length ys = m /\
    forall j vs y, Forall2 (fun r v => nth_error r j = Some v) rows vs -> nth_error ys j = Some y ->
      curve_call (mkCurve id ss vs lo hi) s = Ok y.
Proof.
  intros H L N. eexists. split; [apply (rows_new ss rows lo hi m); assumption|]. intros s.
  assert (D : exists zs, Forall2 (fun i z => interp1d_call (combine (map ln ss) (column i rows)) (ln_arg s) = Some z) (seq 0 m) zs).
  { generalize (seq 0 m) as is. induction is as [|i is [zs IH]]; [exists []; constructor|].
    assert (LC : length ss = length (column i rows)) by (unfold column; now rewrite map_length).
    destruct (interp_defined ss (column i rows) s N LC) as [v Hv]. exists (v :: zs). now constructor. }
  destruct D as [zs D].
  assert (LZ : length zs = m) by (rewrite <- (seq_length m 0); clear - D; induction D; cbn; congruence).
  exists (map (fun v => clip v lo hi) zs). split; [|split; [now rewrite map_length|]].
  - unfold obj_call. cbn [ob_strains ob_values ob_interp ob_lo ob_hi same_shape]. rewrite map_map.
    rewrite <- (map_map (fun i => combine (map ln ss) (column i rows)) (fun t => interp1d_call t (ln_arg s))). 
    destruct (map (fun i => combine (map ln ss) (column i rows)) (seq 0 m)) as [|t ts] eqn:E.
    + apply map_eq_nil in E. rewrite E in D. inversion D. reflexivity.
    + rewrite <- E, map_map, (all_some_map (fun i => interp1d_call (combine (map ln ss) (column i rows)) (ln_arg s)) _ _ D). reflexivity.
  - intros j vs y HC HY. apply column_unique in HC. subst vs. rewrite nth_error_map in HY.
    destruct (nth_error zs j) as [z|] eqn:Ez; [|discriminate]. cbn in HY. injection HY as <-.
    assert (J : (j < m)%nat) by (rewrite <- LZ; apply nth_error_Some; congruence).
    assert (V : interp1d_call (combine (map ln ss) (column j rows)) (ln_arg s) = Some z).
    { assert (G : forall is zs', Forall2 (fun i z => interp1d_call (combine (map ln ss) (column i rows)) (ln_arg s) = Some z) is zs' ->
        forall k i z', nth_error is k = Some i -> nth_error zs' k = Some z' -> interp1d_call (combine (map ln ss) (column i rows)) (ln_arg s) = Some z').
      { induction 1 as [|a b is0 zs0 Hab _ IH]; intros [|k] i z' A B; try discriminate; cbn in A, B; [injection A as <-; injection B as <-; exact Hab|exact (IH k i z' A B)]. }
      apply (G _ _ D j); [|exact Ez]. rewrite (nth_error_nth' (seq 0 m) 0%nat) by now rewrite seq_length. now rewrite seq_nth. }
    unfold curve_call, Curve.ln_table. cbn [c_strains c_values c_lo c_hi]. unfold column at 1. rewrite map_length, <- L, Nat.eqb_refl.
    unfold ln_arg in V. rewrite V. reflexivity.
Qed.

Theorem first_strain_only ss rows lo hi o s rest m : rectangular m rows -> length ss = length rows -> ss <> [] ->
  obj_new ss (GRows rows) lo hi = Ok o -> obj_call o (Many (s :: rest)) = obj_call o (One s).
Proof.
  intros H L N E. rewrite (rows_new ss rows lo hi m H L N) in E. injection E as <-. reflexivity.
Qed.

Definition two_columns : list (list R) := [[1; 0.5]; [0.2; 0.25]].
Theorem strains_ignored : exists ss rows lo hi o s t vs, rectangular 2 rows /\ length ss = length rows /\ obj_new ss (GRows rows) lo hi = Ok o /\
  obj_call o (Many [s; t]) = Ok (AArr vs) /\ obj_call o (Many [s; s]) = Ok (AArr vs) /\ obj_call o (One t) <> Ok (AArr vs).
Proof.
  assert (RR : rectangular 2 two_columns) by (repeat constructor).
  destruct (columns_are_curves [1e-4; 1e-2] two_columns 0 1 2 0 RR eq_refl ltac:(discriminate)) as (o & N & H).
  destruct (H 1e-4) as (ys & C1 & L1 & K1). destruct (H 1e-2) as (zs & C2 & L2 & K2).
  exists [1e-4; 1e-2], two_columns, 0, 1, o, 1e-4, 1e-2, ys.
  split; [exact RR|]. split; [reflexivity|]. split; [exact N|].
  rewrite !(first_strain_only [1e-4; 1e-2] two_columns 0 1 o _ _ 2 RR eq_refl ltac:(discriminate) N). split; [exact C1|]. split; [exact C1|].
  rewrite C2. intros E. assert (E' : zs = ys) by congruence. subst zs.
  destruct ys as [|y ys]; [discriminate|].
  assert (G : good_table [1e-4; 1e-2] [1; 0.2]).
  { split; [reflexivity|]. split; [discriminate|]. split; [repeat (apply Forall_cons; [lra|]); apply Forall_nil|].
    repeat constructor; lra. }
  assert (Y1 : curve_call (mkCurve 0 [1e-4; 1e-2] [1; 0.2] 0 1) 1e-4 = Ok y) by (apply (K1 0%nat); [repeat constructor|reflexivity]).
  assert (Y2 : curve_call (mkCurve 0 [1e-4; 1e-2] [1; 0.2] 0 1) 1e-2 = Ok y) by (apply (K2 0%nat); [repeat constructor|reflexivity]).
  destruct (curve_at_point (mkCurve 0 [1e-4; 1e-2] [1; 0.2] 0 1) 0 1e-4 1 ltac:(cbn; lra) G ltac:(split; reflexivity) ltac:(lra)) as (r1 & R1 & M1).
  destruct (curve_at_point (mkCurve 0 [1e-4; 1e-2] [1; 0.2] 0 1) 1 1e-2 0.2 ltac:(cbn; lra) G ltac:(split; reflexivity) ltac:(lra)) as (r2 & R2 & M2).
  assert (r1 = y) by congruence. assert (r2 = y) by congruence. subst r1 r2. cbn [c_lo c_hi] in M1, M2.
  inversion M1; inversion M2; lra.
Qed.
