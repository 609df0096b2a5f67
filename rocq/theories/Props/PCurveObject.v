(** Properties C153 and C154: curves that are edited, and curves with several columns. *)
From Verif Require Import Common Model.Curve Model.CurveObject Spec.CurveObjectSpec Proof.CurveObjectProps.
From Coq Require Import List.
Import ListNotations.
Local Open Scope R_scope.

(** C153: after any sequence of assignments to strains and values the curve is the one
    that would be built from the arrays it holds now, assignments that raise having no
    effect. *)
Theorem C153_edited : forall ss g lo hi o es ss' g',
  obj_new ss g lo hi = Ok o -> now_holds ss g es ss' g' ->
  obj_new ss' g' lo hi = Ok (obj_edits o es).
Proof. exact edited_fresh. Qed.
Print Assumptions C153_edited.
Example C153_edited_ex : exists o, obj_new [1e-4; 1e-2] (GList [1; 0.2]) 0 1 = Ok o /\
  now_holds [1e-4; 1e-2] (GList [1; 0.2]) [SetStrains [1e-5; 1e-4; 1e-3]; SetValues (GRows [[1]; [0.5; 0.4]; [0.1]]); SetValues (GList [1; 0.5; 0.1])]
    [1e-5; 1e-4; 1e-3] (GList [1; 0.5; 0.1]).
Proof.
  eexists. split; [reflexivity|].
  apply (nh_values _ _ [_; _] _ (GList [1; 0.2])); [|exact I]. apply (nh_rejected _ _ [_]).
  - apply (nh_strains _ _ [] [1e-4; 1e-2]). constructor.
  - intros [m H]. inversion H as [|? ? H1 H2]; subst. inversion H2 as [|? ? H3 _]; subst. discriminate.
Qed.

(** C153: an assignment raises only for rows of different lengths, with ValueError, and
    leaves the curve as it was. *)
Theorem C153_rejected : forall o e x,
  snd (obj_edit o e) = Some x -> exists g, e = SetValues g /\ ~ accepted g /\ x = ValueError /\ fst (obj_edit o e) = o.
Proof. exact edit_raises. Qed.
Print Assumptions C153_rejected.
Example C153_rejected_ex : exists o, obj_new [1e-4; 1e-2] (GList [1; 0.2]) 0 1 = Ok o /\
  snd (obj_edit o (SetValues (GRows [[1]; [0.5; 0.4]]))) = Some ValueError.
Proof. eexists. split; reflexivity. Qed.

(** C153: with one column of values the object answers like the curve of the other
    properties: a number for a number, and for an array the values at all its strains.
    *)
Theorem C153_curve : forall ss vs lo hi o id,
  obj_new ss (GList vs) lo hi = Ok o ->
  (forall s, obj_call o (One s) = bind (curve_call (mkCurve id ss vs lo hi) s) (fun v => Ok (ANum v))) /\
  (forall xs, length ss = length vs -> ss <> [] -> exists ys, obj_call o (Many xs) = Ok (AArr ys) /\
     Forall2 (fun x y => curve_call (mkCurve id ss vs lo hi) x = Ok y) xs ys).
Proof. exact object_curve. Qed.
Print Assumptions C153_curve.
Example C153_curve_ex : exists o ys, obj_new [1e-4; 1e-2] (GList [1; 0.2]) 0 1 = Ok o /\ obj_call o (Many [1e-4; 1e-3; 1]) = Ok (AArr ys) /\ length ys = 3%nat.
Proof.
  eexists. destruct (proj2 (object_curve [1e-4; 1e-2] [1; 0.2] 0 1 _ 0 eq_refl) [1e-4; 1e-3; 1] eq_refl ltac:(discriminate)) as (ys & H & F).
  exists ys. split; [reflexivity|]. split; [exact H|]. inversion F; subst. inversion H4; subst. inversion H6; subst. inversion H8; subst. reflexivity.
Qed.

(** C154: asked for one strain, a curve with several columns answers with one number per
    column, each that of the curve of this column. *)
Theorem C154_columns_partial : forall ss rows lo hi m id,
  rectangular m rows -> length ss = length rows -> ss <> [] ->
  exists o, obj_new ss (GRows rows) lo hi = Ok o /\ forall s, exists ys, obj_call o (One s) = Ok (AArr ys) /\ length ys = m /\
    forall j vs y, Forall2 (fun r v => nth_error r j = Some v) rows vs -> nth_error ys j = Some y ->
      curve_call (mkCurve id ss vs lo hi) s = Ok y.
Proof. exact columns_are_curves. Qed.
Print Assumptions C154_columns_partial.
Example C154_columns_ex : exists o ys, obj_new [1e-4; 1e-2] (GRows [[1; 0.5]; [0.2; 0.25]]) 0 1 = Ok o /\ obj_call o (One 1e-3) = Ok (AArr ys) /\ length ys = 2%nat.
Proof.
  assert (RR : rectangular 2 [[1; 0.5]; [0.2; 0.25]]) by (repeat constructor).
  destruct (columns_are_curves [1e-4; 1e-2] _ 0 1 2 0 RR eq_refl ltac:(discriminate)) as (o & N & H).
  destruct (H 1e-3) as (ys & C & L & _). now exists o, ys.
Qed.

(** C154: asked for several strains, a curve with several columns answers for the first
    one only. *)
Theorem C154_first_only : forall ss rows lo hi o s rest m,
  rectangular m rows -> length ss = length rows -> ss <> [] ->
  obj_new ss (GRows rows) lo hi = Ok o -> obj_call o (Many (s :: rest)) = obj_call o (One s).
Proof. exact first_strain_only. Qed.
Print Assumptions C154_first_only.
Example C154_first_ex : exists o, obj_new [1e-4; 1e-2] (GRows [[1; 0.5]; [0.2; 0.25]]) 0 1 = Ok o /\ rectangular 2 [[1; 0.5]; [0.2; 0.25]].
Proof. eexists. split; [reflexivity|]. repeat constructor. Qed.

(** C154: so the answers for two strains need not contain the one for the second. *)
Theorem C154_refuted : exists ss rows lo hi o s t vs, rectangular 2 rows /\ length ss = length rows /\ obj_new ss (GRows rows) lo hi = Ok o /\
  obj_call o (Many [s; t]) = Ok (AArr vs) /\ obj_call o (Many [s; s]) = Ok (AArr vs) /\ obj_call o (One t) <> Ok (AArr vs).
Proof. exact strains_ignored. Qed.
Print Assumptions C154_refuted.
