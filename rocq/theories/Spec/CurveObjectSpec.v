(** What a user expects of a curve that is edited or has several columns. *)
From Verif Require Import Common Model.Curve Model.CurveObject.
Local Open Scope R_scope.

(** Rows of one length. *)
Definition rectangular (m : nat) (rows : list (list R)) : Prop := Forall (fun r => length r = m) rows.

(** An argument that numpy accepts as an array. *)
Definition accepted (g : given) : Prop :=
  match g with GList _ => True | GRows rows => exists m, rectangular m rows end.

(** The strains, and the accepted values, assigned last. *)
Inductive now_holds (ss : list R) (g : given) : list edit -> list R -> given -> Prop :=
| nh_start : now_holds ss g [] ss g
| nh_strains es ss1 g1 ss2 : now_holds ss g es ss1 g1 -> now_holds ss g (es ++ [SetStrains ss2]) ss2 g1
| nh_values es ss1 g1 g2 : now_holds ss g es ss1 g1 -> accepted g2 -> now_holds ss g (es ++ [SetValues g2]) ss1 g2
| nh_rejected es ss1 g1 g2 : now_holds ss g es ss1 g1 -> ~ accepted g2 -> now_holds ss g (es ++ [SetValues g2]) ss1 g1.
