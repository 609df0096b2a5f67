(** Nearby analyses: frequency, layers and depths that differ little. *)
From Verif Require Import Common Model.Curve Model.Layer.
Local Open Scope R_scope.

(** Layers whose current modulus and damping, unit weight and thickness differ by less than [d]. *)
Definition near_layer (d : R) (a b : layer) : Prop :=
  Rabs (shear_mod a - shear_mod b) < d /\ Rabs (damping a - damping b) < d /\
  Rabs (s_unit_wt (l_soil a) - s_unit_wt (l_soil b)) < d /\ Rabs (l_thick a - l_thick b) < d.

(** Layers whose description (unit weight, velocity, minimum damping, thickness) differs by less than [d]. *)
Definition near_description (d : R) (a b : layer) : Prop :=
  Rabs (l_vs a - l_vs b) < d /\ Rabs (l_dmin a - l_dmin b) < d /\
  Rabs (s_unit_wt (l_soil a) - s_unit_wt (l_soil b)) < d /\ Rabs (l_thick a - l_thick b) < d.

(** Arrays of the same length whose entries differ by less than [eps]. *)
Definition near_array (eps : R) (xs ys : list R) : Prop := Forall2 (fun x y => Rabs (x - y) < eps) xs ys.
