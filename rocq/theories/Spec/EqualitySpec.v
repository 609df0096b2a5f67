(** When two layers are equal: the same kind of soil type with the same name, unit
    weight and curves, the same thickness and the same initial velocity. *)
From Verif Require Import Common Model.Curve Model.Layer.
Local Open Scope R_scope.

(** Curves are equal only if they are the same object; numbers by value. *)
Inductive same_modulus : option curve -> option curve -> Prop :=
| sm_none : same_modulus None None
| sm_curve c d : c_id c = c_id d -> same_modulus (Some c) (Some d).
Inductive same_damping_data : damping_spec -> damping_spec -> Prop :=
| sd_number x : same_damping_data (DConst x) (DConst x)
| sd_curve c d : c_id c = c_id d -> same_damping_data (DCurve c) (DCurve d).
Definition equal_soils (s t : soil) : Prop :=
  s_class s = s_class t /\ s_name s = s_name t /\ s_unit_wt s = s_unit_wt t /\
  same_modulus (s_mod s) (s_mod t) /\ same_damping_data (s_damp s) (s_damp t).
Definition equal_layers (a b : layer) : Prop :=
  equal_soils (l_soil a) (l_soil b) /\ l_thick a = l_thick b /\ l_vs a = l_vs b.
