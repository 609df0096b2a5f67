(** The same layers on other soil objects. *)
From Verif Require Import Common Model.Curve Model.Layer Model.Eql.
Local Open Scope R_scope.

Definition on_soil (f : soil -> soil) (l : layer) : layer :=
  mkLayer (f (l_soil l)) (l_thick l) (l_depth l) (l_svert l) (l_vs l) (l_dmin l) (l_G l) (l_D l) (l_strain l) (l_smax l) (l_prof l).
Definition step_on (f : soil -> soil) (st : eql_step) : eql_step :=
  mkStep (map (on_soil f) (st_layers st)) (st_limited st) (st_error st).
(** The two sets of layers have the same reported numbers. *)
Definition same_numbers (l l' : layer) : Prop :=
  shear_mod l' = shear_mod l /\ damping l' = damping l /\ strain l' = strain l /\ l_smax l' = l_smax l /\ l_thick l' = l_thick l.
