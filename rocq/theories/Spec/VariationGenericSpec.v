(** What a keyword argument should do. *)
From Coq Require Import String.
From Verif Require Import Common Model.Layer Model.Variation Model.VariationGeneric.
Local Open Scope R_scope.
Local Open Scope string_scope.

(** Names given once, as in every Python call. *)
Definition once (kwds : kwargs) : Prop := NoDup (map fst kwds).
(** The number that a site class has for a name. *)
Inductive class_value (m : toro_vel) : string -> R -> Prop :=
| CV_ln_std : class_value m "ln_std" (tv_ln_std m)
| CV_rho_0 : class_value m "rho_0" (tv_rho_0 m)
| CV_delta : class_value m "delta" (tv_delta m)
| CV_rho_200 : class_value m "rho_200" (tv_rho_200 m)
| CV_h_0 : class_value m "h_0" (tv_h_0 m)
| CV_b : class_value m "b" (tv_b m).
Inductive toro_name : string -> Prop :=
| TN_class n : (exists m x, class_value m n x) -> toro_name n
| TN_bedrock : toro_name "vary_bedrock".
Definition given (kwds : kwargs) (n : string) : Prop := exists v, In (n, v) kwds.
