(** Soils that a small strain does not change: each curve starts at the small-strain value
    and the strain does not exceed its first tabulated strain. *)
From Verif Require Import Common Model.Curve Model.Layer Spec.CurveSpec.
Local Open Scope R_scope.

(** A usable curve whose first point is ([s0], [v0]), with a value the limits allow, and
    whose first strain is not below the floor 1e-9. *)
Definition begins_at (c : curve) (s0 v0 : R) : Prop :=
  good_table (c_strains c) (c_values c) /\ point (c_strains c) (c_values c) 0 s0 v0 /\
  1e-9 <= s0 /\ c_lo c <= v0 <= c_hi c.

(** The modulus curve begins at 1 and both curves begin at strains of at least [e]. *)
Definition unaffected_below (s : soil) (e : R) : Prop :=
  (forall c, s_mod s = Some c -> exists s0, begins_at c s0 1 /\ e <= s0) /\
  (forall c, s_damp s = DCurve c -> exists s0 v0, begins_at c s0 v0 /\ e <= s0).
