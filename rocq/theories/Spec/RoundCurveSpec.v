(** What is expected of curves evaluated with binary64 numbers. *)
From Verif Require Import Common Model.Curve Model.Rounded Spec.CurveSpec Spec.RoundSpec.
Local Open Scope R_scope.

(** A logarithm that returns binary64 numbers and never decreases. *)
Definition float_log (lg : R -> R) : Prop :=
  (forall x, 0 < x -> is_b64 (lg x)) /\ (forall x y, 0 < x -> x <= y -> lg x <= lg y).

(** A usable table of binary64 values whose strains are far enough apart to have
    different computed logarithms, with limits that allow some value. *)
Definition float_table (lg : R -> R) (c : curve) : Prop :=
  good_table (c_strains c) (c_values c) /\ Forall is_b64 (c_values c) /\ c_lo c <= c_hi c /\
  (forall i s0 s1, nth_error (c_strains c) i = Some s0 -> nth_error (c_strains c) (S i) = Some s1 -> lg s0 < lg s1).

(** The straight line between two points, with the computed logarithms. *)
Definition chord_in (lg : R -> R) (s0 v0 s1 v1 s : R) : R :=
  v0 + (v1 - v0) * ((lg s - lg s0) / (lg s1 - lg s0)).

(** The smallest positive binary64 number. *)
Definition tiny : R := / 2 ^ 1074.

(** A table of fractions whose computed logarithms are at most 1024 apart (those of two
    binary64 numbers are). *)
Definition fraction_table (lg : R -> R) (c : curve) : Prop :=
  float_table lg c /\ Forall (fun v => 0 <= v <= 1) (c_values c) /\
  (forall s s', In s (c_strains c) -> In s' (c_strains c) -> lg s' - lg s <= 1024).
