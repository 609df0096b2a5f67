(** Straight lines through successive points and the area below them. *)
From Coq Require Import Reals List.
From Coquelicot Require Import Coquelicot.
Import ListNotations.
Local Open Scope R_scope.

(** Every entry is smaller than the next. *)
Definition ascending (xs : list R) : Prop :=
  forall i x y, nth_error xs i = Some x -> nth_error xs (S i) = Some y -> x < y.

(** [g] is the straight line between successive points. *)
Definition polyline (g : R -> R) (pts : list (R * R)) : Prop :=
  forall i x y x' y', nth_error pts i = Some (x, y) -> nth_error pts (S i) = Some (x', y') ->
  forall t, x <= t <= x' -> g t = y + (y' - y) * (t - x) / (x' - x).

(** [A] is the area between the axis and the straight lines through the points. *)
Definition area_below (pts : list (R * R)) (A : R) : Prop :=
  exists g, polyline g pts /\
    is_RInt (V := R_CompleteNormedModule) g (fst (hd (0, 0) pts)) (fst (last pts (0, 0))) A.
