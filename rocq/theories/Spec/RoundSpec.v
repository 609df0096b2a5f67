(** What is expected of layered geometry computed with binary64 numbers. *)
From Verif Require Import Common Model.Layer Model.Rounded Spec.ProfileSpec.
Local Open Scope R_scope.

(** Half the distance between 1 and the next binary64 number. *)
Definition half_ulp : R := / 2 ^ 53.

(** The first layer starts at 0 and every other layer where the one above ends,
    correctly rounded. *)
Definition stacked (ls : list layer) : Prop :=
  (forall l rest, ls = l :: rest -> l_depth l = 0) /\
  forall above a b below, ls = above ++ a :: b :: below -> l_depth b = b64 (l_depth a + l_thick a).

(** The vertical stress at the top of every layer, accumulated in the same way. *)
Definition stress_stacked (ls : list layer) : Prop :=
  (forall l rest, ls = l :: rest -> l_svert l = 0) /\
  forall above a b below, ls = above ++ a :: b :: below ->
    l_svert b = b64 (l_svert a + b64 (l_thick a * s_unit_wt (l_soil a))).

(** Relative error of [n] roundings. *)
Definition roundings (n : nat) : R := (1 + half_ulp) ^ n - 1.
Definition within_error (n : nat) (computed exact : R) : Prop :=
  Rabs (computed - exact) <= roundings n * exact.

(** A product that is zero or far from the smallest numbers. *)
Definition no_underflow (x : R) : Prop := x = 0 \/ / 2 ^ 1022 <= Rabs x.

(** Numbers in increasing order. *)
Definition increasing (xs : list R) : Prop :=
  forall above a b below, xs = above ++ a :: b :: below -> a < b.

(** How many of the depths lie above [d]. *)
Definition count_above (d : R) (xs : list R) : nat := length (filter (fun x => Rltb x d) xs).
