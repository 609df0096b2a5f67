(** Reading a stored profile at a depth. *)
From Verif Require Import Common.
Local Open Scope R_scope.

(** The value stored with the first reference at or below the depth; below all
    references, the last value. *)
Inductive reads : list R -> list R -> R -> R -> Prop :=
| reads_here x v xs vs z : z <= x -> reads (x :: xs) (v :: vs) z v
| reads_below x v xs vs z w : x < z -> reads xs vs z w -> reads (x :: xs) (v :: vs) z w
| reads_last x v z : x < z -> reads [x] [v] z v.
