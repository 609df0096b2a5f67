(** Counting the branches of a logic tree. *)
From Coq Require Import QArith String.
From Verif Require Import Common Model.LogicTree.
Local Open Scope Q_scope.

(** The product over the nodes of a number of each. *)
Inductive product_of (f : node -> nat -> Prop) : list node -> nat -> Prop :=
| po_nil : product_of f nil 1
| po_cons n nodes k r : f n k -> product_of f nodes r -> product_of f (cons n nodes) (k * r).

(** [k] of the alternatives have a positive weight. *)
Inductive positives : list alternative -> nat -> Prop :=
| ps_nil : positives nil 0
| ps_in a l k : 0 < a_weight a -> positives l k -> positives (cons a l) (S k)
| ps_out a l k : a_weight a <= 0 -> positives l k -> positives (cons a l) k.
Definition positive_in (n : node) (k : nat) : Prop := positives (n_alts n) k.
Definition all_in (n : node) (k : nat) : Prop := k = List.length (n_alts n).
