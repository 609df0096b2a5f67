(** Branch weights in binary64 arithmetic (logic_tree.py:342-352).  [np.prod] does not
    document the order in which it multiplies (and vectorised builds of numpy change it),
    so a reduction is any order and any grouping of rounded operations; so is the sum a
    user takes over the branches.  Numbers too large for binary64 do not occur, the
    weights being at most 1. *)
From Coq Require Import Qreals Permutation.
From Verif Require Import Common Model.LogicTree Model.Rounded.
Local Open Scope R_scope.

(** [x] results from combining the numbers of the list by [op], in some order. *)
Inductive reduction (op : R -> R -> R) : list R -> R -> Prop :=
| red_one x : reduction op [x] x
| red_join xs ys zs x y : Permutation zs (xs ++ ys) -> reduction op xs x -> reduction op ys y ->
    reduction op zs (op x y).

(** [np.prod(xs)], 1.0 for an empty list. *)
Definition np_prod (xs : list R) (p : R) : Prop :=
  xs = [] /\ p = 1 \/ reduction (fun x y => b64 (x * y)) xs p.
(** The sum of a list, 0.0 when empty. *)
Definition float_sum (xs : list R) (s : R) : Prop :=
  xs = [] /\ s = 0 \/ reduction (fun x y => b64 (x + y)) xs s.

(** Branch.weight, logic_tree.py:342-352. *)
Definition branch_weight_r (b : branch) (w : R) : Prop :=
  np_prod (map (fun p => Q2R (r_weight (snd p))) b) w.
