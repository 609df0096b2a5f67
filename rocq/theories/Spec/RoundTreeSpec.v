(** Logic trees whose weights are binary64 numbers. *)
From Coq Require Import Qreals.
From Verif Require Import Common Model.LogicTree Model.Rounded.
Local Open Scope R_scope.

(** Weights are binary64 numbers and at most 1. *)
Definition float_weights (nodes : list node) : Prop :=
  Forall (fun n => Forall (fun a => is_b64 (Q2R (a_weight a)) /\ Qle (a_weight a) 1) (n_alts n)) nodes.

(** A weight far from the smallest numbers. *)
Definition ordinary_weight (b : branch) : Prop := / 2 ^ 1000 <= Q2R (branch_weight b).
