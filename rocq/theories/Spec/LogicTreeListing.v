(** Conditions written as a value or as the list of that one value. *)
From Coq Require Import QArith String.
From Verif Require Import Common Model.LogicTree.

(** Replace references in the conditions of a tree and in the branches shown. *)
Definition with_conds (f : reference -> reference) (d : conds) : conds := map (fun p => (fst p, f (snd p))) d.
Definition with_alt f (a : alternative) : alternative :=
  mkAlt (a_value a) (a_weight a) (with_conds f (a_requires a)) (with_conds f (a_excludes a)).
Definition with_node f (n : node) : node := mkNode (n_name n) (map (with_alt f) (n_alts n)).
Definition with_real f (r : realization) : realization :=
  mkReal (r_name r) (r_value r) (r_weight r) (with_conds f (r_requires r)) (with_conds f (r_excludes r)).
Definition with_branch f (b : branch) : branch := map (fun p => (fst p, with_real f (snd p))) b.

(** Every single value that is no list is put into a list. *)
Definition listed (r : reference) : reference :=
  match r with RVal (VList l) => r | RVal v => RList [v] | RList l => r end.
(** Every list of strings becomes the Python list of these strings, which a file gives. *)
Definition no_float (r : reference) : Prop := forall q, r <> RVal (VFloat q).
Definition no_float_conds (n : node) : Prop :=
  forall a k r, In a (n_alts n) -> In (k, r) (a_requires a) \/ In (k, r) (a_excludes a) -> no_float r.
