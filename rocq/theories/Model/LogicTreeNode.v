(** The container methods of Node and Branch (logic_tree.py). *)
From Verif Require Import Common Model.LogicTree.
Local Open Scope Q_scope.

(** Node.__init__ with __post_init__, logic_tree.py:160-166: an item is an alternative or a
    value, which becomes an alternative with the defaults of lines 102-105. *)
Definition node_new (name : string) (items : list (alternative + value)) : node :=
  mkNode name (map (fun it => match it with inl a => a | inr v => mkAlt v 1 [] [] end) items).
(** Node.__len__, logic_tree.py:168-169 *)
Definition node_len (n : node) : nat := List.length (n_alts n).
(** Node.__getitem__, logic_tree.py:171-172, for an integer index. *)
Definition node_getitem (n : node) (i : Z) : res alternative :=
  match py_index i (List.length (n_alts n)) with
  | None => Err IndexError
  | Some k => match nth_error (n_alts n) k with Some a => Ok a | None => Err IndexError end
  end.
(** Node.options, logic_tree.py:217-227 *)
Definition node_options (n : node) : list value := map a_value (n_alts n).
(** Node.to_xarray, logic_tree.py:201-215: the data, and the coordinates of its dimension. *)
Definition node_to_xarray (n : node) : list Q * list value :=
  (map a_weight (n_alts n), map a_value (n_alts n)).

(** Branch.__getitem__, __contains__ and value, logic_tree.py:333-340 and 354-368 *)
Definition branch_getitem (b : branch) (k : string) : res realization := dict_get b k.
Definition branch_contains (b : branch) (k : string) : bool := existsb (fun p => String.eqb (fst p) k) b.
Definition branch_value (b : branch) (k : string) : res value := bind (dict_get b k) (fun r => Ok (r_value r)).
