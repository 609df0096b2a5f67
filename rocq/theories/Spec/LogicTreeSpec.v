(** What a logic tree means, stated on choices of one alternative per node. *)
From Coq Require Import QArith String Qabs.
From Verif Require Import Common Model.LogicTree.
Local Open Scope Q_scope.

(** Same value: equal numbers, equal strings, equal tuples or equal lists. *)
Inductive same_value : value -> value -> Prop :=
| sv_str s : same_value (VStr s) (VStr s)
| sv_tuple l : same_value (VTuple l) (VTuple l)
| sv_list l : same_value (VList l) (VList l)
| sv_num a b x y : numeric a x -> numeric b y -> x == y -> same_value a b
with numeric : value -> Q -> Prop :=
| nu_int z : numeric (VInt z) (inject_Z z)
| nu_float q : numeric (VFloat q) q.

(** A reference is met by a value. *)
Inductive meets : reference -> value -> Prop :=
| m_list l w v : In w l -> same_value w v -> meets (RList l) v
| m_close q v x : numeric v x -> Qabs (q - x) <= (1 # 100000000) + (1 # 100000) * Qabs x ->
    meets (RVal (VFloat q)) v
| m_listed l s v : In s l -> same_value (VStr s) v -> meets (RVal (VList l)) v
| m_same w v : (forall q, w <> VFloat q) -> (forall l, w <> VList l) -> same_value w v -> meets (RVal w) v.

(** A choice: for each node (by name) the alternative chosen. *)
Definition choice := list (string * alternative).

(** One alternative of positive weight per node, in node order. *)
Definition choice_of (nodes : list node) (c : choice) : Prop :=
  Forall2 (fun n p => fst p = n_name n /\ In (snd p) (n_alts n) /\ 0 < a_weight (snd p)) nodes c.

(** The condition [k: ref] holds in the choice. *)
Definition cond_holds (c : choice) (kr : string * reference) : Prop :=
  exists a, In (fst kr, a) c /\ meets (snd kr) (a_value a).

(** An alternative is valid: all its requirements hold and, if it has exclusions,
    they do not all hold. *)
Definition alt_valid (c : choice) (a : alternative) : Prop :=
  (forall kr, In kr (a_requires a) -> cond_holds c kr) /\
  (a_excludes a <> [] -> ~ (forall kr, In kr (a_excludes a) -> cond_holds c kr)).
Definition choice_valid (c : choice) : Prop := forall k a, In (k, a) c -> alt_valid c a.

(** Two choices give every node the same value. *)
Definition same_values (c d : choice) : Prop :=
  Forall2 (fun p q => fst p = fst q /\ same_value (a_value (snd p)) (a_value (snd q))) c d.

(** Position vectors, compared like words. *)
Inductive lex_lt : list nat -> list nat -> Prop :=
| lex_here i j u v : (i < j)%nat -> lex_lt (i :: u) (j :: v)
| lex_later i u v : lex_lt u v -> lex_lt (i :: u) (i :: v).

(** The choice at given positions in the nodes. *)
Definition at_positions (nodes : list node) (ix : list nat) (c : choice) : Prop :=
  List.length ix = List.length nodes /\ List.length c = List.length nodes /\
  forall k n i, nth_error nodes k = Some n -> nth_error ix k = Some i ->
    exists a, nth_error (n_alts n) i = Some a /\ nth_error c k = Some (n_name n, a).

(** Conditions are well formed: they name nodes of the tree, and float references
    are only compared with numbers. *)
Definition comparable (r : reference) (v : value) : Prop :=
  match r with RVal (VFloat _) => exists x, numeric v x | _ => True end.
Definition cond_wf (nodes : list node) (kr : string * reference) : Prop :=
  exists n, In n nodes /\ n_name n = fst kr /\
    forall a, In a (n_alts n) -> comparable (snd kr) (a_value a).
(** Values are strings, numbers or tuples. *)
Definition no_lists (n : node) : Prop := forall a l, In a (n_alts n) -> a_value a <> VList l.
Definition tree_wf (nodes : list node) : Prop :=
  NoDup (map n_name nodes) /\ Forall no_lists nodes /\
  forall n a, In n nodes -> In a (n_alts n) ->
    forall kr, In kr (a_requires a) \/ In kr (a_excludes a) -> cond_wf nodes kr.

(** What the user sees of a yielded branch. *)
Definition shows (b : branch) (c : choice) : Prop :=
  Forall2 (fun p q => fst p = fst q /\ r_name (snd p) = fst q /\
                      r_value (snd p) = a_value (snd q) /\ r_weight (snd p) = a_weight (snd q) /\
                      r_requires (snd p) = a_requires (snd q) /\
                      r_excludes (snd p) = a_excludes (snd q)) b c.

Fixpoint Qprod (l : list Q) : Q := match l with [] => 1 | x :: r => x * Qprod r end.
Fixpoint Qsum (l : list Q) : Q := match l with [] => 0 | x :: r => x + Qsum r end.

(** A condition fails, names a node that is not in the choice, or compares a float
    with something that is not a number. *)
Definition cond_fails (c : choice) (kr : string * reference) : Prop :=
  exists a, In (fst kr, a) c /\ comparable (snd kr) (a_value a) /\ ~ meets (snd kr) (a_value a).
Definition cond_missing (c : choice) (kr : string * reference) : Prop := ~ In (fst kr) (map fst c).
Definition cond_incomparable (c : choice) (kr : string * reference) : Prop :=
  exists a, In (fst kr, a) c /\ ~ comparable (snd kr) (a_value a).

(** The first condition of a list that does not hold. *)
Definition first_problem (c : choice) (d : conds) (kr : string * reference) : Prop :=
  exists pre post, d = pre ++ kr :: post /\ Forall (cond_holds c) pre /\ ~ cond_holds c kr.

(** Weight of the alternatives that can be used after the choices [c]. *)
Inductive usable_weight (c : choice) : list alternative -> Q -> Prop :=
| uw_nil : usable_weight c [] 0
| uw_use a l s : 0 < a_weight a -> alt_valid c a -> usable_weight c l s ->
    usable_weight c (a :: l) (a_weight a + s)
| uw_skip a l s : ~ (0 < a_weight a /\ alt_valid c a) -> usable_weight c l s ->
    usable_weight c (a :: l) s.

(** A tree whose conditions look at earlier nodes only, and which, after every valid
    choice for the earlier nodes, distributes a weight of 1 over different values of
    the next node. *)
Fixpoint complete (c : choice) (nodes : list node) : Prop :=
  match nodes with
  | [] => True
  | n :: rest =>
      (forall a kr, In a (n_alts n) -> 0 < a_weight a ->
         In kr (a_requires a) \/ In kr (a_excludes a) -> cond_holds c kr \/ cond_fails c kr) /\
      (choice_valid c ->
         (exists s, usable_weight c (n_alts n) s /\ s == 1) /\
         (forall i j a b, (i < j)%nat -> nth_error (n_alts n) i = Some a -> nth_error (n_alts n) j = Some b ->
            0 < a_weight a -> 0 < a_weight b -> alt_valid c a -> alt_valid c b ->
            ~ same_value (a_value a) (a_value b))) /\
      (forall a, In a (n_alts n) -> 0 < a_weight a -> complete (c ++ [(n_name n, a)]) rest)
  end.

(** ** Trees as JSON *)

Definition value_json (v : value) : json :=
  match v with
  | VStr s => JStr s
  | VInt z => JInt z
  | VFloat q => JFloat q
  | VTuple l | VList l => JList (map JStr l)
  end.
Definition reference_json (r : reference) : json :=
  match r with RVal v => value_json v | RList l => JList (map value_json l) end.
Inductive number_json : json -> Q -> Prop :=
| nj_int z : number_json (JInt z) (inject_Z z)
| nj_float q : number_json (JFloat q) q.
Inductive conds_json : json -> conds -> Prop :=
| cj_obj d : conds_json (JObj (map (fun kr => (fst kr, reference_json (snd kr))) d)) d.

(** A field of an object: written, or left out where the default is meant. *)
Definition field_json {A} (d : list (string * json)) (k : string) (writes : json -> A -> Prop)
    (default : A) (x : A) : Prop :=
  (exists j, In (k, j) d /\ writes j x) \/ (~ In k (map fst d) /\ x = default).
Definition alt_json (j : json) (a : alternative) : Prop :=
  exists d, j = JObj d /\ NoDup (map fst d) /\
    (forall k, In k (map fst d) -> In k ["value"; "weight"; "requires"; "excludes"; "params"]%string) /\
    In ("value"%string, value_json (a_value a)) d /\
    field_json d "weight" number_json 1 (a_weight a) /\
    field_json d "requires" conds_json [] (a_requires a) /\
    field_json d "excludes" conds_json [] (a_excludes a).
(** Other entries of a node are ignored. *)
Definition node_json (j : json) (n : node) : Prop :=
  exists d js, j = JObj d /\ NoDup (map fst d) /\ In ("name"%string, JStr (n_name n)) d /\
    In ("alts"%string, JList js) d /\ Forall2 alt_json js (n_alts n).
Definition tree_json (j : json) (nodes : list node) : Prop :=
  exists js, j = JList js /\ Forall2 node_json js nodes.

(** JSON has no tuples. *)
Definition untuple_value (v : value) : value := match v with VTuple l => VList l | v => v end.
Definition untuple_ref (r : reference) : reference :=
  match r with
  | RVal (VTuple l) | RVal (VList l) => RList (map VStr l)
  | RVal v => RVal v
  | RList l => RList (map untuple_value l)
  end.
Definition untuple_conds (d : conds) : conds := map (fun kr => (fst kr, untuple_ref (snd kr))) d.
Definition untuple_alt (a : alternative) : alternative :=
  mkAlt (untuple_value (a_value a)) (a_weight a) (untuple_conds (a_requires a)) (untuple_conds (a_excludes a)).
Definition untuple (n : node) : node := mkNode (n_name n) (map untuple_alt (n_alts n)).

(** Trees over strings and numbers. *)
Definition plain_value (v : value) : Prop := match v with VTuple _ | VList _ => False | _ => True end.
Definition plain_ref (r : reference) : Prop :=
  match r with RVal v => plain_value v | RList l => Forall plain_value l end.
Definition plain_alt (a : alternative) : Prop :=
  plain_value (a_value a) /\ Forall (fun kr => plain_ref (snd kr)) (a_requires a) /\
  Forall (fun kr => plain_ref (snd kr)) (a_excludes a).
Definition plain_tree (nodes : list node) : Prop := Forall (fun n => Forall plain_alt (n_alts n)) nodes.

(** What is wrong with an item that is not an alternative or not a node. *)
Inductive alt_problem : json -> Prop :=
| ap_kind j : (forall d, j <> JObj d) -> alt_problem j
| ap_key d k : In k (map fst d) -> ~ In k ["value"; "weight"; "requires"; "excludes"; "params"]%string ->
    alt_problem (JObj d)
| ap_value d : ~ In "value"%string (map fst d) -> alt_problem (JObj d).
Inductive node_problem : json -> exn -> Prop :=
| np_kind j : (forall d, j <> JObj d) -> node_problem j TypeError
| np_name d : ~ In "name"%string (map fst d) -> node_problem (JObj d) KeyError
| np_alts d : In "name"%string (map fst d) -> ~ In "alts"%string (map fst d) -> node_problem (JObj d) KeyError
| np_items d j : In "name"%string (map fst d) -> In ("alts"%string, j) d ->
    (forall l s o, j <> JList l /\ j <> JStr s /\ j <> JObj o) -> node_problem (JObj d) TypeError
| np_other d j : In "name"%string (map fst d) -> In ("alts"%string, j) d ->
    (exists c s, j = JStr (String c s)) \/ (exists p o, j = JObj (p :: o)) -> node_problem (JObj d) TypeError
| np_item d js j : In "name"%string (map fst d) -> In ("alts"%string, JList js) d -> In j js -> alt_problem j ->
    node_problem (JObj d) TypeError.

(** Keys of an object are distinct. *)
Definition distinct_keys (j : json) : Prop := forall d, j = JObj d -> NoDup (map fst d).

(** ** Lookup by value *)

(** The comparison is possible: a float is only compared with numbers. *)
Definition askable (v : value) (a : alternative) : Prop :=
  forall q, v = VFloat q -> exists x, numeric (a_value a) x.
(** An alternative is what a value asks for: the same value, or for a float a close number. *)
Definition asked (v : value) (a : alternative) : Prop :=
  same_value (a_value a) v \/
  exists q x, v = VFloat q /\ numeric (a_value a) x /\ Qabs (x - q) <= (1 # 100000000) + (1 # 100000) * Qabs q.
(** A node over numbers only, or without floats. *)
Definition uniform_values (n : node) : Prop :=
  (forall a, In a (n_alts n) -> exists x, numeric (a_value a) x) \/
  (forall a q, In a (n_alts n) -> a_value a <> VFloat q).
