(** logic_tree.py.  Float values and weights are rationals, so the model runs.
    Values are the kinds named by AlternativeValueType (logic_tree.py:13) and lists of
    strings, which a JSON file gives instead of tuples; NaN, booleans and empty tuples or
    lists are left out. *)
From Coq Require Export QArith String.
From Coq Require Import Qabs.
From Verif Require Import Common.
Local Open Scope Q_scope.

Inductive value : Type :=
| VStr (s : string)
| VInt (z : Z)
| VFloat (q : Q)
| VTuple (l : list string)
| VList (l : list string).

(** What [requires] and [excludes] hold for a node: one value, or a list. *)
Inductive reference : Type :=
| RVal (v : value)
| RList (l : list value).

(** Python's [==] between two values: numbers compare by value. *)
Definition num (v : value) : option Q :=
  match v with VInt z => Some (inject_Z z) | VFloat q => Some q | _ => None end.
Definition list_string_eqb (a b : list string) : bool :=
  if list_eq_dec string_dec a b then true else false.
Definition value_eqb (a b : value) : bool :=
  match num a, num b with
  | Some x, Some y => Qeq_bool x y
  | None, None =>
      match a, b with
      | VStr s, VStr t => String.eqb s t
      | VTuple l, VTuple m => list_string_eqb l m
      | VList l, VList m => list_string_eqb l m
      | _, _ => false
      end
  | _, _ => false
  end.

(** [np.isclose(a, b)], [|a - b| <= 1e-8 + 1e-5 * |b|]. *)
Definition qisclose (a b : Q) : bool :=
  Qle_bool (Qabs (a - b)) ((1 # 100000000) + (1 # 100000) * Qabs b).

(** [matches], logic_tree.py:59-66 and 123-130.  [np.isclose] rejects strings and
    tuples or lists of strings with a TypeError. *)
Definition matches (ref : reference) (check : value) : res bool :=
  match ref with
  | RList l => Ok (existsb (fun v => value_eqb v check) l)
  | RVal (VFloat q) =>
      match num check with
      | Some x => Ok (qisclose q x)
      | None => Err TypeError
      end
  | RVal (VList l) => Ok (existsb (fun v => value_eqb v check) (map VStr l))
  | RVal v => Ok (value_eqb v check)
  end.

(** Dictionaries keyed by node name, in insertion order. *)
Definition conds := list (string * reference).

(** logic_tree.py:16-42 (Realization, [params] left out). *)
Record realization := mkReal {
  r_name : string; r_value : value; r_weight : Q; r_requires : conds; r_excludes : conds }.
(** logic_tree.py:83-106 (Alternative, [params] left out). *)
Record alternative := mkAlt {
  a_value : value; a_weight : Q; a_requires : conds; a_excludes : conds }.
(** logic_tree.py:147-161 (Node). *)
Record node := mkNode { n_name : string; n_alts : list alternative }.

(** Branch.params (logic_tree.py:331): dictionary from name to realization.
    Assigning an existing key keeps its position (Python dict). *)
Definition branch := list (string * realization).
Fixpoint dict_set {A} (d : list (string * A)) (k : string) (v : A) : list (string * A) :=
  match d with
  | [] => [(k, v)]
  | (k', v') :: rest =>
      if String.eqb k' k then (k', v) :: rest else (k', v') :: dict_set rest k v
  end.
Fixpoint dict_get {A} (d : list (string * A)) (k : string) : res A :=
  match d with
  | [] => Err KeyError
  | (k', v) :: rest => if String.eqb k' k then Ok v else dict_get rest k
  end.

(** [all(matches(v, branch[k].value) for k, v in d.items())]: stops at the first
    False, or at the first exception (logic_tree.py:72 and 76-78). *)
Fixpoint all_match (b : branch) (d : conds) : res bool :=
  match d with
  | [] => Ok true
  | (k, ref) :: rest =>
      bind (dict_get b k) (fun r =>
      bind (matches ref (r_value r)) (fun m =>
      if m then all_match b rest else Ok false))
  end.

(** Realization.is_valid, logic_tree.py:44-80 (Alternative.is_valid, 108-144, is
    the same text). *)
Definition real_is_valid (r : realization) (b : branch) : res bool :=
  bind (match r_requires r with [] => Ok true | d => all_match b d end) (fun okay =>
  if okay then
    match r_excludes r with
    | [] => Ok true
    | d => bind (all_match b d) (fun m => Ok (negb m))
    end
  else Ok false).

(** Node.__iter__, logic_tree.py:194-199. *)
Definition node_iter (n : node) : list realization :=
  map (fun a => mkReal (n_name n) (a_value a) (a_weight a) (a_requires a) (a_excludes a))
    (filter (fun a => negb (Qle_bool (a_weight a) 0)) (n_alts n)).

(** Node.by_value, logic_tree.py:174-192: the first match, or None.  For a float
    argument [np.isclose(a.value, value)] raises TypeError on strings, tuples and lists. *)
Definition by_value_test (a : alternative) (v : value) : res bool :=
  bind (match v with
        | VFloat q =>
            match num (a_value a) with
            | Some x => Ok (qisclose x q)
            | None => Err TypeError
            end
        | _ => Ok false
        end) (fun close => Ok (close || value_eqb (a_value a) v)).
Fixpoint by_value (alts : list alternative) (v : value) : res (option alternative) :=
  match alts with
  | [] => Ok None
  | a :: rest => bind (by_value_test a v) (fun m => if m then Ok (Some a) else by_value rest v)
  end.

(** [itertools.product]: the last factor varies fastest. *)
Fixpoint product {A} (ls : list (list A)) : list (list A) :=
  match ls with
  | [] => [[]]
  | l :: rest => flat_map (fun x => map (cons x) (product rest)) l
  end.

(** [Branch({r.name: r for r in reals})], logic_tree.py:401. *)
Definition branch_of (reals : list realization) : branch :=
  fold_left (fun d r => dict_set d (r_name r) r) reals [].

(** Branch.weight, logic_tree.py:342-352. *)
Definition branch_weight (b : branch) : Q := fold_left (fun acc p => acc * r_weight (snd p)) b 1.

(** Branch.as_dict, logic_tree.py:370-379. *)
Definition as_dict (b : branch) : list (string * value) := map (fun p => (fst p, r_value (snd p))) b.

(** [tuple(sorted(...))] of the (name, value) pairs, logic_tree.py:404; names are
    distinct, so only names are compared. *)
Fixpoint ins_key (p : string * value) (l : list (string * value)) : list (string * value) :=
  match l with
  | [] => [p]
  | q :: rest => if String.leb (fst p) (fst q) then p :: l else q :: ins_key p rest
  end.
Definition branch_key (b : branch) : list (string * value) := fold_right ins_key [] (as_dict b).

(** Equality of two such keys (elements of the set [seen_branches]). *)
Fixpoint key_eqb (a b : list (string * value)) : bool :=
  match a, b with
  | [], [] => true
  | (k, v) :: a', (k', v') :: b' => String.eqb k k' && value_eqb v v' && key_eqb a' b'
  | _, _ => false
  end.

(** LogicTree.is_valid, logic_tree.py:409-428. *)
Fixpoint all_valid (b : branch) (rs : list (string * realization)) : res bool :=
  match rs with
  | [] => Ok true
  | (_, r) :: rest => bind (real_is_valid r b) (fun ok => if ok then all_valid b rest else Ok false)
  end.
Definition tree_is_valid (b : branch) : res bool := all_valid b b.

(** Whether [hash] accepts a value. *)
Definition hashable (v : value) : bool := match v with VList _ => false | _ => true end.

(** LogicTree.__iter__, logic_tree.py:395-407: the branches yielded, and the
    exception that ended the iteration, if any; [branch_key not in seen_branches] hashes
    the values. *)
Fixpoint iter_loop (seen : list (list (string * value))) (todo : list (list realization))
  : list branch * option exn :=
  match todo with
  | [] => ([], None)
  | reals :: rest =>
      let b := branch_of reals in
      match tree_is_valid b with
      | Err e => ([], Some e)
      | Ok false => iter_loop seen rest
      | Ok true =>
          let k := branch_key b in
          if negb (forallb (fun p => hashable (snd p)) k) then ([], Some TypeError)
          else if existsb (key_eqb k) seen then iter_loop seen rest
          else let (bs, e) := iter_loop (k :: seen) rest in (b :: bs, e)
      end
  end.
Definition tree_iter (nodes : list node) : list branch * option exn :=
  iter_loop [] (product (map node_iter nodes)).

(** LogicTree.__getitem__, logic_tree.py:430-433: the first node of that name, or None. *)
Definition tree_get (nodes : list node) (k : string) : option node :=
  find (fun n => String.eqb (n_name n) k) nodes.

(** Node.from_miller_rice, logic_tree.py:246-317: (fraction, weight) in millionths. *)
Definition miller_rice_data (n : nat) : option (list (Z * Z)) :=
  match n with
  | 2%nat => Some [(166667, 500000); (833333, 500000)]
  | 3%nat => Some [(84669, 247614); (500000, 504771); (915331, 247614)]
  | 4%nat => Some [(51621, 150361); (312208, 349639); (687792, 349639); (948379, 150361)]
  | 5%nat => Some [(34893, 101080); (211702, 244290); (500000, 309260); (788298, 244290);
                   (965107, 101080)]
  | 6%nat => Some [(25219, 72713); (152820, 178624); (371852, 248663); (628148, 248663);
                   (847180, 178624); (974781, 72713)]
  | 7%nat => Some [(19106, 54866); (115498, 135893); (285336, 198097); (500000, 222288);
                   (714664, 198097); (884502, 135893); (980894, 54866)]
  | 8%nat => Some [(14992, 42899); (90374, 106727); (225240, 159700); (403080, 190674);
                   (596920, 190674); (774760, 159700); (909626, 106727); (985008, 42899)]
  | 9%nat => Some [(12086, 34479); (72658, 85990); (182090, 130813); (330161, 162023);
                   (500000, 173391); (669839, 162023); (817910, 130813); (927342, 85990);
                   (987914, 34479)]
  | 10%nat => Some [(9957, 28328); (59697, 70740); (150157, 108826); (274659, 138009);
                    (422152, 154097); (577848, 154097); (725341, 138009); (849843, 108826);
                    (940303, 70740); (990043, 28328)]
  | _ => None
  end%Z.
Definition from_miller_rice (name : string) (n : nat) : res node :=
  match miller_rice_data n with
  | None => Err KeyError
  | Some l =>
      Ok (mkNode name
            (map (fun p => mkAlt (VFloat (fst p # 1000000)) (snd p # 1000000) [] []) l))
  end.

(** ** Trees from JSON (logic_tree.py:224-240 and 435-460) *)

(** What [json.load] returns; the keys of an object are distinct. *)
Inductive json :=
| JNull
| JBool (b : bool)
| JInt (z : Z)
| JFloat (q : Q)
| JStr (s : string)
| JList (l : list json)
| JObj (d : list (string * json)).

(** The dataclasses store whatever they are given.  [None] stands for an object holding
    something that the types of this model do not describe. *)
Definition json_strings (l : list json) : option (list string) :=
  map_opt (fun j => match j with JStr s => Some s | _ => None end) l.
Definition json_value (j : json) : option value :=
  match j with
  | JStr s => Some (VStr s)
  | JInt z => Some (VInt z)
  | JFloat q => Some (VFloat q)
  | JList l => match json_strings l with Some ss => Some (VList ss) | None => None end
  | _ => None
  end.
Definition json_reference (j : json) : option reference :=
  match j with
  | JList l => match map_opt json_value l with Some vs => Some (RList vs) | None => None end
  | _ => match json_value j with Some v => Some (RVal v) | None => None end
  end.
Definition json_conds (j : json) : option conds :=
  match j with
  | JObj d => map_opt (fun p => match json_reference (snd p) with
                                | Some r => Some (fst p, r) | None => None end) d
  | _ => None
  end.
Definition json_weight (j : json) : option Q :=
  match j with JInt z => Some (inject_Z z) | JFloat q => Some q | _ => None end.

Definition alt_keys : list string := ["value"; "weight"; "requires"; "excludes"; "params"]%string.
(** The value of a keyword, or a default. *)
Definition keyword {A} (d : list (string * json)) (k : string) (f : json -> option A) (default : option A) : option A :=
  match dict_get d k with Ok j => f j | Err _ => default end.
(** [Alternative( **a )]: only keyword arguments of the dataclass are accepted, and [value]
    is required. *)
Definition alt_from_json (j : json) : res (option alternative) :=
  match j with
  | JObj d =>
      if negb (forallb (fun p => existsb (String.eqb (fst p)) alt_keys) d) then Err TypeError
      else match dict_get d "value" with
           | Err _ => Err TypeError
           | Ok v =>
               Ok (match json_value v, keyword d "weight" json_weight (Some 1),
                         keyword d "requires" json_conds (Some []), keyword d "excludes" json_conds (Some []) with
                   | Some v, Some w, Some r, Some e => Some (mkAlt v w r e)
                   | _, _, _, _ => None
                   end)
           end
  | _ => Err TypeError
  end%string.
(** [for a in d["alts"]]: of a list its items, of a string its characters, of an object
    its keys; the rest cannot be iterated. *)
Definition json_iter (j : json) : res (list json) :=
  match j with
  | JList l => Ok l
  | JStr s => Ok (map (fun c => JStr (String c EmptyString)) (list_ascii_of_string s))
  | JObj d => Ok (map (fun p => JStr (fst p)) d)
  | _ => Err TypeError
  end.
Fixpoint alts_from (js : list json) : res (list (option alternative)) :=
  match js with
  | [] => Ok []
  | j :: rest => bind (alt_from_json j) (fun a => bind (alts_from rest) (fun r => Ok (a :: r)))
  end.
(** Node.from_dict, logic_tree.py:224-240. *)
Definition node_from_json (j : json) : res (option node) :=
  match j with
  | JObj d =>
      bind (dict_get d "name") (fun name =>
      bind (dict_get d "alts") (fun alts =>
      bind (json_iter alts) (fun js =>
      bind (alts_from js) (fun os =>
      Ok (match name, map_opt (fun o => o) os with
          | JStr s, Some l => Some (mkNode s l)
          | _, _ => None
          end)))))
  | _ => Err TypeError
  end%string.
(** LogicTree.from_list, logic_tree.py:444-460; [Ok None] is a tree holding something that
    is not described here.  [from_json] passes the decoded file, which may also be an
    object or a string: its keys or characters cannot be subscripted with a string. *)
Fixpoint nodes_from (js : list json) : res (list (option node)) :=
  match js with
  | [] => Ok []
  | j :: rest => bind (node_from_json j) (fun n => bind (nodes_from rest) (fun r => Ok (n :: r)))
  end.
Definition from_list (j : json) : res (option (list node)) :=
  bind (json_iter j) (fun js =>
  bind (nodes_from js) (fun os => Ok (map_opt (fun o => o) os))).
