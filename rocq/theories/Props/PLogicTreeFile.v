(** Properties C130-C132: logic trees from JSON, and lookups. *)
From Coq Require Import QArith String Qabs Sorted.
From Verif Require Import Common Model.LogicTree Spec.LogicTreeSpec Proof.LogicTreeFacts Proof.LogicTreeProps
  Proof.LogicTreeComplete Proof.LogicTreeFile.
Local Open Scope Q_scope.

(** A tree of two nodes with a weight, a condition on a list of values and a default weight. *)
Definition ft_tree : list node :=
  [mkNode "model" [mkAlt (VStr "darendeli") (3 # 5) [] []; mkAlt (VStr "menq") (2 # 5) [] []];
   mkNode "fact" [mkAlt (VFloat (1 # 2)) 1 [("model"%string, RList [VStr "menq"])] []; mkAlt (VInt 2) 1 [] []]].
Definition ft_json : json :=
  JList [JObj [("name", JStr "model");
               ("alts", JList [JObj [("value", JStr "darendeli"); ("weight", JFloat (3 # 5))];
                               JObj [("weight", JFloat (2 # 5)); ("value", JStr "menq")]])];
         JObj [("note", JNull); ("name", JStr "fact");
               ("alts", JList [JObj [("value", JFloat (1 # 2)); ("weight", JInt 1);
                                     ("requires", JObj [("model", JList [JStr "menq"])])];
                               JObj [("value", JInt 2)]])]]%string.
Lemma ft_written : tree_json ft_json ft_tree.
Proof.
  eexists. split; [reflexivity|].
  assert (K : forall l, (forall k, In k l -> In k alt_keys) -> forall k, In k l ->
     In k ["value"; "weight"; "requires"; "excludes"; "params"]%string) by auto.
  repeat apply Forall2_cons; try apply Forall2_nil.
  - eexists _, _. split; [reflexivity|]. split; [repeat constructor; cbn; intuition discriminate|].
    split; [now left|]. split; [right; now left|]. repeat apply Forall2_cons; try apply Forall2_nil.
    + eexists. split; [reflexivity|]. split; [repeat constructor; cbn; intuition discriminate|].
      split; [cbn; intuition|]. split; [now left|]. split; [left; eexists; split; [right; now left|constructor]|].
      split; right; cbn; (split; [intuition discriminate|reflexivity]).
    + eexists. split; [reflexivity|]. split; [repeat constructor; cbn; intuition discriminate|].
      split; [cbn; intuition|]. split; [right; now left|]. split; [left; eexists; split; [now left|constructor]|].
      split; right; cbn; (split; [intuition discriminate|reflexivity]).
  - eexists _, _. split; [reflexivity|]. split; [repeat constructor; cbn; intuition discriminate|].
    split; [right; now left|]. split; [right; right; now left|]. repeat apply Forall2_cons; try apply Forall2_nil.
    + eexists. split; [reflexivity|]. split; [repeat constructor; cbn; intuition discriminate|].
      split; [cbn; intuition|]. split; [now left|]. split; [left; eexists; split; [right; now left|apply (nj_int 1)]|].
      split; [left; eexists; split; [right; right; now left|]|right; cbn; split; [intuition discriminate|reflexivity]].
      apply (cj_obj [("model"%string, RList [VStr "menq"])]).
    + eexists. split; [reflexivity|]. split; [repeat constructor; cbn; intuition discriminate|].
      split; [cbn; intuition|]. split; [now left|].
      split; [|split]; right; cbn; (split; [intuition discriminate|reflexivity]).
Qed.
Lemma ft_plain : plain_tree ft_tree.
Proof. unfold plain_tree, plain_alt, ft_tree; cbn. repeat first [apply Forall_cons|apply Forall_nil|split|exact I]. Qed.

(** C130: reading the JSON of a tree (entries in any order, weights and conditions left
    out where they have their default, further entries of a node ignored) gives that
    tree, with lists in place of tuples. *)
Theorem C130_read : forall j nodes,
  tree_json j nodes -> from_list j = Ok (Some (map untuple nodes)).
Proof. exact tree_read. Qed.
Print Assumptions C130_read.
Example C130_read_ex : tree_json ft_json ft_tree. Proof. exact ft_written. Qed.

(** C130: a tree over strings and numbers is read back exactly. *)
Theorem C130_plain : forall j nodes,
  tree_json j nodes -> plain_tree nodes -> from_list j = Ok (Some nodes).
Proof. exact plain_read. Qed.
Print Assumptions C130_plain.
Example C130_plain_ex : tree_json ft_json ft_tree /\ plain_tree ft_tree /\ List.length (fst (tree_iter ft_tree)) = 3%nat.
Proof. split; [exact ft_written|]. split; [exact ft_plain|reflexivity]. Qed.

(** C130: a well-formed tree with a node whose positive-weight values are all tuples,
    written as JSON, is read without exception but yields no branch; if the tree read
    has a valid choice its iteration raises TypeError. *)
Theorem C130_tuples : forall j nodes n,
  tree_json j nodes -> tree_wf nodes -> In n nodes ->
  (forall a, In a (n_alts n) -> 0 < a_weight a -> exists l, a_value a = VTuple l) ->
  exists m, from_list j = Ok (Some m) /\ fst (tree_iter m) = [] /\
    ((exists c, choice_of m c /\ choice_valid c) -> tree_iter m = ([], Some TypeError)).
Proof. exact tuples_lost. Qed.
Print Assumptions C130_tuples.
Definition tup_tree : list node :=
  [mkNode "curves" [mkAlt (VTuple ["darendeli"; "menq"]%string) 1 [] []]].
Definition tup_json : json :=
  JList [JObj [("name", JStr "curves"); ("alts", JList [JObj [("value", JList [JStr "darendeli"; JStr "menq"])]])]]%string.
Example C130_tuples_ex : tree_json tup_json tup_tree /\ tree_wf tup_tree /\
  List.length (fst (tree_iter tup_tree)) = 1%nat /\ exists m, from_list tup_json = Ok (Some m) /\ tree_iter m = ([], Some TypeError).
Proof.
  split; [|split; [|split; [reflexivity|eexists; split; reflexivity]]].
  - eexists. split; [reflexivity|]. repeat apply Forall2_cons; try apply Forall2_nil.
    eexists _, _. split; [reflexivity|]. split; [repeat constructor; cbn; intuition discriminate|].
    split; [now left|]. split; [right; now left|]. repeat apply Forall2_cons; try apply Forall2_nil.
    eexists. split; [reflexivity|]. split; [repeat constructor; cbn; intuition|].
    split; [cbn; intuition|]. split; [now left|].
    split; [|split]; right; cbn; (split; [intuition discriminate|reflexivity]).
  - split; [repeat constructor; cbn; intuition|]. split.
    + apply Forall_cons; [|constructor]. intros a l [<-|[]]. discriminate.
    + intros n a [<-|[]] [<-|[]] kr [[]|[]].
Qed.

(** C130: in general a node whose positive-weight values are all lists leaves the tree
    without branches; with evaluable conditions and a valid choice the iteration raises
    TypeError. *)
Theorem C130_lists : forall nodes n,
  NoDup (map n_name nodes) -> In n nodes ->
  (forall a, In a (n_alts n) -> 0 < a_weight a -> exists l, a_value a = VList l) ->
  fst (tree_iter nodes) = [] /\
  ((forall n a, In n nodes -> In a (n_alts n) ->
      forall kr, In kr (a_requires a) \/ In kr (a_excludes a) -> cond_wf nodes kr) ->
   (exists c, choice_of nodes c /\ choice_valid c) -> tree_iter nodes = ([], Some TypeError)).
Proof. exact lists_yield_nothing. Qed.
Print Assumptions C130_lists.
Example C130_lists_ex : In (mkNode "A" [mkAlt (VList ["p"]%string) 1 [] []]) [mkNode "A" [mkAlt (VList ["p"]%string) 1 [] []]] /\
  tree_iter [mkNode "A" [mkAlt (VList ["p"]%string) 1 [] []]] = ([], Some TypeError).
Proof. split; [now left|reflexivity]. Qed.

(** C130: so a well-formed tree and its JSON do not have the same branches in general
    (the documentation uses tuples for values). *)
Theorem C130_refuted : ~ (forall j nodes, tree_json j nodes -> tree_wf nodes ->
       exists m, from_list j = Ok (Some m) /\ tree_iter m = tree_iter nodes).
Proof. exact tuples_lost_plainly. Qed.
Print Assumptions C130_refuted.

(** C131: reading a list of items fails exactly when some item is not a node, with the
    exception of the first such item: KeyError for a missing name or list of
    alternatives, TypeError for an item that is not an object, alternatives that cannot
    be iterated, an alternative that is not an object, has an unknown key or has no
    value. *)
Theorem C131_problem : forall js e,
  Forall distinct_keys js ->
  (from_list (JList js) = Err e <->
   exists pre j post, js = pre ++ j :: post /\ node_problem j e /\ forall i e', In i pre -> ~ node_problem i e').
Proof. exact tree_problem. Qed.
Print Assumptions C131_problem.
Example C131_ex : from_list (JList [JObj [("name", JStr "A"); ("alts", JList [])]; JObj [("name", JStr "B")]; JNull])%string = Err KeyError /\
  from_list (JList [JObj [("name", JStr "A"); ("alts", JList [JObj [("value", JInt 1); ("wt", JInt 1)]])]])%string = Err TypeError.
Proof. split; reflexivity. Qed.

(** C132: by_value returns the first alternative asked for, if it and all earlier ones
    can be compared with the value. *)
Theorem C132_first : forall alts v a,
  by_value alts v = Ok (Some a) <->
  exists pre post, alts = pre ++ a :: post /\ askable v a /\ asked v a /\
    Forall (fun b => askable v b /\ ~ asked v b) pre.
Proof. exact by_value_first. Qed.
Print Assumptions C132_first.
Example C132_first_ex : by_value [mkAlt (VStr "p") 1 [] []; mkAlt (VInt 2) 1 [] []] (VInt 2) = Ok (Some (mkAlt (VInt 2) 1 [] [])).
Proof. reflexivity. Qed.

(** C132: it returns None exactly when all alternatives can be compared and none is
    asked for. *)
Theorem C132_none : forall alts v,
  by_value alts v = Ok None <-> Forall (fun b => askable v b /\ ~ asked v b) alts.
Proof. exact by_value_none. Qed.
Print Assumptions C132_none.
Example C132_none_ex : by_value [mkAlt (VFloat (1 # 2)) 1 [] []; mkAlt (VInt 2) 1 [] []] (VFloat (3 # 4)) = Ok None.
Proof. reflexivity. Qed.

(** C132: it raises TypeError exactly when a float meets an alternative that is not a
    number before the one asked for. *)
Theorem C132_error : forall alts v e,
  by_value alts v = Err e <->
  e = TypeError /\ exists pre b post, alts = pre ++ b :: post /\ ~ askable v b /\
    Forall (fun b => askable v b /\ ~ asked v b) pre.
Proof. exact by_value_error. Qed.
Print Assumptions C132_error.
Example C132_error_ex : by_value [mkAlt (VStr "p") 1 [] []; mkAlt (VFloat 2) 1 [] []] (VFloat 2) = Err TypeError.
Proof. reflexivity. Qed.

(** C132: for nodes over numbers only or without floats, the value a yielded branch
    shows for a node is found again: the node by its name, and in it an alternative
    asked for by the value (of the same value unless it is a float). *)
Theorem C132_branch : forall nodes bs oe b k r,
  NoDup (map n_name nodes) -> Forall uniform_values nodes -> tree_iter nodes = (bs, oe) -> In b bs -> In (k, r) b ->
  exists n a, tree_get nodes k = Some n /\ by_value (n_alts n) (r_value r) = Ok (Some a) /\ In a (n_alts n) /\
    asked (r_value r) a /\ ((forall q, r_value r <> VFloat q) -> same_value (a_value a) (r_value r)).
Proof. exact branch_found. Qed.
Print Assumptions C132_branch.
Example C132_branch_ex : Forall uniform_values [mkNode "fact" [mkAlt (VFloat (1 # 2)) 1 [] []; mkAlt (VInt 2) 1 [] []]] /\
  List.length (fst (tree_iter [mkNode "fact" [mkAlt (VFloat (1 # 2)) 1 [] []; mkAlt (VInt 2) 1 [] []]])) = 2%nat.
Proof.
  split; [|reflexivity]. apply Forall_cons; [|constructor]. left. intros a [<-|[<-|[]]]; eexists; constructor.
Qed.

(** C132: a node is found by its name. *)
Theorem C132_name : forall nodes n,
  NoDup (map n_name nodes) -> In n nodes -> tree_get nodes (n_name n) = Some n.
Proof. exact get_by_name. Qed.
Print Assumptions C132_name.
Example C132_name_ex : tree_get ft_tree "fact" <> None. Proof. discriminate. Qed.

(** C132: and None is returned exactly for names without a node. *)
Theorem C132_no_name : forall nodes k,
  tree_get nodes k = None <-> ~ In k (map n_name nodes).
Proof. exact get_none. Qed.
Print Assumptions C132_no_name.
Example C132_no_name_ex : tree_get ft_tree "depth" = None. Proof. reflexivity. Qed.

(** C132: asked for the exact value of one of its alternatives, a node may return an
    earlier alternative of a different value within the tolerance of isclose. *)
Theorem C132_refuted : ~ (forall alts v a, (forall b, In b alts -> askable v b) -> In a alts -> a_value a = v ->
       exists b, by_value alts v = Ok (Some b) /\ same_value (a_value b) v).
Proof. exact close_taken. Qed.
Print Assumptions C132_refuted.
