(** Property C171: nodes and branches as containers, and the number of branches. *)
From Coq Require Import QArith String.
From Verif Require Import Common Model.LogicTree Model.LogicTreeNode Spec.LogicTreeSpec Spec.LogicTreeCountSpec.
From Verif Require Import Proof.LogicTreeFacts Proof.LogicTreeProps Proof.LogicTreeCount.
Local Open Scope Q_scope.

(** C171: a node has as many entries as items were given; each is found by its position
    from the front and from the back, with the same value in [options] and in the
    coordinates of [to_xarray] and the same weight in its data; an item that is a value
    becomes an alternative of weight one without conditions; other positions raise
    IndexError. *)
Theorem C171_node : forall name items,
  node_len (node_new name items) = List.length items /\
  List.length (node_options (node_new name items)) = List.length items /\
  (forall k it, nth_error items k = Some it -> exists a,
     node_getitem (node_new name items) (Z.of_nat k) = Ok a /\
     node_getitem (node_new name items) (Z.of_nat k - Z.of_nat (List.length items)) = Ok a /\
     nth_error (node_options (node_new name items)) k = Some (a_value a) /\
     nth_error (snd (node_to_xarray (node_new name items))) k = Some (a_value a) /\
     nth_error (fst (node_to_xarray (node_new name items))) k = Some (a_weight a) /\
     (forall b, it = inl b -> a = b) /\
     (forall v, it = inr v -> a_value a = v /\ a_weight a = 1 /\ a_requires a = nil /\ a_excludes a = nil)) /\
  (forall i, (i < - Z.of_nat (List.length items) \/ Z.of_nat (List.length items) <= i)%Z ->
     node_getitem (node_new name items) i = Err IndexError).
Proof. exact node_container. Qed.
Print Assumptions C171_node.

(** A node of a value and of an alternative of weight zero, and a node of two values. *)
Definition lc_nodes : list node :=
  cons (node_new "a" (cons (inr (VInt 1)) (cons (inl (mkAlt (VStr "x") 0 nil nil)) nil)))
  (cons (node_new "b" (cons (inr (VInt 1)) (cons (inr (VInt 2)) nil))) nil).
Example C171_node_ex : node_getitem (hd (mkNode "" nil) lc_nodes) (-1) = Ok (mkAlt (VStr "x") 0 nil nil) /\
  node_getitem (hd (mkNode "" nil) lc_nodes) 0 = Ok (mkAlt (VInt 1) 1 nil nil).
Proof. split; reflexivity. Qed.

(** C171: for every name, a branch that the iteration yields either contains the name,
    which is then that of a node, and gives the value and weight of an alternative of
    positive weight of a node of that name, or the tree has no such node and every
    access raises KeyError. *)
Theorem C171_branch : forall nodes bs oe b,
  tree_iter nodes = (bs, oe) -> In b bs -> forall k,
  (In k (map n_name nodes) /\ branch_contains b k = true /\ exists n a r,
     In n nodes /\ n_name n = k /\ In a (n_alts n) /\ 0 < a_weight a /\
     branch_getitem b k = Ok r /\ branch_value b k = Ok (a_value a) /\ r_value r = a_value a /\ r_weight r = a_weight a) \/
  (~ In k (map n_name nodes) /\ branch_contains b k = false /\ branch_getitem b k = Err KeyError /\ branch_value b k = Err KeyError).
Proof. exact branch_container. Qed.
Print Assumptions C171_branch.

(** C171: the iteration yields at most as many branches as there are combinations of
    alternatives of positive weight, whatever the conditions and also if it ends with an
    exception; those are at most the product of the lengths of the nodes. *)
Theorem C171_at_most : forall nodes bs oe p q,
  tree_iter nodes = (bs, oe) -> product_of positive_in nodes p -> product_of all_in nodes q ->
  (List.length bs <= p <= q)%nat.
Proof. exact branches_at_most. Qed.
Print Assumptions C171_at_most.

(** C171: without conditions and with different values within each node, it yields
    exactly that number. *)
Theorem C171_count : forall nodes p,
  NoDup (map n_name nodes) -> Forall no_lists nodes -> Forall conditionless nodes -> Forall distinct_values nodes ->
  product_of positive_in nodes p ->
  exists bs, tree_iter nodes = (bs, None) /\ List.length bs = p.
Proof. exact branches_count. Qed.
Print Assumptions C171_count.

(** C171: if every node has an alternative of positive weight, the number of branches is
    the product of the lengths of the nodes exactly when all weights are positive. *)
Theorem C171_len : forall nodes bs q,
  NoDup (map n_name nodes) -> Forall no_lists nodes -> Forall conditionless nodes -> Forall distinct_values nodes ->
  Forall (fun n => exists a, In a (n_alts n) /\ 0 < a_weight a) nodes ->
  tree_iter nodes = (bs, None) -> product_of (fun n k => k = node_len n) nodes q ->
  (List.length bs = q <-> Forall (fun n => Forall (fun a => 0 < a_weight a) (n_alts n)) nodes).
Proof. exact branches_len. Qed.
Print Assumptions C171_len.

Lemma lc_distinct : Forall distinct_values lc_nodes.
Proof.
  unfold lc_nodes. repeat constructor; intros [|[|i]] [|[|j]] a b L Ha Hb; try lia; cbn in Ha, Hb;
    try (destruct j; discriminate); try (destruct i; discriminate);
    injection Ha as <-; injection Hb as <-; intros H; apply value_eqb_spec in H; discriminate.
Qed.
(** The hypotheses hold for a tree of two nodes of length two of which one alternative has
    no weight: it has two branches, not four. *)
Example C171_ex : NoDup (map n_name lc_nodes) /\ Forall no_lists lc_nodes /\ Forall conditionless lc_nodes /\ Forall distinct_values lc_nodes /\
  Forall (fun n => exists a, In a (n_alts n) /\ 0 < a_weight a) lc_nodes /\
  product_of positive_in lc_nodes 2 /\ product_of (fun n k => k = node_len n) lc_nodes 4 /\
  exists bs, tree_iter lc_nodes = (bs, None) /\ List.length bs = 2%nat.
Proof.
  assert (P : product_of positive_in lc_nodes 2).
  { change 2%nat with (1 * (2 * 1))%nat. repeat constructor; unfold Qle; cbn; lia. }
  assert (N : NoDup (map n_name lc_nodes)) by (unfold lc_nodes; repeat constructor; cbn; intuition discriminate).
  assert (NL : Forall no_lists lc_nodes) by (unfold lc_nodes; repeat constructor; intros a l [<-|[<-|[]]]; discriminate).
  assert (C : Forall conditionless lc_nodes) by (unfold lc_nodes; repeat constructor; destruct H as [<-|[<-|[]]]; reflexivity).
  split; [exact N|]. split; [exact NL|]. split; [exact C|]. split; [exact lc_distinct|]. split.
  { unfold lc_nodes. repeat constructor; (eexists; split; [left; reflexivity|reflexivity]). }
  split; [exact P|]. split; [change 4%nat with (2 * (2 * 1))%nat; repeat constructor|].
  exact (C171_count lc_nodes 2 N NL C lc_distinct P).
Qed.
