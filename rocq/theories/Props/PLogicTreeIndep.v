(** Property C156: independence of the nodes of a tree without conditions. *)
From Coq Require Import QArith String Qabs Sorted.
From Verif Require Import Common Model.LogicTree Spec.LogicTreeSpec Proof.LogicTreeFacts Proof.LogicTreeProps Proof.LogicTreeIndep.
Local Open Scope Q_scope.

(** Two nodes of two alternatives each. *)
Definition li_nodes : list node :=
  [mkNode "a" [mkAlt (VInt 1) (1 # 4) [] []; mkAlt (VInt 2) (3 # 4) [] []];
   mkNode "b" [mkAlt (VFloat (1 # 2)) (1 # 3) [] []; mkAlt (VStr "x") (2 # 3) [] []]].
Lemma li_distinct : Forall distinct_values li_nodes.
Proof.
  unfold li_nodes. repeat constructor; intros [|[|i]] [|[|j]] a b L Ha Hb; try lia; cbn in Ha, Hb;
    try (destruct j; discriminate); try (destruct i; discriminate);
    injection Ha as <-; injection Hb as <-; intros H; apply value_eqb_spec in H; discriminate.
Qed.
Lemma li_rest : NoDup (map n_name li_nodes) /\ Forall no_lists li_nodes /\ Forall conditionless li_nodes /\
  Forall (fun m => Forall (fun x => 0 <= a_weight x) (n_alts m) /\ Qsum (map a_weight (n_alts m)) == 1) li_nodes.
Proof.
  unfold li_nodes. split; [repeat constructor; cbn; intuition discriminate|].
  split; [repeat constructor; intros a l [<-|[<-|[]]]; discriminate|].
  split; [repeat constructor; destruct H as [<-|[<-|[]]]; reflexivity|].
  repeat constructor; cbn; try (unfold Qle; cbn; lia); reflexivity.
Qed.

(** C156: for a tree without conditions and with different values within each node, the
    weighted sum over the branches of a product of functions of the values is the
    product over the nodes of the weighted sums over their alternatives. *)
Theorem C156_products : forall nodes f,
  NoDup (map n_name nodes) -> Forall no_lists nodes -> Forall conditionless nodes -> Forall distinct_values nodes ->
  Forall (fun n => Forall (fun a => 0 <= a_weight a) (n_alts n)) nodes ->
  exists bs, tree_iter nodes = (bs, None) /\
    Qsum (map (fun b => branch_weight b * Qprod (map (fun p => f (fst p) (r_value (snd p))) b)) bs) ==
    Qprod (map (fun n => Qsum (map (fun a => a_weight a * f (n_name n) (a_value a)) (n_alts n))) nodes).
Proof. exact branches_independent. Qed.
Print Assumptions C156_products.

(** C156: if the weights of every node add up to 1, the weights of the branches in which
    a node has a given value add up to the weight of that alternative. *)
Theorem C156_marginals : forall nodes n a,
  NoDup (map n_name nodes) -> Forall no_lists nodes -> Forall conditionless nodes -> Forall distinct_values nodes ->
  Forall (fun m => Forall (fun x => 0 <= a_weight x) (n_alts m) /\ Qsum (map a_weight (n_alts m)) == 1) nodes ->
  In n nodes -> In a (n_alts n) ->
  exists bs, tree_iter nodes = (bs, None) /\
    forall sel : branch -> bool, (forall b, In b bs -> (sel b = true <-> exists r, In (n_name n, r) b /\ same_value (r_value r) (a_value a))) ->
      Qsum (map branch_weight (filter sel bs)) == a_weight a.
Proof. exact branch_marginals. Qed.
Print Assumptions C156_marginals.
Example C156_ex : Forall distinct_values li_nodes /\ exists bs, tree_iter li_nodes = (bs, None) /\ List.length bs = 4%nat.
Proof. split; [exact li_distinct|]. eexists. split; vm_compute; reflexivity. Qed.
