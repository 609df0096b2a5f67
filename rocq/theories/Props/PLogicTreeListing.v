(** Property C159: conditions written as a value or as a list of that value. *)
From Coq Require Import QArith String Qabs.
From Verif Require Import Common Model.LogicTree Spec.LogicTreeSpec Spec.LogicTreeListing Proof.LogicTreeFacts Proof.LogicTreeListing.
Local Open Scope Q_scope.

(** A node whose second alternative requires a value of another node. *)
Definition ll_nodes : list node :=
  [mkNode "a" [mkAlt (VInt 1) (1 # 4) [] []; mkAlt (VStr "x") (3 # 4) [] []];
   mkNode "b" [mkAlt (VFloat (1 # 2)) (1 # 3) [] [("a"%string, RVal (VInt 1))]; mkAlt (VStr "y") (2 # 3) [("a"%string, RVal (VStr "x"))] []]].

(** C159,C44: a condition that is not a float matches the same values when it is written
    as a list of one value. *)
Theorem C159_one : forall r v,
  no_float r -> matches (listed r) v = matches r v.
Proof. exact listed_value. Qed.
Print Assumptions C159_one.

(** C159: if no condition is a single float, iteration over the tree with every single
    value put into a list yields the same branches and ends in the same way. *)
Theorem C159_tree_partial : forall nodes,
  List.Forall no_float_conds nodes ->
  tree_iter (map (with_node listed) nodes) = (map (with_branch listed) (fst (tree_iter nodes)), snd (tree_iter nodes)).
Proof. exact listed_tree. Qed.
Print Assumptions C159_tree_partial.
Example C159_tree_ex : List.Forall no_float_conds ll_nodes /\ exists b c, tree_iter ll_nodes = ([b; c], None) /\
  map (with_node listed) ll_nodes <> ll_nodes.
Proof.
  split.
  - unfold ll_nodes. repeat constructor; intros a k r [<-|[<-|[]]] [H|H]; cbn in H; intuition; try (injection H0 as <- <-); intros q; try discriminate; congruence.
  - eexists. eexists. split; [vm_compute; reflexivity|discriminate].
Qed.

(** C159: of a float, the list matches no more than the single value. *)
Theorem C159_floats : forall q v b,
  matches (RList [VFloat q]) v = Ok true -> matches (RVal (VFloat q)) v = Ok b -> b = true.
Proof. exact listed_float. Qed.
Print Assumptions C159_floats.

(** C159: the single value 0.3 matches the alternative 0.1 + 0.2, the list of it does
    not: the branch is lost. *)
Theorem C159_refuted : exists nodes b, List.Forall no_lists nodes /\ tree_iter nodes = ([b], None) /\
  tree_iter (map (with_node listed) nodes) = ([], None).
Proof. exact listed_refuted. Qed.
Print Assumptions C159_refuted.
