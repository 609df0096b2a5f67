(** Property C41 for trees in which nodes share a name. *)
From Coq Require Import QArith String.
From Verif Require Import Common Model.LogicTree Spec.LogicTreeSpec Proof.LogicTreeDup.
From Coq Require Import String List.
Import ListNotations.
Local Open Scope Q_scope.

(** C41: whatever the names of the nodes, every branch yielded has each name once and
    for it the alternative chosen at the last node of that name. *)
Theorem C41_duplicates : forall nodes bs oe b,
  tree_iter nodes = (bs, oe) -> In b bs ->
  exists c, choice_of nodes c /\ NoDup (map fst b) /\ (forall k, In k (map fst b) <-> In k (map n_name nodes)) /\
    forall k r, In (k, r) b -> exists before a after, c = before ++ (k, a) :: after /\ ~ In k (map fst after) /\
      r_value r = a_value a /\ r_weight r = a_weight a /\ r_requires r = a_requires a /\ r_excludes r = a_excludes a.
Proof. exact repeated_names. Qed.
Print Assumptions C41_duplicates.
Example C41_duplicates_ex :
  map (map (fun p => (fst p, r_value (snd p)))) (fst (tree_iter
    [mkNode "A" [mkAlt (VInt 1) (1 # 2) [] []; mkAlt (VInt 2) (1 # 2) [] []];
     mkNode "B" [mkAlt (VInt 3) 1 [] []];
     mkNode "A" [mkAlt (VInt 5) (1 # 4) [] []; mkAlt (VInt 6) (3 # 4) [] []]])) =
  [[("A"%string, VInt 5); ("B"%string, VInt 3)]; [("A"%string, VInt 6); ("B"%string, VInt 3)]].
Proof. reflexivity. Qed.
