(** Properties C41-C44: logic trees. *)
From Coq Require Import QArith String Qabs Sorted.
From Verif Require Import Common Model.LogicTree Spec.LogicTreeSpec Proof.LogicTreeFacts Proof.LogicTreeProps
  Proof.LogicTreeComplete.
Local Open Scope Q_scope.

(** C41: for a tree with distinct node names, hashable values (no lists) and conditions
    that can be evaluated, iteration ends without exception; the branches are choices of
    one positive-weight alternative per node, in increasing order of position, all
    valid, no two with the same values, and every valid choice has the values of one of
    them, which is the first such choice. *)
Theorem C41_iteration : forall nodes,
  tree_wf nodes ->
  exists bs cs ixs, tree_iter nodes = (bs, None) /\ Forall2 shows bs cs /\
    Forall2 (at_positions nodes) ixs cs /\ StronglySorted lex_lt ixs /\
    (forall c, In c cs -> choice_of nodes c /\ choice_valid c) /\
    ForallOrdPairs (fun c d => ~ same_values c d) cs /\
    (forall ix c, at_positions nodes ix c -> choice_of nodes c -> choice_valid c ->
       exists k ix' c', nth_error ixs k = Some ix' /\ nth_error cs k = Some c' /\
         same_values c' c /\ (ix' = ix \/ lex_lt ix' ix)).
Proof. exact tree_iteration. Qed.
Print Assumptions C41_iteration.
Example C41_iteration_ex : tree_wf twice_tree /\ List.length (fst (tree_iter twice_tree)) = 1%nat.
Proof. split; [apply weight_lost|reflexivity]. Qed.

(** C41,C44: without assuming evaluable conditions: every branch yielded is a valid
    choice, and an exception comes from a condition naming a missing node (KeyError) or
    comparing a float with a non-number (TypeError), or from a valid choice with a list
    for a value (TypeError: it cannot be hashed). *)
Theorem C41_sound_or_exception : forall nodes bs oe,
  NoDup (map n_name nodes) -> tree_iter nodes = (bs, oe) ->
  (forall b, In b bs -> exists c, shows b c /\ choice_of nodes c /\ choice_valid c) /\
  (forall e, oe = Some e -> exists c k a, choice_of nodes c /\ In (k, a) c /\
     ((exists kr, (In kr (a_requires a) \/ In kr (a_excludes a)) /\
        ((e = KeyError /\ cond_missing c kr) \/ (e = TypeError /\ cond_incomparable c kr))) \/
      (exists l, e = TypeError /\ choice_valid c /\ a_value a = VList l))).
Proof. exact tree_iteration_sound. Qed.
Print Assumptions C41_sound_or_exception.
Example C41_sound_ex :
  tree_iter [mkNode "A" [mkAlt (VStr "p") 1 [] []; mkAlt (VStr "q") 1 [("Z"%string, RVal (VInt 1))] []]] =
  ([[("A"%string, mkReal "A" (VStr "p") 1 [] [])]], Some KeyError).
Proof. reflexivity. Qed.

(** C42: the weight of a branch is the product of the weights of the chosen
    alternatives. *)
Theorem C42_branch_weight : forall b c,
  shows b c -> branch_weight b == Qprod (map (fun p => a_weight (snd p)) c).
Proof. exact branch_weight_product. Qed.
Print Assumptions C42_branch_weight.

(** C42: without conditions and with different values within each node, the branch
    weights add up to the product of the sums of the positive weights; with non-negative
    weights, to the product of the node sums. *)
Theorem C42_unconditional : forall nodes,
  NoDup (map n_name nodes) -> Forall no_lists nodes -> Forall conditionless nodes -> Forall distinct_values nodes ->
  exists bs, tree_iter nodes = (bs, None) /\
    Qsum (map branch_weight bs) ==
    Qprod (map (fun n => Qsum (map a_weight (filter (fun a => negb (Qle_bool (a_weight a) 0)) (n_alts n)))) nodes) /\
    (Forall (fun n => Forall (fun a => 0 <= a_weight a) (n_alts n)) nodes ->
     Qsum (map branch_weight bs) == Qprod (map (fun n => Qsum (map a_weight (n_alts n))) nodes)).
Proof. exact total_weight_unconditional. Qed.
Print Assumptions C42_unconditional.
Example C42_unconditional_ex :
  let n := mkNode "A" [mkAlt (VStr "p") (1 # 3) [] []; mkAlt (VStr "q") (2 # 3) [] []] in
  conditionless n /\ distinct_values n /\ no_lists n.
Proof.
  cbn zeta. split; [|split].
  - intros a [<-|[<-|[]]]; split; reflexivity.
  - intros [|[|i]] [|[|j]] a b Hij Ha Hb; cbn in Ha, Hb; try lia; try discriminate;
      try (destruct j; discriminate).
    injection Ha as <-. injection Hb as <-. intros H. apply value_eqb_spec in H. discriminate.
  - intros a l [<-|[<-|[]]]; discriminate.
Qed.

(** C42: if the conditions look at earlier nodes only and, after every valid choice for
    the earlier nodes, the usable alternatives of the next node have different values
    and weights adding up to 1, then the branch weights add up to 1. *)
Theorem C42_conditional : forall nodes,
  NoDup (map n_name nodes) -> Forall no_lists nodes -> complete [] nodes ->
  exists bs, tree_iter nodes = (bs, None) /\ Qsum (map branch_weight bs) == 1.
Proof. exact total_weight_complete. Qed.
Print Assumptions C42_conditional.
Definition cond_tree : list node :=
  [mkNode "A" [mkAlt (VStr "p") (2 # 5) [] []; mkAlt (VStr "q") (3 # 5) [] []];
   mkNode "B" [mkAlt (VInt 1) 1 [("A"%string, RVal (VStr "p"))] [];
               mkAlt (VInt 2) 1 [] [("A"%string, RVal (VStr "p"))]]].
Example C42_conditional_ex : NoDup (map n_name cond_tree) /\ Forall no_lists cond_tree /\ complete [] cond_tree.
Proof.
  split; [repeat constructor; cbn; intuition congruence|].
  split; [apply Forall_cons; [|apply Forall_cons; [|constructor]]; intros a l [<-|[<-|[]]]; discriminate|].
  unfold cond_tree. cbn [complete n_alts n_name app].
  split; [intros a kr [<-|[<-|[]]] _ [[]|[]]|]. split.
  { intros _. split.
    - exists ((2 # 5) + ((3 # 5) + 0)). split; [|reflexivity].
      apply uw_use; [reflexivity|split; [intros kr []|intros G; now elim G]|].
      apply uw_use; [reflexivity|split; [intros kr []|intros G; now elim G]|constructor].
    - intros [|[|i]] [|[|j]] a b Hij Ha Hb _ _ _ _ H; cbn in Ha, Hb; try lia; try discriminate;
      try (destruct j; discriminate).
      injection Ha as <-. injection Hb as <-. apply value_eqb_spec in H. discriminate. }
  assert (D : forall (c : choice) i j a b, (i < j)%nat ->
     nth_error [mkAlt (VInt 1) 1 [("A"%string, RVal (VStr "p"))] []; mkAlt (VInt 2) 1 [] [("A"%string, RVal (VStr "p"))]] i = Some a ->
     nth_error [mkAlt (VInt 1) 1 [("A"%string, RVal (VStr "p"))] []; mkAlt (VInt 2) 1 [] [("A"%string, RVal (VStr "p"))]] j = Some b ->
     0 < a_weight a -> 0 < a_weight b -> alt_valid c a -> alt_valid c b -> ~ same_value (a_value a) (a_value b)).
  { intros c [|[|i]] [|[|j]] a b Hij Ha Hb _ _ _ _ H; cbn in Ha, Hb; try lia; try discriminate;
      try (destruct j; discriminate).
    injection Ha as <-. injection Hb as <-. apply value_eqb_spec in H. discriminate. }
  assert (P : cond_holds [("A"%string, mkAlt (VStr "p") (2 # 5) [] [])] ("A"%string, RVal (VStr "p"))).
  { eexists. split; [now left|]. apply m_same; [discriminate|discriminate|constructor]. }
  assert (N : forall a, In a [mkAlt (VStr "q") (3 # 5) [] []] -> ~ meets (RVal (VStr "p")) (a_value a)).
  { intros a [<-|[]] H. inversion H as [| | |? ? _ _ S]; subst. apply value_eqb_spec in S. discriminate. }
  assert (Q : cond_fails [("A"%string, mkAlt (VStr "q") (3 # 5) [] [])] ("A"%string, RVal (VStr "p"))).
  { eexists. split; [now left|]. split; [exact I|]. apply N. now left. }
  assert (Q' : ~ cond_holds [("A"%string, mkAlt (VStr "q") (3 # 5) [] [])] ("A"%string, RVal (VStr "p"))).
  { intros H. refine (holds_not_fails _ _ _ H Q). repeat constructor. intros []. }
  intros a [<-|[<-|[]]] _.
  - split; [intros b kr [<-|[<-|[]]] _ [Hk|Hk]; cbn in Hk; destruct Hk as [<-|[]] || destruct Hk; now left|].
    split; [|intros; exact I]. intros _. split; [|apply D].
    exists (1 + 0). split; [|reflexivity]. apply uw_use; [reflexivity| |].
    + split; [intros kr [<-|[]]; exact P|intros G; now elim G].
    + apply uw_skip; [|constructor]. intros [_ [_ H]]. apply H; [discriminate|]. intros kr [<-|[]]. exact P.
  - split; [intros b kr [<-|[<-|[]]] _ [Hk|Hk]; cbn in Hk; destruct Hk as [<-|[]] || destruct Hk; now right|].
    split; [|intros; exact I]. intros _. split; [|apply D].
    exists (1 + 0). split; [|reflexivity]. apply uw_skip; [intros [_ [H _]]; apply Q', H; now left|].
    apply uw_use; [reflexivity| |constructor].
    split; [intros kr []|]. intros _ H. apply Q', H. now left.
Qed.

(** C42: when two alternatives of a node have the same value and both are valid, only
    the first is kept and the weight of the other is lost: this tree, whose node weights
    add up to 1 and whose choices are all valid, has a total of 1/2. *)
Theorem C42_refuted : tree_wf twice_tree /\ (forall c, choice_of twice_tree c -> choice_valid c) /\
  Qprod (map (fun n => Qsum (map a_weight (n_alts n))) twice_tree) == 1 /\
  exists bs, tree_iter twice_tree = (bs, None) /\ Qsum (map branch_weight bs) == 1 # 2.
Proof. exact weight_lost. Qed.
Print Assumptions C42_refuted.

(** C43: for 2 to 10 branches: fractions strictly inside (0, 1), increasing and
    symmetric about 0.5 with symmetric positive weights adding up to 1 within 1e-6 (the
    rounding of the published table). *)
Theorem C43_miller_rice : forall name n,
  (2 <= n <= 10)%nat ->
  exists t node, from_miller_rice name n = Ok node /\ n_name node = name /\ node_table node t /\
    List.length t = n /\ symmetric t /\ StronglySorted (fun p q => fst p < fst q) t /\
    Forall (fun p => 0 < snd p) t /\ Forall (fun p => 0 < fst p < 1) t /\
    Qabs (Qsum (map snd t) - 1) <= 1 # 1000000.
Proof. exact miller_rice_table. Qed.
Print Assumptions C43_miller_rice.
Example C43_ex : (2 <= 7 <= 10)%nat. Proof. lia. Qed.

(** C43: any other number of branches raises KeyError. *)
Theorem C43_unsupported : forall name n,
  ~ (2 <= n <= 10)%nat -> from_miller_rice name n = Err KeyError.
Proof. exact miller_rice_other. Qed.
Print Assumptions C43_unsupported.

(** C43: the weights add up to exactly 1 except for 3 and 9 branches (0.999999 and
    1.000001). *)
Theorem C43_exact_sum : forall name n node,
  from_miller_rice name n = Ok node ->
  (Qsum (map a_weight (n_alts node)) == 1 <-> n <> 3%nat /\ n <> 9%nat).
Proof. exact miller_rice_exact. Qed.
Print Assumptions C43_exact_sum.

(** C44: an alternative is valid exactly when all its required nodes match and, if it
    has exclusions, not all of them match; conditions are examined in order and the
    first one that does not hold decides: it makes the answer False (or, for exclusions,
    True), or raises KeyError for a missing node, or TypeError for a float compared with
    a non-number. *)
Theorem C44_validity : forall b c r,
  shows b c -> NoDup (map fst c) ->
  (real_is_valid r b = Ok true <->
     Forall (cond_holds c) (r_requires r) /\
     (r_excludes r = [] \/ exists kr, first_problem c (r_excludes r) kr /\ cond_fails c kr)) /\
  (real_is_valid r b = Ok false <->
     (exists kr, first_problem c (r_requires r) kr /\ cond_fails c kr) \/
     (Forall (cond_holds c) (r_requires r) /\ r_excludes r <> [] /\ Forall (cond_holds c) (r_excludes r))) /\
  (real_is_valid r b = Err KeyError <->
     (exists kr, first_problem c (r_requires r) kr /\ cond_missing c kr) \/
     (Forall (cond_holds c) (r_requires r) /\
      exists kr, first_problem c (r_excludes r) kr /\ cond_missing c kr)) /\
  (real_is_valid r b = Err TypeError <->
     (exists kr, first_problem c (r_requires r) kr /\ cond_incomparable c kr) \/
     (Forall (cond_holds c) (r_requires r) /\
      exists kr, first_problem c (r_excludes r) kr /\ cond_incomparable c kr)).
Proof. exact validity_meaning. Qed.
Print Assumptions C44_validity.
Example C44_ex :
  real_is_valid (mkReal "B" (VInt 1) 1 [("A"%string, RVal (VFloat (1 # 2)))] [("A"%string, RList [VStr "p"]); ("C"%string, RVal (VInt 1))])
    [("A"%string, mkReal "A" (VFloat (1 # 2)) 1 [] [])] = Ok true.
Proof. reflexivity. Qed.

(** C44: an alternative without conditions is always valid. *)
Theorem C44_unconditional : forall r b,
  r_requires r = [] -> r_excludes r = [] -> real_is_valid r b = Ok true.
Proof. exact unconditional_valid. Qed.
Print Assumptions C44_unconditional.
