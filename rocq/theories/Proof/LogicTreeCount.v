(** Numbers of branches, and the container methods of nodes and branches. *)
From Coq Require Import QArith String Qabs Sorted.
From Verif Require Import Common Model.LogicTree Model.LogicTreeNode Spec.LogicTreeSpec Spec.LogicTreeCountSpec
  Proof.CommonFacts Proof.LogicTreeFacts Proof.LogicTreeProps Proof.LogicTreeIndep Proof.LogicTreeDup Proof.LogicTreeFile.
Local Open Scope Q_scope.

Ltac py_cases := unfold py_index; cbv zeta;
  match goal with |- context [if (?a <? 0)%Z then (?a + _)%Z else ?a] => destruct (Z.ltb_spec a 0) end;
  repeat (match goal with |- context [(?a <? ?b)%Z] => destruct (Z.ltb_spec a b) end); try lia; try reflexivity; f_equal; lia.
Lemma node_container name items :
  node_len (node_new name items) = List.length items /\
  List.length (node_options (node_new name items)) = List.length items /\
  (forall k it, nth_error items k = Some it -> exists a,
     node_getitem (node_new name items) (Z.of_nat k) = Ok a /\
     node_getitem (node_new name items) (Z.of_nat k - Z.of_nat (List.length items)) = Ok a /\
     nth_error (node_options (node_new name items)) k = Some (a_value a) /\
     nth_error (snd (node_to_xarray (node_new name items))) k = Some (a_value a) /\
     nth_error (fst (node_to_xarray (node_new name items))) k = Some (a_weight a) /\
     (forall b, it = inl b -> a = b) /\
     (forall v, it = inr v -> a_value a = v /\ a_weight a = 1 /\ a_requires a = nil /\ a_excludes a = nil)) /\
  (forall i, (i < - Z.of_nat (List.length items) \/ Z.of_nat (List.length items) <= i)%Z ->
     node_getitem (node_new name items) i = Err IndexError).
Proof.
  unfold node_len, node_getitem, node_options, node_to_xarray, node_new. cbn [n_alts fst snd]. rewrite !map_length.
  split; [reflexivity|]. split; [reflexivity|]. split.
  - intros k it E. assert (L : (k < List.length items)%nat) by (apply nth_error_Some; congruence).
    assert (I1 : py_index (Z.of_nat k) (List.length items) = Some k).
    { py_cases. }
    assert (I2 : py_index (Z.of_nat k - Z.of_nat (List.length items)) (List.length items) = Some k).
    { py_cases. }
    rewrite I1, I2, !map_map, !nth_error_map, E. cbn [option_map].
    eexists. split; [reflexivity|]. split; [reflexivity|]. do 3 (split; [reflexivity|]).
    split; [intros b ->; reflexivity|]. intros v ->. repeat split.
  - intros i H. replace (py_index i (List.length items)) with (@None nat); [reflexivity|]. symmetry. py_cases.
Qed.

(** A yielded branch as a dictionary of the node names. *)
Lemma branch_container nodes bs oe b : tree_iter nodes = (bs, oe) -> In b bs -> forall k,
  (In k (map n_name nodes) /\ branch_contains b k = true /\ exists n a r,
     In n nodes /\ n_name n = k /\ In a (n_alts n) /\ 0 < a_weight a /\
     branch_getitem b k = Ok r /\ branch_value b k = Ok (a_value a) /\ r_value r = a_value a /\ r_weight r = a_weight a) \/
  (~ In k (map n_name nodes) /\ branch_contains b k = false /\ branch_getitem b k = Err KeyError /\ branch_value b k = Err KeyError).
Proof.
  intros H I k. destruct (repeated_names _ _ _ _ H I) as (c & C & N & K & V).
  assert (B : branch_contains b k = true <-> In k (map fst b)).
  { unfold branch_contains. rewrite existsb_exists, in_map_iff. split; intros ([x r] & E & F).
    - apply String.eqb_eq in F. exists (x, r). now split.
    - exists (x, r). split; [exact F|]. now apply String.eqb_eq. }
  destruct (in_dec string_dec k (map fst b)) as [G|G].
  - left. split; [now apply K|]. split; [now apply B|].
    apply in_map_iff in G. destruct G as ([k' r] & E & G). cbn in E. subst k'.
    destruct (V _ _ G) as (bf & a & af & -> & _ & V1 & V2 & _).
    assert (X : exists n, In n nodes /\ n_name n = k /\ In a (n_alts n) /\ 0 < a_weight a).
    { clear - C. remember (bf ++ (k, a) :: af) as c eqn:E. assert (J : In (k, a) c) by (subst; apply in_elt). clear E.
      induction C as [|n q nodes c (E1 & E2 & E3) _ IH]; [destruct J|]. destruct J as [->|J].
      - exists n. cbn in *. split; [now left|]. now repeat split.
      - destruct (IH J) as (m & M & R). exists m. split; [now right|exact R]. }
    destruct X as (n & X1 & X2 & X3 & X4). exists n, a, r. do 4 (split; [assumption|]).
    unfold branch_getitem, branch_value. rewrite (get_in _ _ _ N G). cbn [bind]. split; [reflexivity|]. split; [now rewrite V1|]. now split.
  - right. split; [now rewrite <- K|]. split.
    { destruct (branch_contains b k); [|reflexivity]. elim G. now apply B. }
    unfold branch_getitem, branch_value. rewrite (get_missing _ _ G). now split.
Qed.

Lemma positives_filter l : positives l (List.length (filter positive l)).
Proof.
  induction l as [|a l IH]; [constructor|]. cbn [filter]. destruct (positive a) eqn:E; cbn [List.length].
  - constructor; [now apply positive_spec|exact IH].
  - constructor; [|exact IH]. apply Qnot_lt_le. intros H. apply positive_spec in H. congruence.
Qed.
Lemma positives_le l k : positives l k -> (k <= List.length l)%nat.
Proof. induction 1; cbn; lia. Qed.
Lemma positives_fun l k j : positives l k -> positives l j -> k = j.
Proof.
  intros H. revert j. induction H as [|a l k P _ IH|a l k P _ IH]; intros j J; inversion J; subst; [reflexivity|f_equal; auto| | |auto];
    exfalso; eapply Qlt_not_le; eassumption.
Qed.
Lemma positives_all l k : positives l k -> (k = List.length l <-> Forall (fun a => 0 < a_weight a) l).
Proof.
  induction 1 as [|a l k P H IH|a l k P H IH]; cbn.
  - split; [constructor|reflexivity].
  - split; intros E; [constructor; [exact P|apply IH; lia]|]. inversion E; subst. f_equal. now apply IH.
  - apply positives_le in H. split; [lia|]. intros E. inversion E; subst. exfalso. eapply Qlt_not_le; eassumption.
Qed.
Lemma product_len {A} (ls : list (list A)) : List.length (product ls) = fold_right Nat.mul 1%nat (map (@List.length A) ls).
Proof.
  induction ls as [|l ls IH]; [reflexivity|]. cbn [product map fold_right]. rewrite <- IH. clear IH.
  induction l as [|x l IHl]; [reflexivity|]. cbn [flat_map List.length]. rewrite app_length, map_length, IHl. reflexivity.
Qed.
Lemma node_iter_len n : List.length (node_iter n) = List.length (filter positive (n_alts n)).
Proof. unfold node_iter. now rewrite map_length. Qed.
Lemma iter_loop_le todo : forall seen, (List.length (fst (iter_loop seen todo)) <= List.length todo)%nat.
Proof.
  induction todo as [|rs todo IH]; intros seen; cbn [iter_loop]; [cbn; lia|]. cbv zeta. cbn [List.length].
  pose proof (IH seen). destruct (tree_is_valid (branch_of rs)) as [[|]|e]; [|lia|cbn; lia].
  destruct (negb _); [cbn; lia|]. destruct (existsb _ seen); [lia|].
  pose proof (IH (branch_key (branch_of rs) :: seen)). destruct (iter_loop (branch_key (branch_of rs) :: seen) todo) as [bs e]. cbn [fst List.length] in *. lia.
Qed.
Lemma product_positive nodes : product_of positive_in nodes (fold_right Nat.mul 1%nat (map (fun n => List.length (filter positive (n_alts n))) nodes)).
Proof. induction nodes as [|n nodes IH]; cbn; constructor; [apply positives_filter|exact IH]. Qed.
Lemma product_fun (f : node -> nat -> Prop) nodes j k : (forall n x y, f n x -> f n y -> x = y) -> product_of f nodes j -> product_of f nodes k -> j = k.
Proof.
  intros F H. revert k. induction H as [|n nodes a r A H IH]; intros k K; inversion K; subst; [reflexivity|]. f_equal; [eapply F; eassumption|now apply IH].
Qed.

(** Never more branches than combinations of alternatives of positive weight. *)
Lemma branches_at_most nodes bs oe p q : tree_iter nodes = (bs, oe) -> product_of positive_in nodes p -> product_of all_in nodes q ->
  (List.length bs <= p <= q)%nat.
Proof.
  intros H P Q. split.
  - pose proof (iter_loop_le (product (map node_iter nodes)) nil) as L. unfold tree_iter in H. rewrite H in L. cbn [fst] in L.
    rewrite product_len, map_map in L. rewrite (map_ext _ _ node_iter_len) in L.
    rewrite (product_fun positive_in _ _ _ (fun n => positives_fun (n_alts n)) P (product_positive nodes)). exact L.
  - clear H. revert q Q. induction P as [|n nodes a r A P IH]; intros q Q; inversion Q as [|? ? b s B S]; subst; [lia|].
    apply Nat.mul_le_mono; [|now apply IH]. unfold all_in in B. subst b. now apply positives_le.
Qed.

(** Without conditions and with distinct values there is one for each of them. *)
Lemma branches_count nodes p :
  NoDup (map n_name nodes) -> Forall no_lists nodes -> Forall conditionless nodes -> Forall distinct_values nodes ->
  product_of positive_in nodes p ->
  exists bs, tree_iter nodes = (bs, None) /\ List.length bs = p.
Proof.
  intros H1 H2 H3 H4 P. eexists. split; [now apply unconditional_branches|]. rewrite map_length.
  rewrite (product_fun positive_in _ _ _ (fun n => positives_fun (n_alts n)) P (product_positive nodes)).
  etransitivity; [exact (product_len (map node_cands nodes))|]. rewrite map_map. f_equal. apply map_ext. intros n.
  unfold node_cands. rewrite map_length. rewrite <- (indexed_filter positive (n_alts n) 0). now rewrite map_length.
Qed.

(** The product of the lengths of the nodes is the number of branches exactly if all
    weights are positive. *)
Lemma branches_len nodes bs q :
  NoDup (map n_name nodes) -> Forall no_lists nodes -> Forall conditionless nodes -> Forall distinct_values nodes ->
  Forall (fun n => exists a, In a (n_alts n) /\ 0 < a_weight a) nodes ->
  tree_iter nodes = (bs, None) -> product_of (fun n k => k = node_len n) nodes q ->
  (List.length bs = q <-> Forall (fun n => Forall (fun a => 0 < a_weight a) (n_alts n)) nodes).
Proof.
  intros H1 H2 H3 H4 H5 H Q. destruct (branches_count nodes _ H1 H2 H3 H4 (product_positive nodes)) as (bs' & E & L).
  assert (bs' = bs) by congruence. subst bs'. rewrite L. clear - H5 Q.
  pose proof (product_positive nodes) as P. set (p := fold_right _ _ _) in *. clearbody p.
  assert (G : (0 < p)%nat /\ (p <= q)%nat /\ (p = q <-> Forall (fun n => Forall (fun a => 0 < a_weight a) (n_alts n)) nodes)); [|tauto].
  revert q Q. induction P as [|n nodes k r A P IH]; intros q Q; inversion Q as [|? ? b s B S]; subst.
  - split; [lia|]. split; [lia|]. split; [constructor|reflexivity].
  - inversion H5 as [|? ? (a & I & W) H5']; subst. destruct (IH H5' s S) as (I1 & I2 & I3).
    pose proof (positives_le _ _ A) as A1. pose proof (positives_all _ _ A) as A2. unfold node_len.
    assert (A3 : (0 < k)%nat).
    { unfold positive_in in A. clear - A I W. induction A as [|x l k X A IH|x l k X A IH]; [destruct I|lia|].
      destruct I as [->|I]; [exfalso; eapply Qlt_not_le; eassumption|now apply IH]. }
    split; [nia|]. split; [nia|]. split.
    + intros E. assert (k = List.length (n_alts n)) by nia. assert (r = s) by nia. constructor; [now apply A2|now apply I3].
    + intros E. inversion E; subst. f_equal; [now apply A2|now apply I3].
Qed.
