(** C156: without conditions the nodes are independent. *)
From Coq Require Import QArith String Qabs Sorted.
From Verif Require Import Common Model.LogicTree Spec.LogicTreeSpec Proof.CommonFacts Proof.LogicTreeFacts Proof.LogicTreeProps.
Local Open Scope Q_scope.

Definition of_choice (f : string -> value -> Q) (t : cand) : Q :=
  Qprod (map (fun p => a_weight (snd (snd p)) * f (fst p) (a_value (snd (snd p)))) t).
Definition over_branch (f : string -> value -> Q) (b : branch) : Q :=
  branch_weight b * Qprod (map (fun p => f (fst p) (r_value (snd p))) b).

Lemma unconditional_branches nodes :
  NoDup (map n_name nodes) -> Forall no_lists nodes -> Forall conditionless nodes -> Forall distinct_values nodes ->
  tree_iter nodes = (map (fun t => branch_at (cand_choice t)) (cands nodes), None).
Proof.
  intros Hn Hnl Hc Hd. rewrite Forall_forall in Hc, Hd.
  assert (Hwf : tree_wf nodes).
  { split; [exact Hn|]. split; [exact Hnl|]. intros n a Hni Hai kr Hk. destruct (Hc n Hni a Hai) as [E1 E2]. rewrite E1, E2 in Hk.
    destruct Hk as [[]|[]]. }
  assert (Hal : forall t, In t (cands nodes) -> choice_valid (cand_choice t)).
  { intros t Ht k a Hi. apply cands_in in Ht. destruct Ht as [_ Ht].
    assert (exists n, In n nodes /\ In a (n_alts n)) as (n & Hni & Hai).
    { clear -Ht Hi. unfold choice_of in Ht. induction Ht as [|n p ns c (E1 & E2 & _) H IH]; [destruct Hi|].
      destruct Hi as [->|Hi]; [exists n; split; [now left|exact E2]|].
      destruct (IH Hi) as (m & Hm & G). exists m. split; [now right|exact G]. }
    destruct (Hc n Hni a Hai) as [E1 E2]. split; rewrite ?E1, ?E2; [intros kr []|congruence]. }
  rewrite (iter_no_duplicates nodes Hn Hnl (fun t Ht => wf_evaluable nodes t Hwf Ht)).
  - do 2 f_equal. assert (G : forall t, In t (cands nodes) -> validb t = true).
    { intros t Ht. unfold validb.
      assert (Hnd : NoDup (map fst (cand_choice t))) by now rewrite (cands_names nodes).
      destruct (tree_is_valid_evaluable _ Hnd (wf_evaluable nodes t Hwf Ht)) as (m & -> & Hiff). apply Hiff. auto. }
    clear -G. induction (cands nodes) as [|t l IH]; [reflexivity|]. cbn. rewrite (G t) by now left.
    f_equal. apply IH. intros; apply G; now right.
  - intros s t Hs Ht Hl _ _ Hsv.
    destruct (lex_positions nodes s t Hs Ht Hl) as (n & pre & post & post' & i & j & a & b & H1 & H2 & H3 & H4 & _ & _ & -> & ->).
    rewrite !cand_choice_app in Hsv. pose proof (same_values_nth _ _ _ _ _ _ _ Hsv eq_refl eq_refl) as Hv.
    exact (Hd n H1 i j a b H2 H3 H4 Hv).
Qed.

Lemma over_branch_at f t : over_branch f (branch_at (cand_choice t)) == of_choice f t.
Proof.
  unfold over_branch. rewrite branch_at_weight. unfold cand_weight, of_choice, branch_at, cand_choice. rewrite !map_map. cbn.
  induction t as [|p t IH]; cbn; [ring|]. rewrite <- IH. ring.
Qed.
Lemma product_factor f ls :
  Qsum (map (of_choice f) (product ls)) == Qprod (map (fun l => Qsum (map (fun p => a_weight (snd (snd p)) * f (fst p) (a_value (snd (snd p)))) l)) ls).
Proof.
  induction ls as [|l ls IH]; cbn [product map Qprod]; [reflexivity|].
  rewrite <- IH. clear IH. induction l as [|p l IHl]; cbn [flat_map map Qsum]; [ring|].
  rewrite map_app, Qsum_app, IHl, map_map.
  assert (E : Qsum (map (fun x => of_choice f (p :: x)) (product ls)) ==
              a_weight (snd (snd p)) * f (fst p) (a_value (snd (snd p))) * Qsum (map (of_choice f) (product ls))).
  { rewrite <- Qsum_scale. apply Qsum_map_eq. intros x _. reflexivity. }
  rewrite E. ring.
Qed.
Lemma node_factor f n :
  Qsum (map (fun p => a_weight (snd (snd p)) * f (fst p) (a_value (snd (snd p)))) (node_cands n)) =
  Qsum (map (fun a => a_weight a * f (n_name n) (a_value a)) (filter positive (n_alts n))).
Proof.
  unfold node_cands. rewrite map_map. cbn [fst snd]. rewrite <- (indexed_filter positive (n_alts n) 0), map_map. reflexivity.
Qed.
Lemma skip_zero g l : Forall (fun a => 0 <= a_weight a) l ->
  Qsum (map (fun a => a_weight a * g a) (filter positive l)) == Qsum (map (fun a => a_weight a * g a) l).
Proof.
  induction 1 as [|a l Ha _ IH]; [reflexivity|]. cbn [filter map Qsum]. unfold positive at 1.
  destruct (Qle_bool (a_weight a) 0) eqn:E; cbn [negb map Qsum].
  - apply Qle_bool_iff in E. assert (Z : a_weight a == 0) by (apply Qle_antisym; auto). rewrite IH, Z. ring.
  - rewrite IH. reflexivity.
Qed.

(** C156: means of products are products of means. *)
Theorem branches_independent nodes f :
  NoDup (map n_name nodes) -> Forall no_lists nodes -> Forall conditionless nodes -> Forall distinct_values nodes ->
  Forall (fun n => Forall (fun a => 0 <= a_weight a) (n_alts n)) nodes ->
  exists bs, tree_iter nodes = (bs, None) /\
    Qsum (map (fun b => branch_weight b * Qprod (map (fun p => f (fst p) (r_value (snd p))) b)) bs) ==
    Qprod (map (fun n => Qsum (map (fun a => a_weight a * f (n_name n) (a_value a)) (n_alts n))) nodes).
Proof.
  intros Hn Hnl Hc Hd Hw. eexists. split; [now apply unconditional_branches|].
  rewrite map_map, (Qsum_map_eq _ (of_choice f)) by (intros; apply over_branch_at).
  unfold cands. rewrite product_factor, map_map. clear -Hw.
  induction Hw as [|n nodes H _ IH]; cbn [map Qprod]; [reflexivity|]. rewrite IH, node_factor.
  rewrite (skip_zero (fun a => f (n_name n) (a_value a)) _ H). reflexivity.
Qed.

Definition indicator (k : string) (v : value) (k' : string) (v' : value) : Q :=
  if String.eqb k' k then if value_eqb v' v then 1 else 0 else 1.
Lemma indicator_choice k v b : NoDup (map fst b) -> In k (map fst b) ->
  forall sel : bool, (sel = true <-> exists r, In (k, r) b /\ same_value (r_value r) v) ->
  Qprod (map (fun p => indicator k v (fst p) (r_value (snd p))) b) == if sel then 1 else 0.
Proof.
  intros N I sel Hs.
  assert (OTHER : forall l : branch, ~ In k (map fst l) -> Qprod (map (fun p => indicator k v (fst p) (r_value (snd p))) l) == 1).
  { induction l as [|[k' r] l IH]; intros H; [reflexivity|]. cbn in *. unfold indicator at 1. destruct (String.eqb_spec k' k) as [->|_]; [tauto|].
    rewrite IH by tauto. ring. }
  induction b as [|[k' r] b IH]; [destruct I|]. cbn [map fst snd Qprod] in *. inversion N as [|? ? N1 N2]; subst. unfold indicator at 1.
  destruct (String.eqb_spec k' k) as [->|NE].
  - rewrite (OTHER b N1). destruct (value_eqb (r_value r) v) eqn:E.
    + assert (T : sel = true) by (apply Hs; exists r; split; [now left|now apply value_eqb_spec]). rewrite T. ring.
    + destruct sel; [|ring]. destruct (proj1 Hs eq_refl) as (r' & [F|F] & G); [injection F as ->; apply value_eqb_spec in G; congruence|].
      exfalso. apply N1. apply in_map_iff. now exists (k, r').
  - destruct I as [I|I]; [contradiction|]. rewrite IH; [ring|exact N2|exact I|].
    rewrite Hs. split; intros (r' & F & G); exists r'; (split; [|exact G]); [destruct F as [F|F]; [congruence|exact F]|now right].
Qed.

(** C156: the weights of the branches with one value are the weight of the alternative. *)
Theorem branch_marginals nodes n a :
  NoDup (map n_name nodes) -> Forall no_lists nodes -> Forall conditionless nodes -> Forall distinct_values nodes ->
  Forall (fun m => Forall (fun x => 0 <= a_weight x) (n_alts m) /\ Qsum (map a_weight (n_alts m)) == 1) nodes ->
  In n nodes -> In a (n_alts n) ->
  exists bs, tree_iter nodes = (bs, None) /\
    forall sel : branch -> bool, (forall b, In b bs -> (sel b = true <-> exists r, In (n_name n, r) b /\ same_value (r_value r) (a_value a))) ->
      Qsum (map branch_weight (filter sel bs)) == a_weight a.
Proof.
  intros Hn Hnl Hc Hd Hw In_n In_a.
  assert (Hw0 : Forall (fun m => Forall (fun x => 0 <= a_weight x) (n_alts m)) nodes) by (eapply Forall_impl; [|exact Hw]; cbn; tauto).
  destruct (branches_independent nodes (indicator (n_name n) (a_value a)) Hn Hnl Hc Hd Hw0) as (bs & E & S).
  exists bs. split; [exact E|]. intros sel Hsel.
  assert (NB : forall b, In b bs -> NoDup (map fst b) /\ In (n_name n) (map fst b)).
  { intros b Hb. rewrite (unconditional_branches nodes Hn Hnl Hc Hd) in E. injection E as <-. apply in_map_iff in Hb. destruct Hb as (t & <- & Ht).
    assert (X : map fst (branch_at (cand_choice t)) = map n_name nodes).
    { rewrite <- (cands_names nodes t Ht). unfold branch_at. rewrite map_map. reflexivity. }
    rewrite X. split; [exact Hn|]. now apply in_map. }
  assert (L : Qsum (map branch_weight (filter sel bs)) ==
     Qsum (map (fun b => branch_weight b * Qprod (map (fun p => indicator (n_name n) (a_value a) (fst p) (r_value (snd p))) b)) bs)).
  { clear S E. induction bs as [|b bs IH]; [reflexivity|]. cbn [filter map Qsum].
    destruct (NB b (or_introl eq_refl)) as [N1 N2]. rewrite (indicator_choice _ _ b N1 N2 (sel b) (Hsel b (or_introl eq_refl))).
    assert (IH' := IH (fun b' H' => Hsel b' (or_intror H')) (fun b' H' => NB b' (or_intror H'))).
    destruct (sel b); cbn [map Qsum]; rewrite IH'; ring. }
  rewrite L, S. clear L S NB Hsel E Hw0 Hc Hnl.
  assert (REST : forall l, Forall (fun m => Forall (fun x => 0 <= a_weight x) (n_alts m) /\ Qsum (map a_weight (n_alts m)) == 1) l -> ~ In (n_name n) (map n_name l) ->
     Qprod (map (fun m => Qsum (map (fun x => a_weight x * indicator (n_name n) (a_value a) (n_name m) (a_value x)) (n_alts m))) l) == 1).
  { induction 1 as [|m l [_ Hm] _ IH]; intros NI; cbn [map Qprod] in *; [reflexivity|]. rewrite IH by (intros K; apply NI; now right).
    rewrite (Qsum_map_eq _ a_weight); [rewrite Hm; ring|]. intros x _. unfold indicator. destruct (String.eqb_spec (n_name m) (n_name n)) as [K|_]; [|ring].
    exfalso. apply NI. now left. }
  assert (SELF : distinct_values n -> Qsum (map (fun x => a_weight x * indicator (n_name n) (a_value a) (n_name n) (a_value x)) (n_alts n)) == a_weight a).
  { unfold indicator. rewrite String.eqb_refl. unfold distinct_values. clear -In_a. generalize dependent (n_alts n). intros l. induction l as [|x l IH]; intros I D; [destruct I|].
    cbn [map Qsum].
    assert (DL : forall i j u v, (i < j)%nat -> nth_error l i = Some u -> nth_error l j = Some v -> ~ same_value (a_value u) (a_value v)).
    { intros i j u v Hij Hu Hv. apply (D (S i) (S j)); [lia|exact Hu|exact Hv]. }
    destruct I as [->|I].
    - replace (value_eqb (a_value a) (a_value a)) with true by (symmetry; apply value_eqb_spec; destruct (a_value a); econstructor; try constructor; reflexivity).
      rewrite (Qsum_map_eq _ (fun _ => 0)).
      + assert (Z : forall m : list alternative, Qsum (map (fun _ => 0) m) == 0) by (induction m as [|? m IHm]; cbn; [reflexivity|rewrite IHm; ring]). rewrite Z. ring.
      + intros y Hy. destruct (value_eqb (a_value y) (a_value a)) eqn:V; [|ring]. exfalso. apply In_nth_error in Hy. destruct Hy as [j Hj].
        apply (D 0%nat (S j) a y); [lia|reflexivity|exact Hj|]. apply value_eqb_spec in V. destruct V as [?|?|?|u w x0 y0 U1 U2 U3]; [constructor|constructor|constructor|]. now apply (sv_num w u y0 x0).
    - rewrite (IH I DL). destruct (value_eqb (a_value x) (a_value a)) eqn:V; [|ring]. exfalso. apply In_nth_error in I. destruct I as [j Hj].
      apply (D 0%nat (S j) x a); [lia|reflexivity|exact Hj|]. now apply value_eqb_spec. }
  rewrite Forall_forall in Hd. specialize (SELF (Hd n In_n)).
  apply in_split in In_n. destruct In_n as (l1 & l2 & ->). rewrite map_app in Hn |- *. cbn [map] in *.
  pose proof (NoDup_remove_2 _ _ _ Hn) as NI. apply Forall_app in Hw. destruct Hw as [W1 W2]. inversion W2 as [|? ? _ W3]; subst.
  assert (PA : forall u v, Qprod (u ++ v) == Qprod u * Qprod v) by (induction u as [|? u IHu]; intros v; cbn; [ring|rewrite IHu; ring]).
  rewrite PA. cbn [Qprod]. rewrite SELF, (REST l1 W1), (REST l2 W3) by (intros K; apply NI, in_or_app; tauto). ring.
Qed.
