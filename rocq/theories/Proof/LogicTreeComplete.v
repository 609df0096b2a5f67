(** Conditional trees that distribute a weight of 1 after every earlier choice. *)
From Coq Require Import QArith String Qabs Sorted.
From Verif Require Import Common Model.LogicTree Spec.LogicTreeSpec Proof.CommonFacts Proof.LogicTreeFacts
  Proof.LogicTreeProps.
Local Open Scope Q_scope.

Lemma evaluable_app c d kr : evaluable c kr -> evaluable (c ++ d) kr.
Proof.
  intros [(a & Ha & H)|(a & Ha & H)]; [left|right]; exists a; (split; [apply in_or_app; now left|exact H]).
Qed.
Lemma holds_app (c d : choice) kr :
  NoDup (map fst (c ++ d)) -> evaluable c kr -> (cond_holds (c ++ d) kr <-> cond_holds c kr).
Proof.
  intros Hn He. split.
  - intros H. destruct He as [G|G]; [exact G|]. exfalso. apply (holds_not_fails _ _ Hn H).
    destruct G as (a & Ha & G). exists a. split; [apply in_or_app; now left|exact G].
  - intros (a & Ha & H). exists a. split; [apply in_or_app; now left|exact H].
Qed.
Lemma alt_valid_app (c d : choice) a :
  NoDup (map fst (c ++ d)) -> Forall (evaluable c) (a_requires a) -> Forall (evaluable c) (a_excludes a) ->
  (alt_valid (c ++ d) a <-> alt_valid c a).
Proof.
  intros Hn Hr He. rewrite Forall_forall in Hr, He. unfold alt_valid. split; intros [H1 H2]; split.
  - intros kr Hk. apply (holds_app c d); auto.
  - intros Hne G. apply H2; [exact Hne|]. intros kr Hk. apply holds_app; auto.
  - intros kr Hk. apply holds_app; auto.
  - intros Hne G. apply H2; [exact Hne|]. intros kr Hk. apply (holds_app c d); auto.
Qed.
Lemma choice_valid_snoc (c : choice) k a :
  NoDup (map fst (c ++ [(k, a)])) -> choice_evaluable c ->
  Forall (evaluable c) (a_requires a) -> Forall (evaluable c) (a_excludes a) ->
  (choice_valid (c ++ [(k, a)]) <-> choice_valid c /\ alt_valid c a).
Proof.
  intros Hn Hc Hr He. unfold choice_valid. split.
  - intros H. split.
    + intros k' a' Hi. destruct (Hc k' a' Hi) as [E1 E2]. apply (alt_valid_app c [(k, a)]); auto.
      apply (H k'). apply in_or_app. now left.
    + apply (alt_valid_app c [(k, a)]); auto. apply (H k). apply in_or_app. right; now left.
  - intros [H1 H2] k' a' Hi. apply in_app_or in Hi. destruct Hi as [Hi|[E|[]]].
    + destruct (Hc k' a' Hi). apply alt_valid_app; eauto.
    + injection E as <- <-. now apply alt_valid_app.
Qed.
Lemma evaluable_snoc (c : choice) k a :
  choice_evaluable c -> Forall (evaluable c) (a_requires a) -> Forall (evaluable c) (a_excludes a) ->
  choice_evaluable (c ++ [(k, a)]).
Proof.
  intros Hc Hr He k' a' Hi. apply in_app_or in Hi.
  assert (H : Forall (evaluable c) (a_requires a') /\ Forall (evaluable c) (a_excludes a')).
  { destruct Hi as [Hi|[E|[]]]; [exact (Hc _ _ Hi)|]. injection E as <- <-. auto. }
  destruct H. split; (eapply Forall_impl; [|eassumption]); intros; now apply evaluable_app.
Qed.

Lemma complete_evaluable nodes : forall c t,
  complete c nodes -> choice_evaluable c -> In t (product (map node_cands nodes)) ->
  choice_evaluable (c ++ cand_choice t).
Proof.
  induction nodes as [|n nodes IH]; intros c t Hcm Hc Ht; apply product_in in Ht.
  - inversion Ht. cbn. now rewrite app_nil_r.
  - inversion Ht as [|? [k [i a]] ? t' Hp Ht']; subst. apply node_cands_in in Hp. destruct Hp as (-> & Ha & Hw).
    apply product_in in Ht'. apply nth_error_In in Ha. destruct Hcm as (H1 & _ & H3).
    change (cand_choice ((n_name n, (i, a)) :: t')) with ([(n_name n, a)] ++ cand_choice t').
    rewrite app_assoc. apply IH; [now apply H3| |exact Ht'].
    apply evaluable_snoc; [exact Hc| |]; apply Forall_forall; intros kr Hk; apply (H1 a kr Ha Hw); auto.
Qed.

Definition vb (c : choice) : bool := match tree_is_valid (branch_at c) with Ok m => m | Err _ => false end.
Lemma vb_spec (c : choice) : NoDup (map fst c) -> choice_evaluable c -> (vb c = true <-> choice_valid c).
Proof. intros Hn Hc. unfold vb. destruct (tree_is_valid_evaluable c Hn Hc) as (m & -> & H). exact H. Qed.

Lemma Qsum_zero {A} (f : A -> Q) l : (forall x, In x l -> f x == 0) -> Qsum (map f l) == 0.
Proof.
  induction l as [|x l IH]; intros H; [reflexivity|]. cbn. rewrite (H x) by now left.
  rewrite IH by (intros; apply H; now right). reflexivity.
Qed.
Lemma Qsum_flat_map {A B} (f : B -> Q) (g : A -> list B) l :
  Qsum (map f (flat_map g l)) == Qsum (map (fun x => Qsum (map f (g x))) l).
Proof. induction l as [|x l IH]; [reflexivity|]. cbn [flat_map map Qsum]. rewrite map_app, Qsum_app, IH. reflexivity. Qed.

Lemma usable_sum c alts s : forall i,
  usable_weight c alts s ->
  forall v : alternative -> bool, (forall a, In a alts -> 0 < a_weight a -> (v a = true <-> alt_valid c a)) ->
  Qsum (map (fun ia : nat * alternative => if v (snd ia) then a_weight (snd ia) else 0)
          (filter (fun ia => positive (snd ia)) (indexed_from i alts))) == s.
Proof.
  intros i H. revert i. induction H as [|a l s Hw Hv H IH|a l s Hn H IH]; intros i v Hvb.
  - reflexivity.
  - cbn [indexed_from filter snd]. rewrite (proj2 (positive_spec a) Hw). cbn [map Qsum snd].
    rewrite (proj2 (Hvb a (or_introl eq_refl) Hw) Hv), IH; [reflexivity|]. intros; apply Hvb; auto. now right.
  - cbn [indexed_from filter snd]. destruct (positive a) eqn:E; cbn [map Qsum snd].
    + apply positive_spec in E. destruct (v a) eqn:Ev.
      * exfalso. apply Hn. split; [exact E|]. apply (Hvb a); auto. now left.
      * rewrite IH; [ring|]. intros; apply Hvb; auto. now right.
    + apply IH. intros; apply Hvb; auto. now right.
Qed.

Lemma complete_sum nodes : forall c,
  complete c nodes -> choice_evaluable c -> choice_valid c -> NoDup (map fst c ++ map n_name nodes) ->
  Qsum (map (fun t => if vb (c ++ cand_choice t) then cand_weight t else 0) (product (map node_cands nodes))) == 1.
Proof.
  induction nodes as [|n nodes IH]; intros c Hcm Hc Hv Hnd.
  - cbn in Hnd |- *. rewrite app_nil_r in Hnd |- *.
    rewrite (proj2 (vb_spec c Hnd Hc) Hv). reflexivity.
  - pose proof Hcm as (H1 & H2 & H3). destruct (H2 Hv) as ((s & Hs & Es) & _).
    cbn [map product]. rewrite Qsum_flat_map.
    assert (Hn1 : NoDup (map fst c)).
    { clear -Hnd. induction (map fst c) as [|x l IH]; [constructor|]. cbn in Hnd. inversion Hnd as [|? ? Hx Hn]; subst.
      constructor; [|now apply IH]. intros Hi. apply Hx. apply in_or_app. now left. }
    assert (Hsnoc : forall a, NoDup (map fst (c ++ [(n_name n, a)]) ++ map n_name nodes)).
    { intros a. rewrite map_app. cbn. rewrite <- app_assoc. exact Hnd. }
    assert (Hsn : forall a, NoDup (map fst (c ++ [(n_name n, a)]))).
    { intros a. specialize (Hsnoc a). clear -Hsnoc. induction (map fst (c ++ [(n_name n, a)])) as [|x l IH]; [constructor|].
      cbn in Hsnoc. inversion Hsnoc as [|? ? Hx Hn]; subst. constructor; [|now apply IH].
      intros Hi. apply Hx. apply in_or_app. now left. }
    set (v := fun a => vb (c ++ [(n_name n, a)])).
    assert (Hev : forall a, In a (n_alts n) -> 0 < a_weight a ->
               Forall (evaluable c) (a_requires a) /\ Forall (evaluable c) (a_excludes a)).
    { intros a Ha Hw. split; apply Forall_forall; intros kr Hk; apply (H1 a kr Ha Hw); auto. }
    assert (Hvb : forall a, In a (n_alts n) -> 0 < a_weight a -> (v a = true <-> alt_valid c a)).
    { intros a Ha Hw. destruct (Hev a Ha Hw) as [E1 E2]. unfold v.
      rewrite vb_spec; [|apply Hsn|now apply evaluable_snoc].
      rewrite choice_valid_snoc; auto. tauto. }
    rewrite <- Es, <- (usable_sum c (n_alts n) s 0 Hs v Hvb).
    set (P := product (map node_cands nodes)). unfold node_cands. rewrite map_map. unfold P. clear P.
    apply Qsum_map_eq. intros [i a] Hi.
    apply filter_In in Hi. destruct Hi as [Hi Hp]. apply indexed_in in Hi. destruct Hi as [_ Hi].
    apply nth_error_In in Hi. cbn in Hp. apply positive_spec in Hp. cbn [snd].
    destruct (Hev a Hi Hp) as [E1 E2].
    rewrite map_map. destruct (v a) eqn:Eva.
    + assert (Hva : alt_valid c a) by (apply (Hvb a Hi Hp); exact Eva).
      transitivity (a_weight a * Qsum (map (fun t => if vb ((c ++ [(n_name n, a)]) ++ cand_choice t) then cand_weight t else 0)
         (product (map node_cands nodes)))).
      * rewrite <- Qsum_scale. apply Qsum_map_eq. intros t _.
        change (cand_choice ((n_name n, (i, a)) :: t)) with ([(n_name n, a)] ++ cand_choice t).
        rewrite app_assoc. destruct (vb _); [reflexivity|ring].
      * rewrite IH; [ring| | | |apply Hsnoc].
        -- now apply H3. -- now apply evaluable_snoc. -- apply choice_valid_snoc; auto.
    + apply Qsum_zero. intros t Ht.
      change (cand_choice ((n_name n, (i, a)) :: t)) with ([(n_name n, a)] ++ cand_choice t).
      destruct (vb (c ++ [(n_name n, a)] ++ cand_choice t)) eqn:Evb; [|reflexivity]. exfalso.
      assert (Hnn : NoDup (map fst (c ++ [(n_name n, a)] ++ cand_choice t))).
      { rewrite app_assoc, map_app. assert (E : map fst (cand_choice t) = map n_name nodes) by now apply (cands_names nodes).
        rewrite E. apply Hsnoc. }
      apply vb_spec in Evb; [|exact Hnn|].
      * assert (Hva : alt_valid c a).
        { apply (alt_valid_app c ([(n_name n, a)] ++ cand_choice t)); auto.
          apply (Evb (n_name n)). apply in_or_app. right. now left. }
        apply (Hvb a Hi Hp) in Hva. congruence.
      * rewrite app_assoc. apply (complete_evaluable nodes); [now apply H3|now apply evaluable_snoc|exact Ht].
Qed.

(** Valid candidates of a complete tree have different values. *)
Lemma complete_distinct nodes : forall c s t,
  complete c nodes -> choice_evaluable c -> NoDup (map fst c ++ map n_name nodes) ->
  In s (product (map node_cands nodes)) -> In t (product (map node_cands nodes)) -> cand_lt s t ->
  choice_valid (c ++ cand_choice s) -> choice_valid (c ++ cand_choice t) ->
  ~ same_values (cand_choice s) (cand_choice t).
Proof.
  induction nodes as [|n nodes IH]; intros c s t Hcm Hc Hnd Hs Ht Hl Hvs Hvt Hsv.
  - apply product_in in Hs. inversion Hs; subst. inversion Hl.
  - pose proof (cands_names (n :: nodes) s Hs) as Ns. pose proof (cands_names (n :: nodes) t Ht) as Nt.
    apply product_in in Hs, Ht.
    inversion Hs as [|? [k [i a]] ? s' Hp Hs']; subst. inversion Ht as [|? [k' [j b]] ? t' Hq Ht']; subst.
    apply node_cands_in in Hp, Hq. destruct Hp as (-> & Ha & Hwa). destruct Hq as (-> & Hb & Hwb).
    destruct Hcm as (H1 & H2 & H3).
    pose proof (nth_error_In _ _ Ha) as Hia. pose proof (nth_error_In _ _ Hb) as Hib.
    assert (Hev : forall x, In x (n_alts n) -> 0 < a_weight x ->
               Forall (evaluable c) (a_requires x) /\ Forall (evaluable c) (a_excludes x)).
    { intros x Hx Hw. split; apply Forall_forall; intros kr Hk; apply (H1 x kr Hx Hw); auto. }
    destruct (Hev a Hia Hwa) as [Ea1 Ea2]. destruct (Hev b Hib Hwb) as [Eb1 Eb2].
    unfold cand_lt in Hl. cbn in Hl. inversion Hl as [? ? ? ? Hij|? ? ? Hl']; subst.
    + assert (Hn1 : NoDup (map fst (c ++ cand_choice ((n_name n, (i, a)) :: s')))) by (rewrite map_app, Ns; exact Hnd).
      assert (Hn2 : NoDup (map fst (c ++ cand_choice ((n_name n, (j, b)) :: t')))) by (rewrite map_app, Nt; exact Hnd).
      assert (Hvc : choice_valid c).
      { intros k x Hi. destruct (Hc k x Hi) as [X1 X2]. apply (alt_valid_app c _ x Hn1 X1 X2).
        apply (Hvs k). apply in_or_app. now left. }
      destruct (H2 Hvc) as (_ & Hd). apply (Hd i j a b Hij Ha Hb Hwa Hwb).
      * eapply (alt_valid_app c); [exact Hn1|exact Ea1|exact Ea2|]. apply (Hvs (n_name n)). apply in_or_app. right; now left.
      * eapply (alt_valid_app c); [exact Hn2|exact Eb1|exact Eb2|]. apply (Hvt (n_name n)). apply in_or_app. right; now left.
      * inversion Hsv as [|? ? ? ? [_ E] _]; subst. exact E.
    + assert (a = b) by congruence. subst b.
      apply product_in in Hs', Ht'.
      change (cand_choice ((n_name n, (j, a)) :: s')) with ([(n_name n, a)] ++ cand_choice s') in *.
      change (cand_choice ((n_name n, (j, a)) :: t')) with ([(n_name n, a)] ++ cand_choice t') in *.
      rewrite app_assoc in Hvs, Hvt.
      apply (IH (c ++ [(n_name n, a)]) s' t'); auto.
      * now apply evaluable_snoc.
      * rewrite map_app. cbn. rewrite <- app_assoc. exact Hnd.
      * inversion Hsv; subst; assumption.
Qed.

Lemma Qsum_filter {A} (f : A -> bool) (w : A -> Q) l :
  Qsum (map w (filter f l)) == Qsum (map (fun x => if f x then w x else 0) l).
Proof. induction l as [|x l IH]; [reflexivity|]. cbn. destruct (f x); cbn; rewrite IH; ring. Qed.

Lemma total_weight_complete nodes :
  NoDup (map n_name nodes) -> Forall no_lists nodes -> complete [] nodes ->
  exists bs, tree_iter nodes = (bs, None) /\ Qsum (map branch_weight bs) == 1.
Proof.
  intros Hn Hnl Hcm. assert (H0 : choice_evaluable []) by (intros k a []).
  eexists. split.
  - apply iter_no_duplicates; [exact Hn|exact Hnl| |].
    + intros t Ht. exact (complete_evaluable nodes [] t Hcm H0 Ht).
    + intros s t Hs Ht Hl Hvs Hvt. exact (complete_distinct nodes [] s t Hcm H0 Hn Hs Ht Hl Hvs Hvt).
  - rewrite map_map, (Qsum_map_eq _ cand_weight) by (intros; apply branch_at_weight).
    rewrite Qsum_filter. change validb with (fun t => vb ([] ++ cand_choice t)).
    apply (complete_sum nodes []); auto. intros k a [].
Qed.

(** Repeated values lose weight. *)
Definition twice_tree : list node :=
  [mkNode "A" [mkAlt (VStr "p") 1 [] []];
   mkNode "B" [mkAlt (VStr "x") (1 # 2) [("A", RList [VStr "p"; VStr "q"])] [];
               mkAlt (VStr "x") (1 # 2) [] []]]%string.
Lemma twice_valid : forall c, choice_of twice_tree c -> choice_valid c.
Proof.
  intros c H. unfold choice_of, twice_tree in H.
  inversion H as [|? [k1 a1] ? c1 (E1 & I1 & _) H1]; subst. inversion H1 as [|? [k2 a2] ? c2 (E2 & I2 & _) H2]; subst.
  inversion H2; subst. cbn in *. subst. destruct I1 as [<-|[]].
  assert (P : cond_holds [("A"%string, mkAlt (VStr "p") 1 [] []); ("B"%string, a2)] ("A"%string, RList [VStr "p"; VStr "q"])).
  { eexists. split; [now left|]. cbn. econstructor; [now left|constructor]. }
  intros k a [E|[E|[]]]; injection E as <- <-.
  - split; [intros kr []|]. intros G; now elim G.
  - destruct I2 as [<-|[<-|[]]]; cbn in *; (split; [|intros G; now elim G]).
    + intros kr [<-|[]]. exact P. + intros kr [].
Qed.
Lemma weight_lost :
  tree_wf twice_tree /\ (forall c, choice_of twice_tree c -> choice_valid c) /\
  Qprod (map (fun n => Qsum (map a_weight (n_alts n))) twice_tree) == 1 /\
  exists bs, tree_iter twice_tree = (bs, None) /\ Qsum (map branch_weight bs) == 1 # 2.
Proof.
  split.
  { split; [repeat constructor; cbn; intuition congruence|].
    split; [apply Forall_forall; intros n Hn a l Ha E;
            destruct Hn as [<-|[<-|[]]]; cbn in Ha; intuition (subst; discriminate)|].
    intros n a Hn Ha kr Hk. exists (mkNode "A" [mkAlt (VStr "p") 1 [] []]).
    split; [now left|]. destruct Hn as [<-|[<-|[]]]; cbn in Ha.
    - destruct Ha as [<-|[]]; cbn in Hk; destruct Hk as [[]|[]].
    - destruct Ha as [<-|[<-|[]]]; cbn in Hk.
      + destruct Hk as [[<-|[]]|[]]. split; [reflexivity|]. intros; exact I.
      + destruct Hk as [[]|[]]. }
  split; [exact twice_valid|]. split; [reflexivity|].
  eexists. split; [vm_compute; reflexivity|]. vm_compute. reflexivity.
Qed.

(** Miller and Rice: a finite table. *)
Definition symmetric (l : list (Q * Q)) : Prop :=
  Forall2 (fun p q => fst p + fst q == 1 /\ snd p == snd q) l (rev l).
Definition fractions (n : node) : list (Q * Q) :=
  map (fun a => (match a_value a with VFloat q => q | _ => 0 end, a_weight a)) (n_alts n).
Definition node_table (n : node) (t : list (Q * Q)) : Prop :=
  n_alts n = map (fun p => mkAlt (VFloat (fst p)) (snd p) [] []) t.

Definition symb (l : list (Q * Q)) : bool :=
  forallb (fun pq => Qeq_bool (fst (fst pq) + fst (snd pq)) 1 && Qeq_bool (snd (fst pq)) (snd (snd pq)))
    (combine l (rev l)).
Fixpoint increasingb (l : list (Q * Q)) : bool :=
  match l with
  | [] => true
  | p :: rest => forallb (fun q => negb (Qle_bool (fst q) (fst p))) rest && increasingb rest
  end.
Definition tableb (l : list (Q * Q)) : bool :=
  symb l && increasingb l && forallb (fun p => negb (Qle_bool (snd p) 0)) l &&
  Qle_bool (Qabs (Qsum (map snd l) - 1)) (1 # 1000000) && forallb (fun p => negb (Qle_bool (fst p) 0) && negb (Qle_bool 1 (fst p))) l.
Lemma Qltb_lt x y : negb (Qle_bool y x) = true -> x < y.
Proof.
  intros H. apply negb_true_iff in H. apply Qnot_le_lt. intros G. apply Qle_bool_iff in G. congruence.
Qed.
Lemma tableb_spec l : tableb l = true ->
  symmetric l /\ StronglySorted (fun p q => fst p < fst q) l /\ Forall (fun p => 0 < snd p) l /\
  Qabs (Qsum (map snd l) - 1) <= 1 # 1000000 /\ Forall (fun p => 0 < fst p < 1) l.
Proof.
  unfold tableb. rewrite !andb_true_iff. intros ((((H1 & H2) & H3) & H4) & H5).
  split; [|split; [|split; [|split]]].
  - unfold symb in H1. unfold symmetric. assert (L : List.length l = List.length (rev l)) by now rewrite rev_length.
    revert H1 L. generalize (rev l). clear. induction l as [|p l IH]; intros [|q m] H L; try discriminate; [constructor|].
    cbn in H. apply andb_true_iff in H. destruct H as [H H']. apply andb_true_iff in H. destruct H as [E1 E2].
    constructor; [split; now apply Qeq_bool_iff|]. apply IH; [exact H'|]. now injection L.
  - clear -H2. induction l as [|p l IH]; [constructor|]. cbn in H2. apply andb_true_iff in H2. destruct H2 as [A B].
    constructor; [auto|]. apply Forall_forall. intros q Hq. rewrite forallb_forall in A. apply Qltb_lt. auto.
  - rewrite forallb_forall in H3. apply Forall_forall. intros p Hp. apply Qltb_lt. auto.
  - now apply Qle_bool_iff.
  - rewrite forallb_forall in H5. apply Forall_forall. intros p Hp. specialize (H5 p Hp). apply andb_true_iff in H5.
    split; apply Qltb_lt; apply H5.
Qed.

Lemma miller_rice_table name n :
  (2 <= n <= 10)%nat ->
  exists t node, from_miller_rice name n = Ok node /\ n_name node = name /\ node_table node t /\
    List.length t = n /\ symmetric t /\ StronglySorted (fun p q => fst p < fst q) t /\
    Forall (fun p => 0 < snd p) t /\ Forall (fun p => 0 < fst p < 1) t /\
    Qabs (Qsum (map snd t) - 1) <= 1 # 1000000.
Proof.
  intros Hn.
  assert (G : forall l, miller_rice_data n = Some l -> List.length l = n ->
     tableb (map (fun p => (fst p # 1000000, snd p # 1000000)) l) = true ->
     exists t node, from_miller_rice name n = Ok node /\ n_name node = name /\ node_table node t /\
    List.length t = n /\ symmetric t /\ StronglySorted (fun p q => fst p < fst q) t /\
    Forall (fun p => 0 < snd p) t /\ Forall (fun p => 0 < fst p < 1) t /\
    Qabs (Qsum (map snd t) - 1) <= 1 # 1000000).
  { intros l E L Hb. unfold from_miller_rice. rewrite E. exists (map (fun p => (fst p # 1000000, snd p # 1000000)) l).
    eexists. split; [reflexivity|]. split; [reflexivity|]. split; [unfold node_table; cbn; now rewrite map_map|].
    apply tableb_spec in Hb. destruct Hb as (B1 & B2 & B3 & B4 & B5). rewrite map_length. auto 10. }
  assert (n = 2 \/ n = 3 \/ n = 4 \/ n = 5 \/ n = 6 \/ n = 7 \/ n = 8 \/ n = 9 \/ n = 10)%nat as Hc by lia.
  clear Hn.
  destruct Hc as [->|[->|[->|[->|[->|[->|[->|[->| ->]]]]]]]];
    (eapply G; [reflexivity|reflexivity|vm_compute; reflexivity]).
Qed.
Lemma miller_rice_other name n : ~ (2 <= n <= 10)%nat -> from_miller_rice name n = Err KeyError.
Proof.
  intros H. unfold from_miller_rice.
  do 11 (destruct n as [|n]; [try reflexivity; lia|]). reflexivity.
Qed.
Lemma miller_rice_exact name n node :
  from_miller_rice name n = Ok node ->
  (Qsum (map a_weight (n_alts node)) == 1 <-> n <> 3%nat /\ n <> 9%nat).
Proof.
  intros H. destruct (le_dec 2 n) as [H2|H2]; [destruct (le_dec n 10) as [H10|H10]|].
  2: rewrite miller_rice_other in H by lia; discriminate.
  2: rewrite miller_rice_other in H by lia; discriminate.
  assert (n = 2 \/ n = 3 \/ n = 4 \/ n = 5 \/ n = 6 \/ n = 7 \/ n = 8 \/ n = 9 \/ n = 10)%nat as Hc by lia.
  clear H2 H10.
  destruct Hc as [->|[->|[->|[->|[->|[->|[->|[->| ->]]]]]]]]; injection H as <-; vm_compute;
    (split; [intros E; try discriminate; split; discriminate|intros [E1 E2]; try reflexivity; now elim E1 || now elim E2]).
Qed.
