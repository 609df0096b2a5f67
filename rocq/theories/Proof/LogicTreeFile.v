(** Logic trees from JSON, trees that cannot be hashed, and lookup by value. *)
From Coq Require Import QArith String Qabs Sorted.
From Verif Require Import Common Model.LogicTree Spec.LogicTreeSpec Proof.CommonFacts Proof.LogicTreeFacts
  Proof.LogicTreeProps Proof.LogicTreeComplete.
Local Open Scope Q_scope.

(** Dictionaries. *)
Lemma get_in {A} (d : list (string * A)) k x : NoDup (map fst d) -> In (k, x) d -> dict_get d k = Ok x.
Proof.
  induction d as [|[k' y] d IH]; intros Hn Hi; [destruct Hi|]. inversion Hn as [|? ? Hk Hn']; subst.
  cbn [dict_get]. destruct Hi as [E|Hi].
  - injection E as -> ->. now rewrite String.eqb_refl.
  - destruct (String.eqb_spec k' k) as [->|_]; [|auto]. exfalso. apply Hk. now apply (in_map fst) in Hi.
Qed.
Lemma get_missing {A} (d : list (string * A)) k : ~ In k (map fst d) -> dict_get d k = Err KeyError.
Proof.
  induction d as [|[k' y] d IH]; intros H; [reflexivity|]. cbn [dict_get].
  destruct (String.eqb_spec k' k) as [->|_]; [exfalso; apply H; now left|]. apply IH. intros G. apply H. now right.
Qed.
Lemma get_ok {A} (d : list (string * A)) k x : dict_get d k = Ok x -> In (k, x) d.
Proof.
  induction d as [|[k' y] d IH]; [discriminate|]. cbn [dict_get].
  destruct (String.eqb_spec k' k) as [->|_]; [intros E; injection E as ->; now left|]. intros E. right. auto.
Qed.
Lemma get_err {A} (d : list (string * A)) k e : dict_get d k = Err e -> ~ In k (map fst d) /\ e = KeyError.
Proof.
  induction d as [|[k' y] d IH]; [intros E; injection E as <-; split; [intros []|reflexivity]|]. cbn [dict_get].
  destruct (String.eqb_spec k' k) as [->|Hk]; [discriminate|]. intros E. destruct (IH E) as [H ->].
  split; [|reflexivity]. intros [G|G]; cbn in G; auto.
Qed.
Lemma field_keyword {A} d k (f : json -> option A) (writes : json -> A -> Prop) default x y g :
  NoDup (map fst d) -> field_json d k writes default x -> (forall j, writes j x -> f j = Some (g x)) ->
  g default = default -> y = g x -> keyword d k f (Some default) = Some y.
Proof.
  intros Hn [(j & Hj & Hw)|[Hm ->]] Hf Hg ->; unfold keyword.
  - rewrite (get_in d k j Hn Hj). auto.
  - rewrite (get_missing d k Hm). now rewrite Hg.
Qed.

(** Values. *)
Lemma strings_read l : json_strings (map JStr l) = Some l.
Proof. unfold json_strings. induction l as [|s l IH]; [reflexivity|]. cbn [map map_opt]. now rewrite IH. Qed.
Lemma value_read v : json_value (value_json v) = Some (untuple_value v).
Proof. destruct v; cbn [value_json json_value untuple_value]; rewrite ?strings_read; reflexivity. Qed.
Lemma values_read l : map_opt json_value (map value_json l) = Some (map untuple_value l).
Proof. induction l as [|v l IH]; [reflexivity|]. cbn [map map_opt]. now rewrite value_read, IH. Qed.
Lemma texts_read l : map_opt json_value (map JStr l) = Some (map VStr l).
Proof. induction l as [|v l IH]; [reflexivity|]. cbn [map map_opt json_value]. now rewrite IH. Qed.
Lemma reference_read r : json_reference (reference_json r) = Some (untuple_ref r).
Proof.
  destruct r as [v|l]; cbn [reference_json untuple_ref]; [|cbn [json_reference]; now rewrite values_read].
  destruct v; cbn [value_json json_reference json_value]; rewrite ?texts_read; reflexivity.
Qed.
Lemma conds_read d j : conds_json j d -> json_conds j = Some (untuple_conds d).
Proof.
  intros H; destruct H as [d]. cbn [json_conds]. unfold untuple_conds.
  induction d as [|[k r] d IH]; [reflexivity|]. cbn [map map_opt fst snd]. now rewrite reference_read, IH.
Qed.
Lemma weight_read j q : number_json j q -> json_weight j = Some q.
Proof. intros H; destruct H; reflexivity. Qed.

Lemma in_keys k : existsb (String.eqb k) alt_keys = true <-> In k ["value"; "weight"; "requires"; "excludes"; "params"]%string.
Proof.
  rewrite existsb_exists. split.
  - intros (x & Hx & E). apply String.eqb_eq in E. now subst.
  - intros H. exists k. split; [exact H|]. apply String.eqb_refl.
Qed.
Lemma alt_read j a : alt_json j a -> alt_from_json j = Ok (Some (untuple_alt a)).
Proof.
  intros (d & -> & Hn & Hk & Hv & Hw & Hr & He). cbn [alt_from_json].
  assert (F : forallb (fun p => existsb (String.eqb (fst p)) alt_keys) d = true).
  { apply forallb_forall. intros p Hp. apply in_keys, Hk. now apply in_map. }
  rewrite F. cbn [negb]. rewrite (get_in _ _ _ Hn Hv), value_read.
  assert (Ew : keyword d "weight" json_weight (Some 1) = Some (a_weight a)).
  { apply (field_keyword d "weight" json_weight number_json 1 (a_weight a) _ (fun x => x) Hn Hw); auto.
    intros; now apply weight_read. }
  assert (Er : keyword d "requires" json_conds (Some []) = Some (untuple_conds (a_requires a))).
  { apply (field_keyword d "requires" json_conds conds_json [] (a_requires a) _ untuple_conds Hn Hr); auto.
    intros; now apply conds_read. }
  assert (Ee : keyword d "excludes" json_conds (Some []) = Some (untuple_conds (a_excludes a))).
  { apply (field_keyword d "excludes" json_conds conds_json [] (a_excludes a) _ untuple_conds Hn He); auto.
    intros; now apply conds_read. }
  rewrite Ew, Er, Ee. reflexivity.
Qed.
Lemma alts_read js alts : Forall2 alt_json js alts -> alts_from js = Ok (map (fun a => Some (untuple_alt a)) alts).
Proof.
  intros H; induction H as [|j a js alts Hj H IH]; [reflexivity|]. cbn [alts_from map].
  rewrite (alt_read _ _ Hj), IH. reflexivity.
Qed.
Lemma all_some {A B} (f : A -> B) l : map_opt (fun o => o) (map (fun a => Some (f a)) l) = Some (map f l).
Proof. induction l as [|a l IH]; [reflexivity|]. cbn [map map_opt]. now rewrite IH. Qed.
Lemma node_read j n : node_json j n -> node_from_json j = Ok (Some (untuple n)).
Proof.
  intros (d & js & -> & Hn & Hname & Halts & H). cbn [node_from_json].
  rewrite (get_in _ _ _ Hn Hname), (get_in _ _ _ Hn Halts). cbn [bind json_iter].
  rewrite (alts_read _ _ H). cbn [bind]. now rewrite all_some.
Qed.

(** C130: what is read from the JSON of a tree is the tree with lists for tuples. *)
Lemma tree_read j nodes : tree_json j nodes -> from_list j = Ok (Some (map untuple nodes)).
Proof.
  intros (js & -> & H). unfold from_list. cbn [json_iter bind].
  assert (E : nodes_from js = Ok (map (fun n => Some (untuple n)) nodes)).
  { induction H as [|j n js nodes Hj H IH]; [reflexivity|]. cbn [nodes_from map].
    now rewrite (node_read _ _ Hj), IH. }
  rewrite E. cbn [bind]. now rewrite all_some.
Qed.

Lemma plain_same v : plain_value v -> untuple_value v = v.
Proof. destruct v; cbn; tauto. Qed.
Lemma map_same {A} (f : A -> A) l : Forall (fun x => f x = x) l -> map f l = l.
Proof. intros H; induction H as [|x l E H IH]; [reflexivity|]. cbn. now rewrite E, IH. Qed.
Lemma plain_ref_same r : plain_ref r -> untuple_ref r = r.
Proof.
  destruct r as [v|l]; cbn.
  - destruct v; cbn; tauto.
  - intros H. f_equal. apply map_same. eapply Forall_impl; [|exact H]. intros; now apply plain_same.
Qed.
Lemma plain_conds_same d : Forall (fun kr => plain_ref (snd kr)) d -> untuple_conds d = d.
Proof.
  intros H. apply map_same. eapply Forall_impl; [|exact H]. intros [k r] Hr. cbn in *. now rewrite plain_ref_same.
Qed.
Lemma plain_tree_same nodes : plain_tree nodes -> map untuple nodes = nodes.
Proof.
  intros H. apply map_same. eapply Forall_impl; [|exact H]. intros [k alts] Ha. unfold untuple. cbn in *.
  f_equal. apply map_same. eapply Forall_impl; [|exact Ha]. intros [v w r e] (P1 & P2 & P3).
  unfold untuple_alt. cbn in *. now rewrite plain_same, !plain_conds_same.
Qed.
Lemma plain_read j nodes : tree_json j nodes -> plain_tree nodes -> from_list j = Ok (Some nodes).
Proof. intros H P. rewrite (tree_read j nodes H). now rewrite plain_tree_same. Qed.

(** Errors. *)
Lemma alt_from_problem j : (alt_problem j <-> alt_from_json j = Err TypeError) /\
  (~ alt_problem j -> exists o, alt_from_json j = Ok o).
Proof.
  destruct j as [| | | | | |d]; cbn [alt_from_json].
  1-6: (split; [split; [reflexivity|intros _; constructor; discriminate]|intros H; exfalso; apply H; constructor; discriminate]).
  destruct (forallb (fun p => existsb (String.eqb (fst p)) alt_keys) d) eqn:F; cbn [negb].
  - rewrite forallb_forall in F.
    assert (K : forall k, In k (map fst d) -> In k ["value"; "weight"; "requires"; "excludes"; "params"]%string).
    { intros k Hk. apply in_map_iff in Hk. destruct Hk as (p & <- & Hp). apply in_keys, (F p Hp). }
    destruct (dict_get d "value") as [v|e] eqn:E.
    + apply get_ok in E. apply (in_map fst) in E. cbn in E. split; [split; [|discriminate]|eauto].
      intros H. exfalso. inversion H as [j0 Hj|d0 k Hk Hn|d0 Hn]; subst; [exact (Hj d eq_refl)|auto|auto].
    + apply get_err in E. destruct E as [E _]. split; [split; [reflexivity|]|].
      * intros _. now apply ap_value.
      * intros H. exfalso. apply H. now apply ap_value.
  - assert (exists k, In k (map fst d) /\ ~ In k ["value"; "weight"; "requires"; "excludes"; "params"]%string) as (k & Hk & Hn).
    { clear -F. induction d as [|p d IH]; [discriminate|]. cbn [forallb] in F. apply andb_false_iff in F. destruct F as [F|F].
      - exists (fst p). split; [now left|]. intros G. apply in_keys in G. congruence.
      - destruct (IH F) as (k & Hk & Hn). exists k. split; [now right|exact Hn]. }
    split; [split; [reflexivity|intros _; now apply (ap_key d k)]|]. intros H. exfalso. apply H. now apply (ap_key d k).
Qed.
Lemma alts_from_cases js :
  (exists os, alts_from js = Ok os /\ Forall (fun j => ~ alt_problem j) js) \/
  (alts_from js = Err TypeError /\ exists j, In j js /\ alt_problem j).
Proof.
  induction js as [|j js IH]; [left; exists []; split; [reflexivity|constructor]|]. cbn [alts_from].
  destruct (alt_from_problem j) as [A B]. destruct (alt_from_json j) as [o|e] eqn:E; cbn [bind].
  - assert (Hj : ~ alt_problem j) by (intros H; apply A in H; discriminate).
    destruct IH as [(os & -> & Hos)|(-> & i & Hi & Hp)]; cbn [bind].
    + left. eexists. split; [reflexivity|]. now constructor.
    + right. split; [reflexivity|]. exists i. split; [now right|exact Hp].
  - destruct e; try (assert (N : ~ alt_problem j) by (intros H; apply A in H; discriminate);
      destruct (B N); discriminate). right. split; [reflexivity|]. exists j. split; [now left|]. now apply A.
Qed.
Lemma node_from_problem j : distinct_keys j ->
  (forall e, node_problem j e <-> node_from_json j = Err e).
Proof.
  intros Hd e. destruct j as [| | | | | |d]; cbn [node_from_json].
  1-6: (split; [intros H; inversion H; reflexivity|intros H; injection H as <-; constructor; discriminate]).
  specialize (Hd d eq_refl).
  destruct (dict_get d "name") as [nm|e1] eqn:En; cbn [bind].
  2:{ apply get_err in En. destruct En as [En ->]. split.
      - intros H; inversion H; subst; try contradiction; [|reflexivity]. exfalso. now apply (H0 d).
      - intros H; injection H as <-. now apply np_name. }
  apply get_ok in En. apply (in_map fst) in En. cbn in En.
  destruct (dict_get d "alts") as [al|e1] eqn:Ea; cbn [bind].
  2:{ apply get_err in Ea. destruct Ea as [Ea ->].
      assert (X : forall j, ~ In ("alts"%string, j) d) by (intros j Hj; apply Ea; now apply (in_map fst) in Hj).
      split.
      - intros H; inversion H; subst; try contradiction; try reflexivity.
        + exfalso. now apply (H0 d). + exfalso; eapply X; eauto. + exfalso; eapply X; eauto. + exfalso; eapply X; eauto.
      - intros H; injection H as <-. now apply np_alts. }
  apply get_ok in Ea. assert (Ek : In "alts"%string (map fst d)) by now apply (in_map fst) in Ea.
  assert (Eu : forall j, In ("alts"%string, j) d -> j = al).
  { intros j Hj. apply (get_in _ _ _ Hd) in Ea, Hj. congruence. }
  assert (Inv : forall P : Prop,
    ((e = TypeError /\ (forall l s o, al <> JList l /\ al <> JStr s /\ al <> JObj o)) -> P) ->
    ((e = TypeError /\ ((exists c s, al = JStr (String c s)) \/ (exists p o, al = JObj (p :: o)))) -> P) ->
    (forall js j, e = TypeError -> al = JList js -> In j js -> alt_problem j -> P) ->
    node_problem (JObj d) e -> P).
  { intros P P1 P2 P3 H. inversion H as [j0 Hj|d0 Hm|d0 Hm Hm2|d0 j0 Hm Hj Hk|d0 j0 Hm Hj Hk|d0 js j0 Hm Hj Hk Hp]; subst.
    - exfalso. now apply (Hj d). - contradiction. - contradiction.
    - apply P1. rewrite <- (Eu _ Hj). auto. - apply P2. rewrite <- (Eu _ Hj). auto.
    - apply (P3 js j0); auto. symmetry. auto. }
  assert (K : forall cs, alts_from (map JStr cs) = match cs with [] => Ok [] | _ => Err TypeError end).
  { intros [|c cs]; reflexivity. }
  destruct al as [| | | |s|js|o]; cbn [json_iter bind].
  1-4: (split; [apply Inv; [now intros [-> _]|now intros [-> _]|discriminate]|]; intros H; injection H as <-;
        eapply np_items; eauto; intros; repeat split; discriminate).
  - destruct s as [|c s]; cbn [list_ascii_of_string map alts_from alt_from_json bind map_opt].
    + split; [|destruct nm; discriminate]. apply Inv.
      * intros [_ H]. exfalso. destruct (H [] EmptyString []) as (_ & H' & _). now apply H'.
      * intros [_ [(c & s & H)|(p & o & H)]]; discriminate.
      * discriminate.
    + split; [intros H; revert H; apply Inv; [now intros [-> _]|now intros [-> _]|discriminate]|].
      intros H; injection H as <-. eapply np_other; eauto.
  - destruct (alts_from_cases js) as [(os & -> & Hos)|(-> & j & Hj & Hp)]; cbn [bind].
    + split; [|discriminate]. rewrite Forall_forall in Hos. apply Inv.
      * intros [_ H]. exfalso. destruct (H js EmptyString []) as (H' & _). now apply H'.
      * intros [_ [(c & s & H)|(p & o & H)]]; discriminate.
      * intros js' j _ E Hj Hp. injection E as <-. exfalso. exact (Hos j Hj Hp).
    + split; [apply Inv; [now intros [-> _]|now intros [-> _]|now intros ? ? ->]|].
      intros H; injection H as <-. eapply np_item; eauto.
  - destruct o as [|p o]; cbn [map alts_from alt_from_json bind map_opt].
    + split; [|destruct nm; discriminate]. apply Inv.
      * intros [_ H]. exfalso. destruct (H [] EmptyString []) as (_ & _ & H'). now apply H'.
      * intros [_ [(c & s & H)|(p & o & H)]]; discriminate.
      * discriminate.
    + split; [intros H; revert H; apply Inv; [now intros [-> _]|now intros [-> _]|discriminate]|].
      intros H; injection H as <-. eapply np_other; eauto.
Qed.
(** C131: reading fails exactly at the first item that is not a node. *)
Lemma tree_problem js e : Forall distinct_keys js ->
  (from_list (JList js) = Err e <->
   exists pre j post, js = pre ++ j :: post /\ node_problem j e /\ forall i e', In i pre -> ~ node_problem i e').
Proof.
  intros Hd. unfold from_list. cbn [json_iter bind].
  assert (G : nodes_from js = Err e <->
    exists pre j post, js = pre ++ j :: post /\ node_problem j e /\ forall i e', In i pre -> ~ node_problem i e').
  { induction Hd as [|j js Hj Hd IH].
    - split; [discriminate|]. intros (pre & j & post & E & _). destruct pre; discriminate.
    - cbn [nodes_from]. pose proof (node_from_problem j Hj) as Hp. destruct (node_from_json j) as [o|e1]; cbn [bind].
      + assert (Hok : forall e', ~ node_problem j e') by (intros e' H; apply Hp in H; discriminate).
        transitivity (nodes_from js = Err e).
        { destruct (nodes_from js); cbn [bind]; split; intros H; try discriminate; exact H. }
        rewrite IH. split.
        * intros (pre & i & post & -> & H1 & H2). exists (j :: pre), i, post. split; [reflexivity|]. split; [exact H1|].
          intros x e' [<-|Hx]; [apply Hok|now apply H2].
        * intros (pre & i & post & E & H1 & H2). destruct pre as [|x pre].
          -- cbn in E. injection E as <- <-. exfalso. exact (Hok e H1).
          -- cbn in E. injection E as <- ->. exists pre, i, post. split; [reflexivity|]. split; [exact H1|].
             intros; apply H2. now right.
      + split.
        * intros H; injection H as <-. exists [], j, js. split; [reflexivity|]. split; [now apply Hp|]. intros ? ? [].
        * intros (pre & i & post & E & H1 & H2). destruct pre as [|x pre].
          -- cbn in E. injection E as <- <-. apply Hp in H1. congruence.
          -- cbn in E. injection E as <- ->. exfalso. apply (H2 j e1); [now left|]. now apply Hp. }
  rewrite <- G. destruct (nodes_from js); cbn [bind]; split; intros H; congruence.
Qed.

(** C130: a node whose values are all lists. *)
Lemma choice_node nodes c n : In n nodes -> choice_of nodes c ->
  exists a, In (n_name n, a) c /\ In a (n_alts n) /\ 0 < a_weight a.
Proof.
  intros Hin Hc. unfold choice_of in Hc. induction Hc as [|m p ns c (E1 & E2 & E3) H IH]; [destruct Hin|].
  destruct Hin as [<-|Hin].
  - exists (snd p). destruct p as [k a]. cbn in *. subst. split; [now left|]. auto.
  - destruct (IH Hin) as (a & G1 & G2). exists a. split; [now right|exact G2].
Qed.
Lemma choice_cand nodes c : choice_of nodes c -> exists t, In t (cands nodes) /\ cand_choice t = c.
Proof.
  intros Hc. unfold choice_of in Hc.
  assert (G : exists t, Forall2 (fun l x => In x l) (map node_cands nodes) t /\ cand_choice t = c).
  { induction Hc as [|m p ns c (E1 & E2 & E3) H (t & H1 & H2)]; [exists []; split; [constructor|reflexivity]|].
    apply In_nth_error in E2. destruct E2 as [i Hi]. destruct p as [k a]. cbn in *. subst k.
    exists ((n_name m, (i, a)) :: t). split; [|unfold cand_choice in *; cbn; now rewrite H2].
    constructor; [|exact H1]. now apply node_cands_in. }
  destruct G as (t & H1 & H2). exists t. split; [|exact H2]. now apply (product_in _ _).
Qed.
Lemma lists_yield_nothing nodes n :
  NoDup (map n_name nodes) -> In n nodes ->
  (forall a, In a (n_alts n) -> 0 < a_weight a -> exists l, a_value a = VList l) ->
  fst (tree_iter nodes) = [] /\
  ((forall n a, In n nodes -> In a (n_alts n) ->
      forall kr, In kr (a_requires a) \/ In kr (a_excludes a) -> cond_wf nodes kr) ->
   (exists c, choice_of nodes c /\ choice_valid c) -> tree_iter nodes = ([], Some TypeError)).
Proof.
  intros Hn Hin Hl. unfold tree_iter. rewrite product_cands.
  assert (Hh : forall t, In t (cands nodes) -> ~ hashed (cand_choice t)).
  { intros t Ht Hh. apply cands_in in Ht. destruct Ht as [_ Hc].
    destruct (choice_node _ _ _ Hin Hc) as (a & H1 & H2 & H3).
    destruct (Hl a H2 H3) as [l El]. exact (Hh _ _ _ H1 El). }
  assert (Hnd : forall t, In t (cands nodes) -> NoDup (map fst (cand_choice t))).
  { intros t Ht. now rewrite (cands_names nodes). }
  assert (St : forall t seen T, In t (cands nodes) ->
    iter_loop seen (map (fun t => map real_of (cand_choice t)) (t :: T)) =
    match tree_is_valid (branch_at (cand_choice t)) with
    | Ok true => ([], Some TypeError)
    | Ok false => iter_loop seen (map (fun t => map real_of (cand_choice t)) T)
    | Err e => ([], Some e)
    end).
  { intros t seen T Ht. cbn [map iter_loop]. rewrite (branch_of_nodup _ (Hnd t Ht)).
    destruct (tree_is_valid _) as [[|]|e]; [|reflexivity|reflexivity].
    destruct (forallb _ _) eqn:E; [|reflexivity]. exfalso. apply key_hashable in E. exact (Hh t Ht E). }
  split.
  - assert (G : forall T, incl T (cands nodes) -> fst (iter_loop [] (map (fun t => map real_of (cand_choice t)) T)) = []).
    { induction T as [|t T IH]; intros Hs; [reflexivity|]. rewrite St by (apply Hs; now left).
      destruct (tree_is_valid _) as [[|]|e]; [reflexivity| |reflexivity]. apply IH. intros x Hx. apply Hs. now right. }
    apply G, incl_refl.
  - intros Hwf (c & Hc & Hv). destruct (choice_cand nodes c Hc) as (t & Ht & <-).
    assert (G : forall T, incl T (cands nodes) -> In t T ->
      iter_loop [] (map (fun t => map real_of (cand_choice t)) T) = ([], Some TypeError)).
    { induction T as [|u T IH]; intros Hs Hi; [destruct Hi|].
      assert (Hu : In u (cands nodes)) by (apply Hs; now left). rewrite St by exact Hu.
      destruct (tree_is_valid_evaluable _ (Hnd u Hu) (conds_evaluable nodes u Hwf Hu)) as ([|] & -> & Hm); [reflexivity|].
      destruct Hi as [->|Hi]; [exfalso; apply Hm in Hv; discriminate|]. apply IH; [|exact Hi]. intros x Hx. apply Hs. now right. }
    apply G; [apply incl_refl|exact Ht].
Qed.

Lemma numeric_untuple v x : numeric v x -> numeric (untuple_value v) x.
Proof. intros H; destruct H; constructor. Qed.
Lemma comparable_untuple r v : comparable r v -> comparable (untuple_ref r) (untuple_value v).
Proof.
  destruct r as [w|l]; [|cbn; auto]. destruct w; cbn; auto. intros (x & Hx). exists x. now apply numeric_untuple.
Qed.
Lemma untuple_names nodes : map n_name (map untuple nodes) = map n_name nodes.
Proof. rewrite map_map. now apply map_ext. Qed.
Lemma conds_untuple nodes :
  (forall n a, In n nodes -> In a (n_alts n) ->
     forall kr, In kr (a_requires a) \/ In kr (a_excludes a) -> cond_wf nodes kr) ->
  forall n a, In n (map untuple nodes) -> In a (n_alts n) ->
     forall kr, In kr (a_requires a) \/ In kr (a_excludes a) -> cond_wf (map untuple nodes) kr.
Proof.
  intros Hwf n a Hi Ha kr Hkr. apply in_map_iff in Hi. destruct Hi as (n0 & <- & Hn0).
  cbn in Ha. apply in_map_iff in Ha. destruct Ha as (a0 & <- & Ha0).
  assert (exists kr0, (In kr0 (a_requires a0) \/ In kr0 (a_excludes a0)) /\ kr = (fst kr0, untuple_ref (snd kr0))) as (kr0 & Hk0 & ->).
  { destruct Hkr as [H|H]; cbn in H; apply in_map_iff in H; destruct H as (kr0 & <- & H); exists kr0; auto. }
  destruct (Hwf n0 a0 Hn0 Ha0 kr0 Hk0) as (m & Hm & Em & Hc).
  exists (untuple m). split; [now apply in_map|]. split; [exact Em|]. intros b Hb. cbn in Hb.
  apply in_map_iff in Hb. destruct Hb as (b0 & <- & Hb0). cbn. now apply comparable_untuple, Hc.
Qed.
(** C130: tuples do not survive the file. *)
Lemma tuples_lost j nodes n :
  tree_json j nodes -> tree_wf nodes -> In n nodes ->
  (forall a, In a (n_alts n) -> 0 < a_weight a -> exists l, a_value a = VTuple l) ->
  exists m, from_list j = Ok (Some m) /\ fst (tree_iter m) = [] /\
    ((exists c, choice_of m c /\ choice_valid c) -> tree_iter m = ([], Some TypeError)).
Proof.
  intros Hj (Hn & _ & Hwf) Hin Hl. exists (map untuple nodes). split; [now apply tree_read|].
  destruct (lists_yield_nothing (map untuple nodes) (untuple n)) as [H1 H2].
  - now rewrite untuple_names.
  - now apply in_map.
  - intros a Ha Hw. cbn in Ha. apply in_map_iff in Ha. destruct Ha as (b & <- & Hb). cbn in *.
    destruct (Hl b Hb Hw) as [l ->]. exists l. reflexivity.
  - split; [exact H1|]. intros Hc. apply H2; [|exact Hc]. now apply conds_untuple.
Qed.
Lemma tuples_lost_plainly :
  ~ (forall j nodes, tree_json j nodes -> tree_wf nodes ->
       exists m, from_list j = Ok (Some m) /\ tree_iter m = tree_iter nodes).
Proof.
  intros H.
  set (tn := [mkNode "curves" [mkAlt (VTuple ["darendeli"; "menq"]%string) 1 [] []]]%string).
  set (tj := JList [JObj [("name", JStr "curves"); ("alts", JList [JObj [("value", JList [JStr "darendeli"; JStr "menq"])]])]]%string).
  destruct (H tj tn) as (m & E1 & E2).
  - exists [JObj [("name", JStr "curves"); ("alts", JList [JObj [("value", JList [JStr "darendeli"; JStr "menq"])]])]]%string.
    split; [reflexivity|]. constructor; [|constructor].
    eexists _, _. split; [reflexivity|]. split; [|split; [|split]].
    + cbn. repeat constructor; cbn; intuition discriminate.
    + now left. + right. now left.
    + constructor; [|constructor]. eexists. split; [reflexivity|]. split; [|split; [|split; [|split; [|split]]]].
      * repeat constructor; cbn; intuition.
      * intros k [<-|[]]. now left.
      * now left.
      * right. cbn. split; [intuition discriminate|reflexivity].
      * right. cbn. split; [intuition discriminate|reflexivity].
      * right. cbn. split; [intuition discriminate|reflexivity].
  - split; [repeat constructor; cbn; intuition|]. split.
    + repeat constructor. intros a l [<-|[]]. discriminate.
    + intros n a [<-|[]] [<-|[]] kr [[]|[]].
  - cbn in E1. injection E1 as <-. discriminate.
Qed.

(** C132: lookup by value. *)
Lemma test_spec a v :
  (askable v a -> exists m, by_value_test a v = Ok m /\ (m = true <-> asked v a)) /\
  (~ askable v a -> by_value_test a v = Err TypeError).
Proof.
  unfold by_value_test, asked, askable. destruct v as [s|z|q|l|l]; cbn [bind].
  3:{ destruct (num (a_value a)) as [x|] eqn:E; cbn [bind].
      - apply num_spec in E. split; [|intros H; exfalso; apply H; intros; eauto]. intros _. eexists. split; [reflexivity|].
        rewrite orb_true_iff, qisclose_spec, value_eqb_spec. split.
        + intros [H|H]; [right; exists q, x; auto|now left].
        + intros [H|(q' & x' & Eq & Hx & H)]; [now right|]. injection Eq as <-.
          rewrite (numeric_fun _ _ _ E Hx). now left.
      - pose proof (num_none _ E) as N. split; [|reflexivity].
        intros H. destruct (H q eq_refl) as [x Hx]. exfalso. exact (N x Hx). }
  all: (split; [|intros H; exfalso; apply H; discriminate]); intros _; eexists; (split; [reflexivity|]);
       rewrite orb_false_l, value_eqb_spec; (split; [now left|]); intros [H|(q & x & Eq & _)]; [exact H|discriminate].
Qed.
Lemma askable_dec v a : {askable v a} + {~ askable v a}.
Proof.
  destruct v as [s|z|q|l|l]; try (left; intros q0; discriminate).
  destruct (num (a_value a)) as [x|] eqn:E.
  - left. intros q0 _. exists x. now apply num_spec.
  - right. intros H. destruct (H q eq_refl) as [x Hx]. exact (num_none _ E x Hx).
Qed.
Lemma by_value_first alts v a :
  by_value alts v = Ok (Some a) <->
  exists pre post, alts = pre ++ a :: post /\ askable v a /\ asked v a /\
    Forall (fun b => askable v b /\ ~ asked v b) pre.
Proof.
  induction alts as [|b alts IH]; cbn [by_value].
  - split; [discriminate|]. intros (pre & post & E & _). destruct pre; discriminate.
  - destruct (test_spec b v) as [T1 T2]. destruct (askable_dec v b) as [Hb|Hb].
    + destruct (T1 Hb) as (m & -> & Hm). cbn [bind]. destruct m.
      * split.
        -- intros E; injection E as <-. exists [], alts. split; [reflexivity|]. split; [exact Hb|]. split; [now apply Hm|constructor].
        -- intros (pre & post & E & _ & _ & Hp). destruct pre as [|x pre]; cbn in E; injection E as <- E; [reflexivity|].
           inversion Hp as [|? ? [_ N] _]; subst. exfalso. now apply N, Hm.
      * rewrite IH. split.
        -- intros (pre & post & -> & H1 & H2 & H3). exists (b :: pre), post. split; [reflexivity|]. split; [exact H1|].
           split; [exact H2|]. constructor; [|exact H3]. split; [exact Hb|]. intros G. apply Hm in G. discriminate.
        -- intros (pre & post & E & H1 & H2 & H3). destruct pre as [|x pre]; cbn in E; injection E as <- ->.
           ++ exfalso. apply Hm in H2. discriminate.
           ++ inversion H3; subst. exists pre, post. auto.
    + rewrite (T2 Hb). cbn [bind]. split; [discriminate|]. intros (pre & post & E & H1 & H2 & H3). exfalso.
      destruct pre as [|x pre]; cbn in E; injection E as <- ->; [auto|]. inversion H3 as [|? ? [G _] _]; subst. auto.
Qed.
Lemma by_value_none alts v :
  by_value alts v = Ok None <-> Forall (fun b => askable v b /\ ~ asked v b) alts.
Proof.
  induction alts as [|b alts IH]; cbn [by_value]; [split; [constructor|reflexivity]|].
  destruct (test_spec b v) as [T1 T2]. destruct (askable_dec v b) as [Hb|Hb].
  - destruct (T1 Hb) as (m & -> & Hm). cbn [bind]. destruct m.
    + split; [discriminate|]. intros H; inversion H as [|? ? [_ N] _]; subst. exfalso. now apply N, Hm.
    + rewrite IH. split; intros H.
      * constructor; [|exact H]. split; [exact Hb|]. intros G. apply Hm in G. discriminate.
      * now inversion H.
  - rewrite (T2 Hb). cbn [bind]. split; [discriminate|]. intros H; inversion H as [|? ? [G _] _]; subst. contradiction.
Qed.
Lemma by_value_error alts v e :
  by_value alts v = Err e <->
  e = TypeError /\ exists pre b post, alts = pre ++ b :: post /\ ~ askable v b /\
    Forall (fun b => askable v b /\ ~ asked v b) pre.
Proof.
  induction alts as [|b alts IH]; cbn [by_value].
  - split; [discriminate|]. intros (_ & pre & b & post & E & _). destruct pre; discriminate.
  - destruct (test_spec b v) as [T1 T2]. destruct (askable_dec v b) as [Hb|Hb].
    + destruct (T1 Hb) as (m & -> & Hm). cbn [bind]. destruct m.
      * split; [discriminate|]. intros (_ & pre & x & post & E & H1 & H2). exfalso.
        destruct pre as [|y pre]; cbn in E; injection E as <- ->; [auto|]. inversion H2 as [|? ? [_ N] _]; subst. now apply N, Hm.
      * rewrite IH. split.
        -- intros (-> & pre & x & post & -> & H1 & H2). split; [reflexivity|]. exists (b :: pre), x, post.
           split; [reflexivity|]. split; [exact H1|]. constructor; [|exact H2]. split; [exact Hb|]. intros G. apply Hm in G. discriminate.
        -- intros (-> & pre & x & post & E & H1 & H2). split; [reflexivity|].
           destruct pre as [|y pre]; cbn in E; injection E as <- ->; [contradiction|]. inversion H2; subst. exists pre, x, post. auto.
    + rewrite (T2 Hb). cbn [bind]. split.
      * intros E; injection E as <-. split; [reflexivity|]. exists [], b, alts. split; [reflexivity|]. split; [exact Hb|constructor].
      * now intros (-> & _).
Qed.

Lemma by_value_some alts v a :
  (forall b, In b alts -> askable v b) -> In a alts -> asked v a -> exists b, by_value alts v = Ok (Some b) /\ In b alts /\ asked v b.
Proof.
  intros Hk Hi Ha. destruct (by_value alts v) as [[b|]|e] eqn:E.
  - exists b. apply by_value_first in E. destruct E as (pre & post & -> & _ & H & _). split; [reflexivity|].
    split; [apply in_or_app; right; now left|exact H].
  - apply by_value_none in E. rewrite Forall_forall in E. now elim (proj2 (E a Hi)).
  - apply by_value_error in E. destruct E as (_ & pre & b & post & -> & N & _). exfalso. apply N, Hk. apply in_or_app. right. now left.
Qed.
Lemma get_by_name nodes n : NoDup (map n_name nodes) -> In n nodes -> tree_get nodes (n_name n) = Some n.
Proof.
  unfold tree_get. induction nodes as [|m nodes IH]; intros Hn Hi; [destruct Hi|]. inversion Hn as [|? ? Hk Hn']; subst.
  cbn [find]. destruct Hi as [->|Hi]; [now rewrite String.eqb_refl|].
  destruct (String.eqb_spec (n_name m) (n_name n)) as [E|_]; [|auto]. exfalso. apply Hk. rewrite E. now apply in_map.
Qed.
Lemma get_none nodes k : tree_get nodes k = None <-> ~ In k (map n_name nodes).
Proof.
  unfold tree_get. induction nodes as [|m nodes IH]; cbn [find map In]; [intuition|].
  destruct (String.eqb_spec (n_name m) k) as [E|E]; [split; [discriminate|tauto]|]. rewrite IH. tauto.
Qed.
(** C132: what a branch shows is found again. *)
Lemma branch_found nodes bs oe b k r :
  NoDup (map n_name nodes) -> Forall uniform_values nodes -> tree_iter nodes = (bs, oe) -> In b bs -> In (k, r) b ->
  exists n a, tree_get nodes k = Some n /\ by_value (n_alts n) (r_value r) = Ok (Some a) /\ In a (n_alts n) /\
    asked (r_value r) a /\ ((forall q, r_value r <> VFloat q) -> same_value (a_value a) (r_value r)).
Proof.
  intros Hn Hu Hit Hb Hr. destruct (tree_iteration_sound nodes bs oe Hn Hit) as [S _].
  destruct (S b Hb) as (c & Hs & Hc & _).
  assert (exists n a, In n nodes /\ n_name n = k /\ In a (n_alts n) /\ r_value r = a_value a) as (n & a & Hin & En & Ha & Ev).
  { clear -Hs Hc Hr. revert nodes Hc. unfold shows in Hs. induction Hs as [|p q b c (E1 & E2 & E3 & _) H IH]; intros nodes Hc; [destruct Hr|].
    inversion Hc as [|n ? nodes' ? (F1 & F2 & F3) Hc']; subst. destruct Hr as [->|Hr].
    - exists n, (snd q). cbn in *. split; [now left|]. split; [congruence|]. auto.
    - destruct (IH Hr _ Hc') as (m & a & G1 & G2). exists m, a. split; [now right|exact G2]. }
  assert (Hk : forall x, In x (n_alts n) -> askable (r_value r) x).
  { intros x Hx q Eq. rewrite Forall_forall in Hu. destruct (Hu n Hin) as [H|H]; [now apply H|].
    exfalso. apply (H a q Ha). congruence. }
  assert (Hself : asked (r_value r) a) by (left; rewrite Ev; apply same_value_refl).
  destruct (by_value_some _ _ _ Hk Ha Hself) as (d & E & Hd & Hask). exists n, d.
  split; [rewrite <- En; now apply get_by_name|]. split; [exact E|]. split; [exact Hd|]. split; [exact Hask|].
  intros Hq. destruct Hask as [H|(q & x & Eq & _)]; [exact H|]. exfalso. exact (Hq q Eq).
Qed.
Lemma close_taken :
  ~ (forall alts v a, (forall b, In b alts -> askable v b) -> In a alts -> a_value a = v ->
       exists b, by_value alts v = Ok (Some b) /\ same_value (a_value b) v).
Proof.
  intros H.
  set (a1 := mkAlt (VFloat 1) (1 # 2) [] []). set (a2 := mkAlt (VFloat (1000001 # 1000000)) (1 # 2) [] []).
  destruct (H [a1; a2] (VFloat (1000001 # 1000000)) a2) as (b & E & S).
  - intros b [<-|[<-|[]]] q Eq; eexists; constructor.
  - right. now left.
  - reflexivity.
  - cbn in E. injection E as <-. inversion S as [| | |? ? x y Hx Hy Exy]; subst.
    cbn in Hx. inversion Hx; subst. inversion Hy; subst. discriminate Exy.
Qed.
