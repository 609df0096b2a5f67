(** Trees in which several nodes have one name: C41. *)
From Verif Require Import Common Model.LogicTree Spec.LogicTreeSpec Proof.CommonFacts Proof.LogicTreeFacts.
From Coq Require Import String List QArith.
Import ListNotations.

(** [r] is the realization of the last choice made for the name [k]. *)
Lemma dict_set_keys {A} (d : list (string * A)) k v x : In x (map fst (dict_set d k v)) <-> x = k \/ In x (map fst d).
Proof.
  induction d as [|[k' v'] d IH]; cbn; [intuition|]. destruct (String.eqb_spec k' k) as [->|N]; cbn; [intuition|]. rewrite IH. intuition.
Qed.
Lemma dict_set_nodup {A} (d : list (string * A)) k v : NoDup (map fst d) -> NoDup (map fst (dict_set d k v)).
Proof.
  induction d as [|[k' v'] d IH]; cbn; intros H; [repeat constructor; intros []|].
  inversion H as [|? ? H1 H2]; subst. destruct (String.eqb_spec k' k) as [->|N]; cbn; constructor; try assumption; [|now apply IH].
  rewrite dict_set_keys. intros [E|E]; [congruence|contradiction].
Qed.
Lemma dict_set_in {A} (d : list (string * A)) k v x r : NoDup (map fst d) ->
  (In (x, r) (dict_set d k v) <-> (x = k /\ r = v) \/ (x <> k /\ In (x, r) d)).
Proof.
  induction d as [|[k' v'] d IH]; cbn; intros H; [split; [intros [E|[]]; injection E as <- <-; now left|intros [[-> ->]|[_ []]]; now left]|].
  inversion H as [|? ? H1 H2]; subst. destruct (String.eqb_spec k' k) as [->|N]; cbn.
  - split.
    + intros [E|E]; [injection E as <- <-; now left|]. right. split; [|now right]. intros ->. apply H1. apply in_map_iff. now exists (k, r).
    + intros [[-> ->]|[NE [E|E]]]; [now left|injection E as E _; congruence|now right].
  - rewrite (IH H2). split.
    + intros [E|[[-> ->]|[NE E]]]; [injection E as <- <-; right; split; [exact N|now left]|now left|right; split; [exact NE|now right]].
    + intros [[-> ->]|[NE [E|E]]]; [right; now left|now left|right; right; now split].
Qed.

Definition last_named (rs : list realization) (k : string) (r : realization) : Prop :=
  exists before after, rs = before ++ r :: after /\ r_name r = k /\ ~ In k (map r_name after).
Lemma branch_of_last rs : NoDup (map fst (branch_of rs)) /\
  (forall k, In k (map fst (branch_of rs)) <-> In k (map r_name rs)) /\
  (forall k r, In (k, r) (branch_of rs) <-> last_named rs k r).
Proof.
  unfold branch_of. induction rs as [|x rs (N & K & V)] using rev_ind.
  - cbn. split; [constructor|]. split; [tauto|]. intros k r. split; [intros []|]. intros (b & a & E & _). destruct b; discriminate.
  - rewrite fold_left_app. cbn [fold_left]. split; [now apply dict_set_nodup|]. split.
    + intros k. rewrite dict_set_keys, K, map_app, in_app_iff. cbn. intuition.
    + intros k r. rewrite (dict_set_in _ _ _ _ _ N), V. split.
      * intros [[-> ->]|[NE (b & a & -> & E & F)]]; [exists rs, []; repeat split; intros []|].
        exists b, (a ++ [x]). split; [now rewrite <- app_assoc|]. split; [exact E|]. rewrite map_app, in_app_iff. cbn. intros [G|[G|[]]]; [contradiction|congruence].
      * intros (b & a & E & E1 & E2). destruct a as [|y a _] using rev_ind.
        -- apply app_inj_tail in E. destruct E as [-> ->]. left. now split.
        -- rewrite app_comm_cons, app_assoc in E. apply app_inj_tail in E. destruct E as [-> ->].
           rewrite map_app, in_app_iff in E2. cbn in E2. right. split; [intuition congruence|]. exists b, a. split; [reflexivity|]. split; [exact E1|tauto].
Qed.

Lemma iter_loop_from todo : forall seen bs oe, iter_loop seen todo = (bs, oe) -> forall b, In b bs -> exists rs, In rs todo /\ b = branch_of rs.
Proof.
  induction todo as [|rs todo IH]; intros seen bs oe H b Hb; cbn in H; [injection H as <- <-; destruct Hb|].
  assert (K : forall seen' bs' oe', iter_loop seen' todo = (bs', oe') -> In b bs' -> exists rs', In rs' (rs :: todo) /\ b = branch_of rs').
  { intros s' b' o' E I. destruct (IH s' b' o' E b I) as (r & I1 & I2). exists r. split; [now right|exact I2]. }
  destruct (tree_is_valid (branch_of rs)) as [[|]|e]; [|exact (K _ _ _ H Hb)|injection H as <- _; destruct Hb].
  destruct (negb _); [injection H as <- _; destruct Hb|]. destruct (existsb _ seen); [exact (K _ _ _ H Hb)|].
  destruct (iter_loop (branch_key (branch_of rs) :: seen) todo) as [bs1 e1] eqn:E. injection H as <- _.
  destruct Hb as [<-|Hb]; [exists rs; split; [now left|reflexivity]|exact (K _ _ _ E Hb)].
Qed.
Lemma product_in {A} (ls : list (list A)) xs : In xs (product ls) -> Forall2 (fun l x => In x l) ls xs.
Proof.
  revert xs; induction ls as [|l ls IH]; intros xs H; cbn in H; [destruct H as [<-|[]]; constructor|].
  apply in_flat_map in H. destruct H as (x & Hx & H). apply in_map_iff in H. destruct H as (ys & <- & Hy). constructor; [exact Hx|now apply IH].
Qed.

(** C41: nodes of one name. *)
Lemma repeated_names nodes bs oe b : tree_iter nodes = (bs, oe) -> In b bs ->
  exists c, choice_of nodes c /\ NoDup (map fst b) /\ (forall k, In k (map fst b) <-> In k (map n_name nodes)) /\
    forall k r, In (k, r) b -> exists before a after, c = before ++ (k, a) :: after /\ ~ In k (map fst after) /\
      r_value r = a_value a /\ r_weight r = a_weight a /\ r_requires r = a_requires a /\ r_excludes r = a_excludes a.
Proof.
  intros H Hb. destruct (iter_loop_from _ _ _ _ H b Hb) as (rs & Hrs & ->). apply product_in in Hrs.
  destruct (branch_of_last rs) as (N & K & V).
  assert (C : exists c, choice_of nodes c /\ Forall2 (fun r q => fst q = r_name r /\ r_value r = a_value (snd q) /\ r_weight r = a_weight (snd q) /\
     r_requires r = a_requires (snd q) /\ r_excludes r = a_excludes (snd q)) rs c).
  { clear - Hrs. remember (map node_iter nodes) as ls eqn:E. revert nodes E. induction Hrs as [|l x ls xs Hx _ IH]; intros nodes E.
    - destruct nodes; [|discriminate]. exists []. split; constructor.
    - destruct nodes as [|n nodes]; [discriminate|]. cbn in E. injection E as -> ->. destruct (IH nodes eq_refl) as (c & C1 & C2).
      apply in_map_iff in Hx. destruct Hx as (a & <- & Ha). apply filter_In in Ha. destruct Ha as [Ha Hp]. apply positive_spec in Hp.
      exists ((n_name n, a) :: c). split; [constructor; [repeat split; assumption|exact C1]|]. constructor; [repeat split|exact C2]. }
  destruct C as (c & C1 & C2). exists c. split; [exact C1|]. split; [exact N|]. split.
  - intros k. rewrite K. replace (map r_name rs) with (map n_name nodes); [tauto|]. clear - C1 C2.
    revert rs C2. induction C1 as [|n q nodes c (E & _) _ IH]; intros rs C2; inversion C2 as [|r ? rs' ? (E' & _) C2']; subst; [reflexivity|]. cbn. f_equal; [congruence|now apply IH].
  - intros k r Hr. apply V in Hr. destruct Hr as (b & a & -> & E & F).
    apply Forall2_app_inv_l in C2. destruct C2 as (cb & ca & _ & C2 & ->). inversion C2 as [|? [k' x] ? ca' (E1 & E2 & E3 & E4 & E5) C3]; subst. cbn [fst snd] in *. subst k'.
    exists cb, x, ca'. split; [reflexivity|]. split; [|repeat split; assumption].
    intros G. apply F. replace (map r_name a) with (map fst ca'); [exact G|]. clear - C3. induction C3 as [|? ? ? ? (E & _) _ IH]; [reflexivity|]. cbn. f_equal; assumption.
Qed.
