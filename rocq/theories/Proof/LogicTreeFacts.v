(** Lemmas about the logic tree. *)
From Coq Require Import QArith String Qabs Sorted.
From Verif Require Import Common Model.LogicTree Spec.LogicTreeSpec Proof.CommonFacts.
Local Open Scope Q_scope.

(** Values. *)
Lemma num_spec v x : num v = Some x <-> numeric v x.
Proof.
  split.
  - destruct v; cbn; try discriminate; intros H; injection H as <-; constructor.
  - intros H; destruct H; reflexivity.
Qed.
Lemma num_none v : num v = None -> forall x, ~ numeric v x.
Proof. intros H x Hx. apply num_spec in Hx. congruence. Qed.

Lemma value_eqb_spec a b : value_eqb a b = true <-> same_value a b.
Proof.
  unfold value_eqb. split.
  - destruct (num a) as [x|] eqn:Ea, (num b) as [y|] eqn:Eb; try discriminate.
    + intros H. apply Qeq_bool_iff in H. apply num_spec in Ea, Eb. econstructor; eauto.
    + destruct a, b; try discriminate.
      * intros H. apply String.eqb_eq in H. subst. constructor.
      * unfold list_string_eqb. destruct (list_eq_dec string_dec l l0); [|discriminate].
        subst. constructor.
      * unfold list_string_eqb. destruct (list_eq_dec string_dec l l0); [|discriminate].
        subst. constructor.
  - intros H. destruct H as [s|l|l|a b x y Ha Hb E].
    + cbn. apply String.eqb_refl.
    + cbn. unfold list_string_eqb. destruct (list_eq_dec string_dec l l); congruence.
    + cbn. unfold list_string_eqb. destruct (list_eq_dec string_dec l l); congruence.
    + apply num_spec in Ha, Hb. rewrite Ha, Hb. now apply Qeq_bool_iff.
Qed.
Lemma same_value_refl v : same_value v v.
Proof.
  destruct v as [s|z|q|l|l]; [constructor| | |constructor|constructor].
  - apply (sv_num _ _ (inject_Z z) (inject_Z z)); constructor.
  - apply (sv_num _ _ q q); constructor.
Qed.
Lemma numeric_fun v x y : numeric v x -> numeric v y -> x = y.
Proof. intros H1 H2. destruct H1; inversion H2; reflexivity. Qed.
Lemma same_value_sym a b : same_value a b -> same_value b a.
Proof.
  intros H; destruct H as [s|l|l|a b x y Ha Hb E]; [constructor|constructor|constructor|].
  apply (sv_num _ _ y x); auto. now symmetry.
Qed.
Lemma same_value_trans a b c : same_value a b -> same_value b c -> same_value a c.
Proof.
  intros H1 H2. destruct H1 as [s|l|l|a b x y Ha Hb E]; try exact H2.
  destruct H2 as [s|l|l|b c x' y' Hb' Hc E'].
  - inversion Hb. - inversion Hb. - inversion Hb.
  - rewrite (numeric_fun _ _ _ Hb Hb') in E. econstructor; eauto. now rewrite E.
Qed.

Lemma qisclose_spec a b :
  qisclose a b = true <-> Qabs (a - b) <= (1 # 100000000) + (1 # 100000) * Qabs b.
Proof. apply Qle_bool_iff. Qed.

(** [matches]: a boolean when comparable, TypeError otherwise. *)
Lemma matches_spec r v :
  (comparable r v -> exists m, matches r v = Ok m /\ (m = true <-> meets r v)) /\
  (~ comparable r v -> matches r v = Err TypeError).
Proof.
  split.
  - intros Hc. destruct r as [w|l].
    + destruct w as [s|z|q|l|l]; cbn [matches].
      * eexists; split; [reflexivity|]. rewrite value_eqb_spec. split; intros H.
        -- constructor; [discriminate|discriminate|exact H]. -- now inversion H.
      * eexists; split; [reflexivity|]. rewrite value_eqb_spec. split; intros H.
        -- constructor; [discriminate|discriminate|exact H]. -- now inversion H.
      * destruct Hc as [x Hx]. apply num_spec in Hx. rewrite Hx. eexists; split; [reflexivity|].
        rewrite qisclose_spec. apply num_spec in Hx. split; intros H.
        -- econstructor; eauto.
        -- inversion H as [|q' v' x' Hx' Hq| |w' v' Hw]; subst.
           ++ now rewrite (numeric_fun _ _ _ Hx Hx').
           ++ exfalso. exact (Hw q eq_refl).
      * eexists; split; [reflexivity|]. rewrite value_eqb_spec. split; intros H.
        -- constructor; [discriminate|discriminate|exact H]. -- now inversion H.
      * eexists; split; [reflexivity|]. rewrite existsb_exists. split.
        -- intros (w & Hw & E). apply in_map_iff in Hw. destruct Hw as (t & <- & Ht).
           apply value_eqb_spec in E. econstructor; eauto.
        -- intros H; inversion H as [| |l' t v' Ht E|w' v' _ Hw]; subst.
           ++ exists (VStr t). split; [now apply in_map|]. now apply value_eqb_spec.
           ++ exfalso. exact (Hw l eq_refl).
    + cbn [matches]. eexists; split; [reflexivity|]. rewrite existsb_exists. split.
      * intros (w & Hw & E). apply value_eqb_spec in E. econstructor; eauto.
      * intros H; inversion H as [l' w v' Hw E| | |]; subst. exists w. split; [exact Hw|].
        now apply value_eqb_spec.
  - intros Hc. destruct r as [w|l]; [|now elim Hc]. destruct w; try (now elim Hc).
    cbn [matches comparable] in *. destruct (num v) eqn:E; [|reflexivity].
    elim Hc. apply num_spec in E. eauto.
Qed.
Lemma comparable_dec r v : {comparable r v} + {~ comparable r v}.
Proof.
  destruct r as [[| | | |]|]; cbn; auto. destruct (num v) as [x|] eqn:E.
  - left. exists x. now apply num_spec. - right. intros [x Hx]. apply num_spec in Hx. congruence.
Qed.

(** Realizations of a choice. *)
Definition real_of (p : string * alternative) : realization :=
  mkReal (fst p) (a_value (snd p)) (a_weight (snd p)) (a_requires (snd p)) (a_excludes (snd p)).
Definition branch_at (c : choice) : branch := map (fun p => (fst p, real_of p)) c.

Lemma dict_set_new {A} (d : list (string * A)) k v :
  ~ In k (map fst d) -> dict_set d k v = d ++ [(k, v)].
Proof.
  induction d as [|[k' v'] d IH]; intros H; [reflexivity|]. cbn [dict_set map fst In] in *.
  destruct (String.eqb_spec k' k) as [->|Hn]; [exfalso; apply H; now left|].
  cbn [app]. rewrite IH; [reflexivity|]. intros Hi; apply H; now right.
Qed.
Lemma branch_of_nodup (c : choice) :
  NoDup (map fst c) -> branch_of (map real_of c) = branch_at c.
Proof.
  intros H. unfold branch_of.
  assert (G : forall d, NoDup (map fst d ++ map fst c) ->
     fold_left (fun d r => dict_set d (r_name r) r) (map real_of c) d = d ++ branch_at c).
  { clear H. induction c as [|[k a] c IH]; intros d H; cbn [map fold_left branch_at].
    - now rewrite app_nil_r.
    - cbn [map fst] in H. rewrite dict_set_new.
      + change (r_name (real_of (k, a))) with k. rewrite IH; rewrite ?map_app; cbn [map fst].
        * rewrite <- app_assoc. reflexivity.
        * rewrite <- app_assoc. exact H.
      + change (r_name (real_of (k, a))) with k. apply NoDup_remove_2 in H.
        intros Hi. apply H. apply in_or_app. now left. }
  apply (G []). exact H.
Qed.

Lemma dict_get_in (c : choice) k a :
  NoDup (map fst c) -> In (k, a) c -> dict_get (branch_at c) k = Ok (real_of (k, a)).
Proof.
  induction c as [|[k' a'] c IH]; intros Hn Hi; [destruct Hi|].
  cbn [branch_at map dict_get fst]. inversion Hn as [|? ? Hk Hn']; subst.
  destruct Hi as [E|Hi].
  - injection E as -> ->. now rewrite String.eqb_refl.
  - destruct (String.eqb_spec k' k) as [->|Hne].
    + exfalso. apply Hk. apply (in_map fst) in Hi. exact Hi.
    + now apply IH.
Qed.
Lemma dict_get_missing (c : choice) k :
  ~ In k (map fst c) -> dict_get (branch_at c) k = Err KeyError.
Proof.
  induction c as [|[k' a'] c IH]; intros Hi; [reflexivity|].
  cbn [branch_at map dict_get fst In] in *. destruct (String.eqb_spec k' k) as [->|Hne].
  - exfalso; apply Hi; now left. - apply IH. intros H; apply Hi; now right.
Qed.

Lemma meets_comparable r v : meets r v -> comparable r v.
Proof.
  intros H; destruct H; cbn; auto; [eauto|]. destruct w; auto. exfalso. exact (H q eq_refl).
Qed.
Lemma nodup_unique (c : choice) k a b : NoDup (map fst c) -> In (k, a) c -> In (k, b) c -> a = b.
Proof.
  induction c as [|[k' a'] c IH]; intros Hn Ha Hb; [destruct Ha|]. inversion Hn as [|? ? Hk Hn']; subst.
  destruct Ha as [Ea|Ha], Hb as [Eb|Hb].
  - congruence.
  - injection Ea as -> ->. exfalso; apply Hk. now apply (in_map fst) in Hb.
  - injection Eb as -> ->. exfalso; apply Hk. now apply (in_map fst) in Ha.
  - now apply IH.
Qed.

Lemma all_match_cons (c : choice) kr d :
  NoDup (map fst c) ->
  (cond_holds c kr -> all_match (branch_at c) (kr :: d) = all_match (branch_at c) d) /\
  (cond_fails c kr -> all_match (branch_at c) (kr :: d) = Ok false) /\
  (cond_missing c kr -> all_match (branch_at c) (kr :: d) = Err KeyError) /\
  (cond_incomparable c kr -> all_match (branch_at c) (kr :: d) = Err TypeError).
Proof.
  intros Hn. destruct kr as [k r]. cbn [all_match]. split; [|split; [|split]].
  - intros (a & Ha & Hm). cbn [fst snd] in *. rewrite (dict_get_in c k a) by assumption. cbn [bind].
    change (r_value (real_of (k, a))) with (a_value a).
    destruct (proj1 (matches_spec r (a_value a)) (meets_comparable _ _ Hm)) as (m & -> & Hiff).
    cbn [bind]. rewrite (proj2 Hiff Hm). reflexivity.
  - intros (a & Ha & Hc & Hm). cbn [fst snd] in *. rewrite (dict_get_in c k a) by assumption. cbn [bind].
    change (r_value (real_of (k, a))) with (a_value a).
    destruct (proj1 (matches_spec r (a_value a)) Hc) as (m & -> & Hiff).
    cbn [bind]. destruct m; [|reflexivity]. exfalso. apply Hm. now apply Hiff.
  - intros H. cbn in H. now rewrite dict_get_missing.
  - intros (a & Ha & Hc). cbn [fst snd] in *. rewrite (dict_get_in c k a) by assumption. cbn [bind].
    change (r_value (real_of (k, a))) with (a_value a).
    rewrite (proj2 (matches_spec r (a_value a)) Hc). reflexivity.
Qed.
Lemma cond_cases c kr :
  cond_holds c kr \/ cond_fails c kr \/ cond_missing c kr \/ cond_incomparable c kr.
Proof.
  destruct (in_dec string_dec (fst kr) (map fst c)) as [Hi|Hi].
  - apply in_map_iff in Hi. destruct Hi as ([k a] & E & Hi). cbn in E. subst k.
    destruct (comparable_dec (snd kr) (a_value a)) as [Hc|Hc].
    + destruct (proj1 (matches_spec (snd kr) (a_value a)) Hc) as ([|] & _ & Hiff).
      * left. exists a. split; [exact Hi|]. now apply Hiff.
      * right; left. exists a. split; [exact Hi|]. split; [exact Hc|]. intros H.
        apply Hiff in H. discriminate.
    + right; right; right. exists a. now split.
  - right; right; left. exact Hi.
Qed.

(** The outcome of [all(...)]: decided by the first condition that does not hold. *)
Lemma all_match_spec (c : choice) d :
  NoDup (map fst c) ->
  (Forall (cond_holds c) d /\ all_match (branch_at c) d = Ok true) \/
  (exists pre kr post, d = pre ++ kr :: post /\ Forall (cond_holds c) pre /\
     ((cond_fails c kr /\ all_match (branch_at c) d = Ok false) \/
      (cond_missing c kr /\ all_match (branch_at c) d = Err KeyError) \/
      (cond_incomparable c kr /\ all_match (branch_at c) d = Err TypeError))).
Proof.
  intros Hn. induction d as [|kr d IH]; [left; split; [constructor|reflexivity]|].
  destruct (all_match_cons c kr d Hn) as (A1 & A2 & A3 & A4).
  destruct (cond_cases c kr) as [H|[H|[H|H]]].
  - rewrite (A1 H). destruct IH as [[IH1 IH2]|(pre & k & post & -> & Hp & IH)].
    + left. split; [now constructor|exact IH2].
    + right. exists (kr :: pre), k, post. split; [reflexivity|]. split; [now constructor|exact IH].
  - right. exists [], kr, d. split; [reflexivity|]. split; [constructor|]. left; auto.
  - right. exists [], kr, d. split; [reflexivity|]. split; [constructor|]. right; left; auto.
  - right. exists [], kr, d. split; [reflexivity|]. split; [constructor|]. right; right; auto.
Qed.

Lemma holds_not_fails (c : choice) kr : NoDup (map fst c) -> cond_holds c kr -> ~ cond_fails c kr.
Proof.
  intros Hn (a & Ha & Hm) (b & Hb & _ & Hf). rewrite (nodup_unique c _ a b Hn Ha Hb) in Hm. auto.
Qed.

(** When no condition is missing or incomparable, [all] is a conjunction. *)
Definition evaluable (c : choice) (kr : string * reference) : Prop :=
  cond_holds c kr \/ cond_fails c kr.
Lemma all_match_evaluable (c : choice) d :
  NoDup (map fst c) -> Forall (evaluable c) d ->
  exists m, all_match (branch_at c) d = Ok m /\ (m = true <-> forall kr, In kr d -> cond_holds c kr).
Proof.
  intros Hn Hd. induction Hd as [|kr d Hk Hd IH].
  - exists true. split; [reflexivity|]. split; [intros _ kr []|reflexivity].
  - destruct (all_match_cons c kr d Hn) as (A1 & A2 & _). destruct Hk as [H|H].
    + destruct IH as (m & E & Hiff). exists m. rewrite (A1 H). split; [exact E|]. rewrite Hiff. split.
      * intros G kr' [<-|Hi]; auto. * intros G kr' Hi. apply G. now right.
    + exists false. split; [exact (A2 H)|]. split; [discriminate|]. intros G. exfalso.
      apply (holds_not_fails c kr Hn); [apply G; now left|exact H].
Qed.

Lemma real_is_valid_evaluable (c : choice) p :
  NoDup (map fst c) ->
  Forall (evaluable c) (a_requires (snd p)) -> Forall (evaluable c) (a_excludes (snd p)) ->
  exists m, real_is_valid (real_of p) (branch_at c) = Ok m /\ (m = true <-> alt_valid c (snd p)).
Proof.
  intros Hn Hr He. unfold real_is_valid, alt_valid. destruct p as [k a]. cbn [real_of r_requires r_excludes fst snd] in *.
  assert (E1 : exists m, match a_requires a with [] => Ok true | x :: l => all_match (branch_at c) (x :: l) end = Ok m
           /\ (m = true <-> forall kr, In kr (a_requires a) -> cond_holds c kr)).
  { destruct (all_match_evaluable c _ Hn Hr) as (m & E & Hiff). exists m.
    destruct (a_requires a); [split; [|exact Hiff]|split; [exact E|exact Hiff]].
    cbn in E. congruence. }
  destruct E1 as (m & -> & Hiff). cbn [bind]. destruct m.
  - destruct (all_match_evaluable c _ Hn He) as (m' & E & Hiff').
    destruct (a_excludes a) as [|kr d] eqn:Ex.
    + exists true. split; [reflexivity|]. split; [|reflexivity]. intros _. split; [now apply Hiff|]. congruence.
    + rewrite E. cbn [bind]. exists (negb m'). split; [reflexivity|]. split.
      * intros Hm. split; [now apply Hiff|]. intros _ G. apply Hiff' in G. subst m'. discriminate.
      * intros [_ H2]. destruct m'; [|reflexivity]. exfalso. apply H2; [discriminate|]. now apply Hiff'.
  - exists false. split; [reflexivity|]. split; [discriminate|]. intros [H _]. now apply Hiff.
Qed.

Definition choice_evaluable (c : choice) : Prop :=
  forall k a, In (k, a) c -> Forall (evaluable c) (a_requires a) /\ Forall (evaluable c) (a_excludes a).

Lemma tree_is_valid_evaluable (c : choice) :
  NoDup (map fst c) -> choice_evaluable c ->
  exists m, tree_is_valid (branch_at c) = Ok m /\ (m = true <-> choice_valid c).
Proof.
  intros Hn He. unfold tree_is_valid, choice_valid.
  assert (G : forall l, (forall k a, In (k, a) l -> In (k, a) c) ->
    exists m, all_valid (branch_at c) (branch_at l) = Ok m /\
      (m = true <-> forall k a, In (k, a) l -> alt_valid c a)).
  { induction l as [|p l IH]; intros Hsub; cbn [branch_at map all_valid].
    - exists true. split; [reflexivity|]. split; [intros _ k a []|reflexivity].
    - destruct (IH (fun k a H => Hsub k a (or_intror H))) as (m & E & Hiff).
      destruct p as [k a]. destruct (He k a (Hsub k a (or_introl eq_refl))) as [H1 H2].
      destruct (real_is_valid_evaluable c (k, a) Hn H1 H2) as (m' & E' & Hiff').
      rewrite E'. cbn [bind]. destruct m'.
      + exists m. split; [exact E|]. rewrite Hiff. split.
        * intros G k' a' [E0|Hi]; [injection E0 as <- <-; now apply Hiff'|eauto].
        * intros G k' a' Hi. apply (G k' a'). now right.
      + exists false. split; [reflexivity|]. split; [discriminate|]. intros G. apply Hiff'.
        exact (G k a (or_introl eq_refl)). }
  apply G. auto.
Qed.

(** Branch keys. *)
Definition pair_same (p q : string * value) : Prop := fst p = fst q /\ same_value (snd p) (snd q).
Lemma key_eqb_spec a b : key_eqb a b = true <-> Forall2 pair_same a b.
Proof.
  revert b; induction a as [|[k v] a IH]; intros [|[k' v'] b]; cbn [key_eqb].
  - split; [constructor|reflexivity].
  - split; [discriminate|]. intros H; inversion H.
  - split; [discriminate|]. intros H; inversion H.
  - rewrite !andb_true_iff, String.eqb_eq, value_eqb_spec, IH. split.
    + intros [[H1 H2] H3]. constructor; [now split|exact H3].
    + intros H; inversion H as [|? ? ? ? [H1 H2] H3]; subst. auto.
Qed.
Lemma ins_key_same p q a b : pair_same p q -> Forall2 pair_same a b -> Forall2 pair_same (ins_key p a) (ins_key q b).
Proof.
  intros Hp H; induction H as [|x y a b Hx H IH]; cbn [ins_key]; [repeat constructor; apply Hp|].
  rewrite (proj1 Hp), (proj1 Hx). destruct (String.leb (fst q) (fst y)).
  - constructor; [exact Hp|]. now constructor.
  - now constructor.
Qed.
Lemma sort_same a b : Forall2 pair_same a b -> Forall2 pair_same (fold_right ins_key [] a) (fold_right ins_key [] b).
Proof. intros H; induction H; cbn; [constructor|]. now apply ins_key_same. Qed.
Lemma ins_key_in p a x : In x (ins_key p a) <-> x = p \/ In x a.
Proof.
  induction a as [|y a IH]; cbn [ins_key]; [cbn; intuition|].
  destruct (String.leb (fst p) (fst y)); cbn [In]; [intuition|]. rewrite IH. cbn. intuition.
Qed.
Lemma sort_in a x : In x (fold_right ins_key [] a) <-> In x a.
Proof. induction a as [|p a IH]; [reflexivity|]. cbn [fold_right]. rewrite ins_key_in, IH. cbn. intuition. Qed.
Lemma Forall2_in_l {A B} (P : A -> B -> Prop) a b x : Forall2 P a b -> In x a -> exists y, In y b /\ P x y.
Proof. intros H; induction H; intros Hx; [destruct Hx|]. destruct Hx as [<-|Hx]; [exists y; split; [now left|assumption]|].
  destruct (IHForall2 Hx) as (z & Hz & Hp). exists z. split; [now right|exact Hp]. Qed.
Lemma nodup_unique_v (c : list (string * value)) k a b : NoDup (map fst c) -> In (k, a) c -> In (k, b) c -> a = b.
Proof.
  induction c as [|[k' a'] c IH]; intros Hn Ha Hb; [destruct Ha|]. inversion Hn as [|? ? Hk Hn']; subst.
  destruct Ha as [Ea|Ha], Hb as [Eb|Hb].
  - congruence.
  - injection Ea as -> ->. exfalso; apply Hk. now apply (in_map fst) in Hb.
  - injection Eb as -> ->. exfalso; apply Hk. now apply (in_map fst) in Ha.
  - now apply IH.
Qed.
Lemma unsort_same a b :
  map fst a = map fst b -> NoDup (map fst b) ->
  Forall2 pair_same (fold_right ins_key [] a) (fold_right ins_key [] b) -> Forall2 pair_same a b.
Proof.
  intros Hm Hn H.
  assert (P : forall k v w, In (k, v) a -> In (k, w) b -> same_value v w).
  { intros k v w Hv Hw. apply (sort_in a) in Hv. destruct (Forall2_in_l _ _ _ _ H Hv) as ([k' w'] & Hw' & E & S).
    cbn in E, S. subst k'. apply (sort_in b) in Hw'. now rewrite <- (nodup_unique_v b k w' w Hn Hw' Hw). }
  clear H Hn. revert b Hm P. induction a as [|[k v] a IH]; intros [|[k' w] b] Hm P; try discriminate; [constructor|].
  cbn in Hm. injection Hm as -> Hm. constructor.
  - split; [reflexivity|]. apply (P k'); now left.
  - apply IH; [exact Hm|]. intros k0 v0 w0 H1 H2. apply (P k0); now right.
Qed.

Lemma as_dict_at c : as_dict (branch_at c) = map (fun p => (fst p, a_value (snd p))) c.
Proof. unfold as_dict, branch_at. rewrite map_map. reflexivity. Qed.
Lemma key_same_values (c d : choice) :
  map fst c = map fst d -> NoDup (map fst d) ->
  (key_eqb (branch_key (branch_at c)) (branch_key (branch_at d)) = true <-> same_values c d).
Proof.
  intros Hm Hn. rewrite key_eqb_spec. unfold branch_key. rewrite !as_dict_at.
  set (f := fun p : string * alternative => (fst p, a_value (snd p))).
  assert (E : Forall2 pair_same (map f c) (map f d) <-> same_values c d).
  { unfold same_values. clear. revert d. induction c as [|p c IH]; intros [|q d]; cbn [map].
    - split; constructor. - split; intros H; inversion H. - split; intros H; inversion H.
    - split; intros H; inversion H; subst; constructor; auto; now apply IH. }
  rewrite <- E. split; [|apply sort_same]. apply unsort_same.
  - unfold f. rewrite !map_map. cbn. exact Hm.
  - unfold f. rewrite map_map. cbn. exact Hn.
Qed.
Lemma same_values_names c d : same_values c d -> map fst c = map fst d.
Proof. intros H; induction H as [|p q c d [E _] H IH]; [reflexivity|]. cbn. now rewrite E, IH. Qed.
Lemma same_values_refl c : same_values c c.
Proof. induction c; constructor; auto. split; [reflexivity|apply same_value_refl]. Qed.

(** Candidates: the combinations with their positions. *)
Definition cand := list (string * (nat * alternative)).
Definition cand_choice (t : cand) : choice := map (fun p => (fst p, snd (snd p))) t.
Definition cand_pos (t : cand) : list nat := map (fun p => fst (snd p)) t.
Definition positive (a : alternative) : bool := negb (Qle_bool (a_weight a) 0).
Fixpoint indexed_from {A} (i : nat) (l : list A) : list (nat * A) :=
  match l with [] => [] | x :: r => (i, x) :: indexed_from (S i) r end.
Definition node_cands (n : node) : list (string * (nat * alternative)) :=
  map (fun ia => (n_name n, ia)) (filter (fun ia => positive (snd ia)) (indexed_from 0 (n_alts n))).
Definition cands (nodes : list node) : list cand := product (map node_cands nodes).

Lemma positive_spec a : positive a = true <-> 0 < a_weight a.
Proof.
  unfold positive. rewrite negb_true_iff. destruct (Qle_bool (a_weight a) 0) eqn:E.
  - apply Qle_bool_iff in E. split; [discriminate|]. intros H. exfalso. exact (Qlt_not_le _ _ H E).
  - split; [|reflexivity]. intros _. apply Qnot_le_lt. intros H. apply Qle_bool_iff in H. congruence.
Qed.
Lemma indexed_filter {A} (f : A -> bool) l : forall i,
  map snd (filter (fun p => f (snd p)) (indexed_from i l)) = filter f l.
Proof.
  induction l as [|x l IH]; intros i; [reflexivity|]. cbn. destruct (f x); cbn; now rewrite IH.
Qed.
Lemma node_iter_cands n :
  node_iter n = map (fun p => real_of (fst p, snd (snd p))) (node_cands n).
Proof.
  unfold node_iter, node_cands. change (fun a => negb (Qle_bool (a_weight a) 0)) with positive.
  rewrite <- (indexed_filter positive (n_alts n) 0), !map_map. reflexivity.
Qed.
Lemma product_map {A B} (f : A -> B) ls : product (map (map f) ls) = map (map f) (product ls).
Proof.
  induction ls as [|l ls IH]; [reflexivity|]. cbn [map product]. rewrite IH.
  induction l as [|x l IHl]; [reflexivity|]. cbn [map flat_map]. rewrite map_app, IHl, !map_map.
  reflexivity.
Qed.
Lemma product_cands nodes :
  product (map node_iter nodes) = map (fun t => map real_of (cand_choice t)) (cands nodes).
Proof.
  unfold cands. rewrite (map_ext _ _ node_iter_cands), <- (map_map node_cands (map _)), product_map.
  apply map_ext. intros t. unfold cand_choice. now rewrite map_map.
Qed.
Lemma product_in {A} (ls : list (list A)) t : In t (product ls) <-> Forall2 (fun l x => In x l) ls t.
Proof.
  revert t; induction ls as [|l ls IH]; intros t; cbn [product].
  - split; [intros [<-|[]]; constructor|]. intros H; inversion H. now left.
  - rewrite in_flat_map. split.
    + intros (x & Hx & Ht). apply in_map_iff in Ht. destruct Ht as (t' & <- & Ht').
      constructor; [exact Hx|]. now apply IH.
    + intros H; inversion H as [|? x ? t' Hx Ht]; subst. exists x. split; [exact Hx|].
      apply in_map. now apply IH.
Qed.
Lemma indexed_in {A} (l : list A) : forall k i x, In (i, x) (indexed_from k l) <-> (k <= i)%nat /\ nth_error l (i - k) = Some x.
Proof.
  induction l as [|y l IH]; intros k i x; cbn [indexed_from In].
  - split; [intros []|]. intros [_ H]. destruct (i - k)%nat; discriminate.
  - rewrite IH. split.
    + intros [E|[H1 H2]].
      * injection E as -> ->. split; [lia|]. now rewrite Nat.sub_diag.
      * split; [lia|]. replace (i - k)%nat with (S (i - S k)) by lia. exact H2.
    + intros [H1 H2]. destruct (Nat.eq_dec i k) as [->|Hn].
      * left. rewrite Nat.sub_diag in H2. cbn in H2. congruence.
      * right. split; [lia|]. replace (i - k)%nat with (S (i - S k)) in H2 by lia. exact H2.
Qed.
Lemma node_cands_in n k i a :
  In (k, (i, a)) (node_cands n) <-> k = n_name n /\ nth_error (n_alts n) i = Some a /\ 0 < a_weight a.
Proof.
  unfold node_cands. rewrite in_map_iff. split.
  - intros ([i' a'] & E & H). injection E as <- <- <-. apply filter_In in H. destruct H as [H1 H2].
    apply indexed_in in H1. rewrite Nat.sub_0_r in H1. cbn in H2. apply positive_spec in H2.
    intuition.
  - intros (-> & H1 & H2). exists (i, a). split; [reflexivity|]. apply filter_In. split.
    + apply indexed_in. rewrite Nat.sub_0_r. split; [lia|exact H1]. + now apply positive_spec.
Qed.

Lemma cands_in nodes t :
  In t (cands nodes) <-> at_positions nodes (cand_pos t) (cand_choice t) /\ choice_of nodes (cand_choice t).
Proof.
  unfold cands. eapply iff_trans; [exact (product_in _ _)|]. revert t. induction nodes as [|n nodes IH]; intros t.
  - split.
    + intros H; inversion H; subst. split; [|constructor]. split; [reflexivity|]. split; [reflexivity|].
      intros [|k] n i Hn; discriminate.
    + intros [(H1 & _ & _) _]. unfold cand_pos in H1. rewrite map_length in H1.
      destruct t; [constructor|discriminate].
  - split.
    + intros H; inversion H as [|? p ? t' Hp Ht]; subst. apply IH in Ht. destruct p as [k [i a]].
      apply node_cands_in in Hp. destruct Hp as (-> & Hn & Hw). destruct Ht as [(L1 & L2 & Hpos) Hch].
      split; [split; [|split]|].
      * change (S (List.length (cand_pos t')) = S (List.length nodes)). now rewrite L1.
      * change (S (List.length (cand_choice t')) = S (List.length nodes)). now rewrite L2.
      * intros [|k] n' i' Hk Hi; cbn in Hk, Hi.
        -- injection Hk as <-. injection Hi as <-. exists a. split; [exact Hn|reflexivity].
        -- exact (Hpos k n' i' Hk Hi).
      * constructor; [|exact Hch]. cbn. split; [reflexivity|]. split; [now apply nth_error_In in Hn|exact Hw].
    + intros [(L1 & L2 & Hpos) Hch]. destruct t as [|[k [i a]] t]; [discriminate|].
      inversion Hch as [|? ? ? ? (E & Hin & Hw) Hch']; subst. cbn in E, Hin, Hw.
      destruct (Hpos 0%nat n i eq_refl eq_refl) as (a' & Ha' & Hc'). cbn in Hc'. injection Hc' as -> ->.
      constructor; [now apply node_cands_in|]. apply IH. split; [|exact Hch'].
      split; [now injection L1|]. split; [now injection L2|].
      intros k' n' i' Hk Hi. exact (Hpos (S k') n' i' Hk Hi).
Qed.

(** The combinations come in increasing order of positions. *)
Definition cand_lt (s t : cand) : Prop := lex_lt (cand_pos s) (cand_pos t).
Lemma StronglySorted_app {A} (Rel : A -> A -> Prop) l m :
  StronglySorted Rel l -> StronglySorted Rel m -> (forall x y, In x l -> In y m -> Rel x y) ->
  StronglySorted Rel (l ++ m).
Proof.
  induction 1 as [|x l Hs IH Hall]; intros Hm H; [exact Hm|]. cbn [app]. constructor.
  - apply IH; [exact Hm|]. intros; apply H; [now right|assumption].
  - apply Forall_app. split; [exact Hall|]. apply Forall_forall. intros y Hy. apply H; [now left|exact Hy].
Qed.
Lemma StronglySorted_map {A B} (f : A -> B) (RA : A -> A -> Prop) (RB : B -> B -> Prop) l :
  (forall x y, RA x y -> RB (f x) (f y)) -> StronglySorted RA l -> StronglySorted RB (map f l).
Proof.
  intros H; induction 1 as [|x l Hs IH Hall]; [constructor|]. cbn. constructor; [exact IH|].
  rewrite Forall_map. eapply Forall_impl; [|exact Hall]. auto.
Qed.
Lemma node_cands_sorted n :
  StronglySorted (fun p q : string * (nat * alternative) => (fst (snd p) < fst (snd q))%nat) (node_cands n).
Proof.
  unfold node_cands. eapply StronglySorted_map with (RA := fun p q : nat * alternative => (fst p < fst q)%nat); [auto|].
  generalize (n_alts n), 0%nat. induction l as [|a l IH]; intros i; cbn [indexed_from filter]; [constructor|].
  destruct (positive (snd (i, a))); [|apply IH]. constructor; [apply IH|].
  apply Forall_forall. intros [j b] Hj. apply filter_In in Hj. destruct Hj as [Hj _].
  apply indexed_in in Hj. cbn. lia.
Qed.
Lemma product_sorted (ls : list (list (string * (nat * alternative)))) :
  Forall (StronglySorted (fun p q => (fst (snd p) < fst (snd q))%nat)) ls ->
  StronglySorted cand_lt (product ls).
Proof.
  induction 1 as [|l ls Hl Hls IH]; cbn [product]; [repeat constructor|].
  induction Hl as [|p l Hs IHl Hall]; cbn [flat_map]; [constructor|].
  apply StronglySorted_app; [|exact IHl|].
  - eapply StronglySorted_map; [|exact IH]. intros x y H. unfold cand_lt in *. cbn. now constructor.
  - intros x y Hx Hy. apply in_map_iff in Hx. destruct Hx as (x' & <- & _).
    apply in_flat_map in Hy. destruct Hy as (q & Hq & Hy). apply in_map_iff in Hy.
    destruct Hy as (y' & <- & _). rewrite Forall_forall in Hall. unfold cand_lt. cbn.
    constructor. exact (Hall q Hq).
Qed.
Lemma cands_sorted nodes : StronglySorted cand_lt (cands nodes).
Proof. apply product_sorted. rewrite Forall_map. apply Forall_forall. intros; apply node_cands_sorted. Qed.

(** Hashing the key of a branch. *)
Definition hashed (c : choice) : Prop := forall k a l, In (k, a) c -> a_value a <> VList l.
Lemma hashable_spec v : hashable v = true <-> (forall l, v <> VList l).
Proof. destruct v; cbn; split; try discriminate; try reflexivity; intros H; now elim (H l). Qed.
Lemma key_hashable (c : choice) : forallb (fun p => hashable (snd p)) (branch_key (branch_at c)) = true <-> hashed c.
Proof.
  rewrite forallb_forall. unfold branch_key. rewrite as_dict_at. split.
  - intros H k a l Hi. apply hashable_spec, (H (k, a_value a)). apply sort_in.
    apply in_map_iff. exists (k, a). auto.
  - intros H x Hx. apply (proj1 (sort_in _ _)) in Hx. apply in_map_iff in Hx. destruct Hx as ([k a] & <- & Hi).
    apply hashable_spec. intros l. exact (H k a l Hi).
Qed.

(** The loop. *)
Lemma cands_names nodes t : In t (cands nodes) -> map fst (cand_choice t) = map n_name nodes.
Proof.
  intros H. apply cands_in in H. destruct H as [_ H]. unfold choice_of in H. revert H.
  generalize (cand_choice t). intros c H. induction H as [|n p ns c (E & _) H IH]; [reflexivity|].
  cbn. now rewrite E, IH.
Qed.

Lemma iter_loop_spec names T : forall seen S,
  NoDup names -> StronglySorted cand_lt T ->
  Forall (fun t => map fst (cand_choice t) = names /\ choice_evaluable (cand_choice t) /\ hashed (cand_choice t)) T ->
  seen = map (fun c => branch_key (branch_at c)) S -> Forall (fun c => map fst c = names) S ->
  exists U, iter_loop seen (map (fun t => map real_of (cand_choice t)) T) =
              (map (fun t => branch_at (cand_choice t)) U, None) /\
    (forall t, In t U -> In t T) /\ StronglySorted cand_lt U /\
    Forall (fun t => choice_valid (cand_choice t)) U /\
    ForallOrdPairs (fun s t => ~ same_values (cand_choice s) (cand_choice t)) U /\
    (forall t c, In t U -> In c S -> ~ same_values (cand_choice t) c) /\
    (forall t, In t T -> choice_valid (cand_choice t) ->
       (exists c, In c S /\ same_values (cand_choice t) c) \/
       (exists u, In u U /\ same_values (cand_choice u) (cand_choice t) /\ (u = t \/ cand_lt u t))).
Proof.
  induction T as [|t T IH]; intros seen S Hn Hs Hev Hseen HS.
  - exists []. split; [reflexivity|]. split; [intros ? []|]. split; [constructor|]. split; [constructor|].
    split; [constructor|]. split; [intros ? ? []|]. intros ? [].
  - inversion Hs as [|? ? Hs' Hall]; subst. inversion Hev as [|? ? (Hnm & Hce & Hha) Hev']; subst.
    cbn [map iter_loop].
    assert (Hnd : NoDup (map fst (cand_choice t))) by assumption.
    rewrite (branch_of_nodup _ Hnd).
    destruct (tree_is_valid_evaluable _ Hnd Hce) as ([|] & -> & Hiff).
    + assert (Hv : choice_valid (cand_choice t)) by now apply Hiff.
      rewrite (proj2 (key_hashable _) Hha). cbn [negb].
      destruct (existsb _ _) eqn:Ex.
      * apply existsb_exists in Ex. destruct Ex as (k & Hk & Ek). apply in_map_iff in Hk.
        destruct Hk as (c & <- & Hc).
        assert (Hcn : map fst c = map fst (cand_choice t)) by (rewrite Forall_forall in HS; now apply HS).
        apply key_same_values in Ek; [|congruence|rewrite Hcn; exact Hnd].
        destruct (IH _ S Hn Hs' Hev' eq_refl HS) as (U & E & H1 & H2 & H3 & H4 & H5 & H6).
        exists U. split; [exact E|]. split; [intros; right; auto|]. split; [exact H2|]. split; [exact H3|].
        split; [exact H4|]. split; [exact H5|]. intros t' [<-|Ht'] Hv'; [left; eauto|now apply H6].
      * destruct (IH (branch_key (branch_at (cand_choice t)) :: map (fun c => branch_key (branch_at c)) S) (cand_choice t :: S))
          as (U & E & H1 & H2 & H3 & H4 & H5 & H6); auto.
        rewrite E. exists (t :: U). split; [reflexivity|]. split; [intros x [<-|Hx]; [now left|right; auto]|].
        split; [constructor; [exact H2|]; apply Forall_forall; intros x Hx; rewrite Forall_forall in Hall; auto|].
        split; [now constructor|].
        split.
        { constructor; [|exact H4]. apply Forall_forall. intros u Hu Hsv.
          apply (H5 u (cand_choice t) Hu (or_introl eq_refl)).
          clear -Hsv. induction Hsv as [|p q c d [E1 E2] H IH]; constructor; auto.
          split; [now symmetry|now apply same_value_sym]. }
        split.
        { intros x c [<-|Hx] Hc Hsv; [|exact (H5 x c Hx (or_intror Hc) Hsv)].
          assert (F : existsb (key_eqb (branch_key (branch_at (cand_choice t))))
                        (map (fun c => branch_key (branch_at c)) S) = true).
          { apply existsb_exists. exists (branch_key (branch_at c)). split; [apply in_map_iff; eauto|].
            pose proof (same_values_names _ _ Hsv) as Hm. apply key_same_values; auto. now rewrite <- Hm. }
          congruence. }
        intros t' [<-|Ht'] Hv'.
        { right. exists t. split; [now left|]. split; [apply same_values_refl|now left]. }
        destruct (H6 t' Ht' Hv') as [(c & [<-|Hc] & Hsv)|(u & Hu & Hsv & Hl)].
        { right. exists t. split; [now left|]. split.
          - clear -Hsv. induction Hsv as [|p q c d [E1 E2] H IH]; constructor; auto.
            split; [now symmetry|now apply same_value_sym].
          - right. rewrite Forall_forall in Hall. auto. }
        { left; eauto. }
        right. exists u. split; [now right|]. auto.
    + destruct (IH _ S Hn Hs' Hev' eq_refl HS) as (U & E & H1 & H2 & H3 & H4 & H5 & H6).
      exists U. split; [exact E|]. split; [intros; right; auto|]. split; [exact H2|]. split; [exact H3|].
      split; [exact H4|]. split; [exact H5|]. intros t' [<-|Ht'] Hv'; [|now apply H6].
      apply Hiff in Hv'. discriminate.
Qed.
