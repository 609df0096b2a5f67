(** Properties of logic trees. *)
From Coq Require Import QArith String Qabs Sorted.
From Verif Require Import Common Model.LogicTree Spec.LogicTreeSpec Proof.CommonFacts Proof.LogicTreeFacts.
Local Open Scope Q_scope.

Lemma branch_at_shows c : shows (branch_at c) c.
Proof. unfold branch_at. induction c as [|p c IH]; constructor; auto. cbn. repeat split; reflexivity. Qed.
Lemma shows_branch b c : shows b c -> b = branch_at c.
Proof.
  intros H. induction H as [|[k r] [k' a] b c (E1 & E2 & E3 & E4 & E5 & E6) H IH]; [reflexivity|].
  cbn in *. rewrite IH. destruct r as [nm v w rq ex]. cbn in *. subst. reflexivity.
Qed.

(** One condition list. *)
Lemma first_problem_kinds c d kr :
  first_problem c d kr -> cond_fails c kr \/ cond_missing c kr \/ cond_incomparable c kr.
Proof. intros (pre & post & _ & _ & H). destruct (cond_cases c kr) as [G|G]; [contradiction|exact G]. Qed.

Lemma fails_not_holds (c : choice) kr : NoDup (map fst c) -> cond_fails c kr -> ~ cond_holds c kr.
Proof. intros Hn H G. exact (holds_not_fails c kr Hn G H). Qed.
Lemma missing_not_holds c kr : cond_missing c kr -> ~ cond_holds c kr.
Proof. intros H (a & Ha & _). apply H. now apply (in_map fst) in Ha. Qed.
Lemma incomparable_not_holds (c : choice) kr : NoDup (map fst c) -> cond_incomparable c kr -> ~ cond_holds c kr.
Proof.
  intros Hn (a & Ha & H) (b & Hb & Hm). rewrite (nodup_unique c _ a b Hn Ha Hb) in H.
  apply H. now apply meets_comparable.
Qed.

Lemma first_unique c d kr kr' : first_problem c d kr -> first_problem c d kr' -> kr = kr'.
Proof.
  intros (pre & post & -> & Hp & Hk) (pre' & post' & E & Hp' & Hk').
  revert pre' E Hp'. induction Hp as [|x pre Hx Hp IH]; intros [|y pre'] E Hp'.
  - cbn in E. congruence.
  - cbn in E. injection E as -> _. inversion Hp'; subst; contradiction.
  - cbn in E. injection E as <- _. contradiction.
  - cbn in E. injection E as _ E. inversion Hp'; subst. eapply IH; eauto.
Qed.

(** What [all(...)] gives, in terms of the first problem. *)
Inductive all_outcome (c : choice) (d : conds) : res bool -> Prop :=
| ao_true : Forall (cond_holds c) d -> all_outcome c d (Ok true)
| ao_false kr : first_problem c d kr -> cond_fails c kr -> all_outcome c d (Ok false)
| ao_key kr : first_problem c d kr -> cond_missing c kr -> all_outcome c d (Err KeyError)
| ao_type kr : first_problem c d kr -> cond_incomparable c kr -> all_outcome c d (Err TypeError).
Lemma all_match_outcome (c : choice) d : NoDup (map fst c) -> all_outcome c d (all_match (branch_at c) d).
Proof.
  intros Hn. destruct (all_match_spec c d Hn) as [[H1 ->]|(pre & kr & post & E & Hp & [[H ->]|[[H ->]|[H ->]]])].
  - now apply ao_true.
  - apply (ao_false _ _ kr); auto. exists pre, post. split; [exact E|]. split; [exact Hp|]. now apply fails_not_holds.
  - apply (ao_key _ _ kr); auto. exists pre, post. split; [exact E|]. split; [exact Hp|]. now apply missing_not_holds.
  - apply (ao_type _ _ kr); auto. exists pre, post. split; [exact E|]. split; [exact Hp|]. now apply incomparable_not_holds.
Qed.

(** C44 *)
Lemma validity_meaning b c r :
  shows b c -> NoDup (map fst c) ->
  (real_is_valid r b = Ok true <->
     Forall (cond_holds c) (r_requires r) /\
     (r_excludes r = [] \/ exists kr, first_problem c (r_excludes r) kr /\ cond_fails c kr)) /\
  (real_is_valid r b = Ok false <->
     (exists kr, first_problem c (r_requires r) kr /\ cond_fails c kr) \/
     (Forall (cond_holds c) (r_requires r) /\ r_excludes r <> [] /\ Forall (cond_holds c) (r_excludes r))) /\
  (real_is_valid r b = Err KeyError <->
     (exists kr, first_problem c (r_requires r) kr /\ cond_missing c kr) \/
     (Forall (cond_holds c) (r_requires r) /\
      exists kr, first_problem c (r_excludes r) kr /\ cond_missing c kr)) /\
  (real_is_valid r b = Err TypeError <->
     (exists kr, first_problem c (r_requires r) kr /\ cond_incomparable c kr) \/
     (Forall (cond_holds c) (r_requires r) /\
      exists kr, first_problem c (r_excludes r) kr /\ cond_incomparable c kr)).
Proof.
  intros Hb Hn. rewrite (shows_branch _ _ Hb). clear b Hb.
  assert (E1 : real_is_valid r (branch_at c) =
     bind (all_match (branch_at c) (r_requires r)) (fun ok => if ok then
       match r_excludes r with [] => Ok true | d => bind (all_match (branch_at c) d) (fun m => Ok (negb m)) end
       else Ok false)).
  { unfold real_is_valid. destruct (r_requires r); reflexivity. }
  rewrite E1. clear E1.
  pose proof (all_match_outcome c (r_requires r) Hn) as H1.
  pose proof (all_match_outcome c (r_excludes r) Hn) as H2.
  assert (Nh : forall kr d, first_problem c d kr -> ~ Forall (cond_holds c) d).
  { intros kr d (pre & post & -> & _ & H) G. apply H. rewrite Forall_forall in G. apply G.
    apply in_or_app. right. now left. }
  assert (X1 : forall kr, cond_fails c kr -> ~ cond_missing c kr).
  { intros kr (a & Ha & _) H. apply H. now apply (in_map fst) in Ha. }
  assert (X2 : forall kr, cond_fails c kr -> ~ cond_incomparable c kr).
  { intros kr (a & Ha & Hc & _) (a' & Ha' & Hc'). rewrite (nodup_unique c _ a a' Hn Ha Ha') in Hc. auto. }
  assert (X3 : forall kr, cond_missing c kr -> ~ cond_incomparable c kr).
  { intros kr H (a & Ha & _). apply H. now apply (in_map fst) in Ha. }
  assert (U : forall d kr kr', first_problem c d kr -> first_problem c d kr' -> kr = kr')
    by (intros d kr kr'; apply first_unique).
  remember (all_match (branch_at c) (r_requires r)) as o1. clear Heqo1.
  assert (E2 : forall (P : Prop), match r_excludes r with [] => Ok true | d => bind (all_match (branch_at c) d) (fun m => Ok (negb m)) end
     = match r_excludes r with [] => Ok true | _ => bind (all_match (branch_at c) (r_excludes r)) (fun m => Ok (negb m)) end)
    by (intros _; destruct (r_excludes r); reflexivity).
  assert (E3 := E2 True). clear E2. 
  remember (all_match (branch_at c) (r_excludes r)) as o2. clear Heqo2.
  destruct H1 as [A|k1 P1 A|k1 P1 A|k1 P1 A]; cbn [bind].
  - rewrite E3. clear E3. destruct (r_excludes r) as [|e d] eqn:Ex.
    + split; [|split; [|split]]; (split; intros H; [try discriminate; auto|try reflexivity; exfalso]).
      * destruct H as [(kr & Hp & _)|(_ & H & _)]; [exact (Nh _ _ Hp A)|congruence].
      * destruct H as [(kr & Hp & _)|(_ & kr & Hp & _)]; [exact (Nh _ _ Hp A)|].
        destruct Hp as ([|] & ? & E & _); discriminate.
      * destruct H as [(kr & Hp & _)|(_ & kr & Hp & _)]; [exact (Nh _ _ Hp A)|].
        destruct Hp as ([|] & ? & E & _); discriminate.
    + destruct H2 as [B|k2 P2 B|k2 P2 B|k2 P2 B]; cbn [bind negb].
      * split; [|split; [|split]]; (split; intros H; [try discriminate|try reflexivity; exfalso]).
        -- destruct H as (_ & [H|(kr & Hp & _)]); [discriminate|exact (Nh _ _ Hp B)].
        -- right. split; [exact A|]. split; [discriminate|exact B].
        -- destruct H as [(kr & Hp & _)|(_ & kr & Hp & _)]; [exact (Nh _ _ Hp A)|exact (Nh _ _ Hp B)].
        -- destruct H as [(kr & Hp & _)|(_ & kr & Hp & _)]; [exact (Nh _ _ Hp A)|exact (Nh _ _ Hp B)].
      * split; [|split; [|split]]; (split; intros H; [try discriminate|try reflexivity; exfalso]).
        -- split; [exact A|]. right. eauto.
        -- destruct H as [(kr & Hp & _)|(_ & _ & H)]; [exact (Nh _ _ Hp A)|exact (Nh _ _ P2 H)].
        -- destruct H as [(kr & Hp & _)|(_ & kr & Hp & Hk)]; [exact (Nh _ _ Hp A)|].
           rewrite (U _ _ _ Hp P2) in Hk. exact (X1 _ B Hk).
        -- destruct H as [(kr & Hp & _)|(_ & kr & Hp & Hk)]; [exact (Nh _ _ Hp A)|].
           rewrite (U _ _ _ Hp P2) in Hk. exact (X2 _ B Hk).
      * split; [|split; [|split]]; (split; intros H; [try discriminate|try reflexivity; exfalso]).
        -- destruct H as (_ & [H|(kr & Hp & Hk)]); [discriminate|].
           rewrite (U _ _ _ Hp P2) in Hk. exact (X1 _ Hk B).
        -- destruct H as [(kr & Hp & _)|(_ & _ & H)]; [exact (Nh _ _ Hp A)|exact (Nh _ _ P2 H)].
        -- right. split; [exact A|]. eauto.
        -- destruct H as [(kr & Hp & _)|(_ & kr & Hp & Hk)]; [exact (Nh _ _ Hp A)|].
           rewrite (U _ _ _ Hp P2) in Hk. exact (X3 _ B Hk).
      * split; [|split; [|split]]; (split; intros H; [try discriminate|try reflexivity; exfalso]).
        -- destruct H as (_ & [H|(kr & Hp & Hk)]); [discriminate|].
           rewrite (U _ _ _ Hp P2) in Hk. exact (X2 _ Hk B).
        -- destruct H as [(kr & Hp & _)|(_ & _ & H)]; [exact (Nh _ _ Hp A)|exact (Nh _ _ P2 H)].
        -- destruct H as [(kr & Hp & _)|(_ & kr & Hp & Hk)]; [exact (Nh _ _ Hp A)|].
           rewrite (U _ _ _ Hp P2) in Hk. exact (X3 _ Hk B).
        -- right. split; [exact A|]. eauto.
  - split; [|split; [|split]]; (split; intros H; [try discriminate|try reflexivity; exfalso]).
    + destruct H as [H _]. exact (Nh _ _ P1 H).
    + left; eauto.
    + destruct H as [(kr & Hp & Hk)|(H & _)]; [|exact (Nh _ _ P1 H)].
      rewrite (U _ _ _ Hp P1) in Hk. exact (X1 _ A Hk).
    + destruct H as [(kr & Hp & Hk)|(H & _)]; [|exact (Nh _ _ P1 H)].
      rewrite (U _ _ _ Hp P1) in Hk. exact (X2 _ A Hk).
  - split; [|split; [|split]]; (split; intros H; [try discriminate|try reflexivity; exfalso]).
    + destruct H as [H _]. exact (Nh _ _ P1 H).
    + destruct H as [(kr & Hp & Hk)|(H & _)]; [|exact (Nh _ _ P1 H)].
      rewrite (U _ _ _ Hp P1) in Hk. exact (X1 _ Hk A).
    + left; eauto.
    + destruct H as [(kr & Hp & Hk)|(H & _)]; [|exact (Nh _ _ P1 H)].
      rewrite (U _ _ _ Hp P1) in Hk. exact (X3 _ A Hk).
  - split; [|split; [|split]]; (split; intros H; [try discriminate|try reflexivity; exfalso]).
    + destruct H as [H _]. exact (Nh _ _ P1 H).
    + destruct H as [(kr & Hp & Hk)|(H & _)]; [|exact (Nh _ _ P1 H)].
      rewrite (U _ _ _ Hp P1) in Hk. exact (X2 _ Hk A).
    + destruct H as [(kr & Hp & Hk)|(H & _)]; [|exact (Nh _ _ P1 H)].
      rewrite (U _ _ _ Hp P1) in Hk. exact (X3 _ Hk A).
    + left; eauto.
Qed.

Lemma unconditional_valid r b : r_requires r = [] -> r_excludes r = [] -> real_is_valid r b = Ok true.
Proof. intros H1 H2. unfold real_is_valid. now rewrite H1, H2. Qed.

(** Well-formed trees can be evaluated. *)
Lemma conds_evaluable nodes t :
  (forall n a, In n nodes -> In a (n_alts n) ->
    forall kr, In kr (a_requires a) \/ In kr (a_excludes a) -> cond_wf nodes kr) ->
  In t (cands nodes) -> choice_evaluable (cand_choice t).
Proof.
  intros Hwf Ht. apply cands_in in Ht. destruct Ht as [_ Hc]. set (c := cand_choice t) in *.
  assert (Hin : forall k a, In (k, a) c -> exists n, In n nodes /\ n_name n = k /\ In a (n_alts n)).
  { clear -Hc. unfold choice_of in Hc. induction Hc as [|n p ns c (E1 & E2 & _) H IH]; intros k a Hi; [destruct Hi|].
    destruct Hi as [->|Hi]; [exists n; split; [now left|auto]|].
    destruct (IH _ _ Hi) as (m & Hm & G). exists m. split; [now right|exact G]. }
  assert (Hall : forall n, In n nodes -> exists a, In (n_name n, a) c /\ In a (n_alts n)).
  { clear -Hc. unfold choice_of in Hc. induction Hc as [|n p ns c (E1 & E2 & _) H IH]; intros m Hm; [destruct Hm|].
    destruct Hm as [<-|Hm]; [exists (snd p); split; [left; destruct p; cbn in *; congruence|exact E2]|].
    destruct (IH m Hm) as (a & Ha & Ha'). exists a. split; [now right|exact Ha']. }
  assert (Hev : forall n a kr, In n nodes -> In a (n_alts n) -> In kr (a_requires a) \/ In kr (a_excludes a) -> evaluable c kr).
  { intros n a kr Hni Hai Hkr. destruct (Hwf n a Hni Hai kr Hkr) as (m & Hm & Em & Hcmp).
    destruct (Hall m Hm) as (b & Hb & Hb'). specialize (Hcmp b Hb'). rewrite Em in Hb.
    destruct (proj1 (matches_spec (snd kr) (a_value b)) Hcmp) as ([|] & _ & Hiff).
    - left. exists b. split; [exact Hb|]. now apply Hiff.
    - right. exists b. split; [exact Hb|]. split; [exact Hcmp|]. intros G. apply Hiff in G. discriminate. }
  intros k a Hi. destruct (Hin k a Hi) as (n & Hni & _ & Hai).
  split; apply Forall_forall; intros kr Hkr; eapply Hev; eauto.
Qed.

Lemma wf_evaluable nodes t :
  tree_wf nodes -> In t (cands nodes) -> choice_evaluable (cand_choice t).
Proof. intros (_ & _ & Hwf). now apply conds_evaluable. Qed.

Lemma cands_hashed nodes t : Forall no_lists nodes -> In t (cands nodes) -> hashed (cand_choice t).
Proof.
  intros Hl Ht k a l Hi. apply cands_in in Ht. destruct Ht as [_ Hc]. revert Hi.
  unfold choice_of in Hc. induction Hc as [|n p ns c (E1 & E2 & _) H IH]; intros Hi; [destruct Hi|].
  inversion Hl as [|? ? Hn Hl']; subst. destruct Hi as [->|Hi]; [exact (Hn a l E2)|auto].
Qed.

(** C41 *)
Lemma tree_iteration nodes :
  tree_wf nodes ->
  exists bs cs ixs, tree_iter nodes = (bs, None) /\ Forall2 shows bs cs /\
    Forall2 (at_positions nodes) ixs cs /\ StronglySorted lex_lt ixs /\
    (forall c, In c cs -> choice_of nodes c /\ choice_valid c) /\
    ForallOrdPairs (fun c d => ~ same_values c d) cs /\
    (forall ix c, at_positions nodes ix c -> choice_of nodes c -> choice_valid c ->
       exists k ix' c', nth_error ixs k = Some ix' /\ nth_error cs k = Some c' /\
         same_values c' c /\ (ix' = ix \/ lex_lt ix' ix)).
Proof.
  intros Hwf. pose proof Hwf as (Hn & Hnl & _).
  destruct (iter_loop_spec (map n_name nodes) (cands nodes) [] [] Hn (cands_sorted nodes))
    as (U & E & H1 & H2 & H3 & H4 & _ & H6); auto.
  { apply Forall_forall. intros t Ht. split; [now apply cands_names|]. split; [now apply (wf_evaluable nodes)|now apply (cands_hashed nodes)]. }
  exists (map (fun t => branch_at (cand_choice t)) U), (map cand_choice U), (map cand_pos U).
  split; [unfold tree_iter; rewrite product_cands; exact E|].
  split. { clear. induction U; constructor; auto. apply branch_at_shows. }
  split. { assert (G : forall t, In t U -> at_positions nodes (cand_pos t) (cand_choice t))
             by (intros t Ht; apply (cands_in nodes t); auto).
           clear -G. induction U as [|t U IH]; constructor; [apply G; now left|]. apply IH. intros; apply G; now right. }
  split; [eapply StronglySorted_map; [|exact H2]; auto|].
  split. { intros c Hc. apply in_map_iff in Hc. destruct Hc as (t & <- & Ht). split.
           - apply (cands_in nodes t); auto. - rewrite Forall_forall in H3. auto. }
  split. { clear -H4. induction H4 as [|t U Ht HU IH]; constructor; auto.
           apply Forall_forall. intros c Hc. apply in_map_iff in Hc. destruct Hc as (u & <- & Hu).
           rewrite Forall_forall in Ht. exact (Ht u Hu). }
  intros ix c Hp Hc Hv.
  assert (exists t, cand_pos t = ix /\ cand_choice t = c) as (t & <- & <-).
  { exists (map (fun p => (fst (fst p), (snd p, snd (fst p)))) (combine c ix)).
    destruct Hp as (L1 & L2 & _). assert (L : List.length c = List.length ix) by congruence. clear -L.
    revert ix L. induction c as [|[k a] c IH]; intros [|i ix] L; try discriminate; [split; reflexivity|].
    injection L as L. destruct (IH ix L) as [E1 E2]. split.
    - cbn [combine map cand_pos fst snd]. f_equal. exact E1.
    - cbn [combine map cand_choice fst snd]. f_equal. exact E2. }
  assert (Ht : In t (cands nodes)) by now apply cands_in.
  destruct (H6 t Ht Hv) as [(c & [] & _)|(u & Hu & Hsv & Hl)].
  apply In_nth_error in Hu. destruct Hu as [k Hk]. exists k, (cand_pos u), (cand_choice u).
  split; [now apply map_nth_error|]. split; [now apply map_nth_error|]. split; [exact Hsv|].
  destruct Hl as [->|Hl]; auto.
Qed.

(** Soundness without well-formedness: whatever is yielded is a valid choice, and an
    exception comes from a condition that cannot be evaluated. *)
Lemma real_ok_valid (c : choice) p :
  NoDup (map fst c) -> real_is_valid (real_of p) (branch_at c) = Ok true -> alt_valid c (snd p).
Proof.
  intros Hn H. destruct (validity_meaning _ c (real_of p) (branch_at_shows c) Hn) as (V & _).
  apply V in H. destruct H as [H1 H2]. destruct p as [k a]. cbn in *. split.
  - now rewrite Forall_forall in H1.
  - intros Hne G. destruct H2 as [H2|(kr & (pre & post & E & _ & Hk) & _)]; [contradiction|].
    apply Hk, G. rewrite E. apply in_or_app. right; now left.
Qed.
Lemma all_valid_ok (c : choice) l :
  NoDup (map fst c) -> all_valid (branch_at c) (branch_at l) = Ok true ->
  forall k a, In (k, a) l -> alt_valid c a.
Proof.
  intros Hn. induction l as [|p l IH]; intros H k a Hi; [destruct Hi|].
  cbn [branch_at map all_valid] in H. change (map (fun p0 => (fst p0, real_of p0)) l) with (branch_at l) in H.
  destruct (real_is_valid (real_of p) (branch_at c)) as [[|]|] eqn:E; cbn [bind] in H; try discriminate.
  destruct Hi as [->|Hi]; [exact (real_ok_valid c (k, a) Hn E)|eauto].
Qed.
Definition unevaluable (c : choice) (kr : string * reference) (e : exn) : Prop :=
  (e = KeyError /\ cond_missing c kr) \/ (e = TypeError /\ cond_incomparable c kr).
Lemma real_err (c : choice) p e :
  NoDup (map fst c) -> real_is_valid (real_of p) (branch_at c) = Err e ->
  exists kr, (In kr (a_requires (snd p)) \/ In kr (a_excludes (snd p))) /\ unevaluable c kr e.
Proof.
  intros Hn H.
  destruct (validity_meaning _ c (real_of p) (branch_at_shows c) Hn) as (_ & _ & V1 & V2).
  assert (In_fp : forall d kr, first_problem c d kr -> In kr d).
  { intros d kr (pre & post & -> & _). apply in_or_app. right; now left. }
  assert (He : e = KeyError \/ e = TypeError).
  { clear V1 V2. unfold real_is_valid in H.
    assert (G : forall d e', all_match (branch_at c) d = Err e' -> e' = KeyError \/ e' = TypeError).
    { intros d e' E. pose proof (all_match_outcome c d Hn) as O. rewrite E in O. inversion O; auto. }
    destruct (r_requires (real_of p)) as [|x d] eqn:Er; cbn [bind] in H.
    - destruct (r_excludes (real_of p)) as [|y d'] eqn:Ee; [discriminate|].
      destruct (all_match _ (y :: d')) eqn:E; cbn [bind] in H; [discriminate|]. injection H as <-. eauto.
    - destruct (all_match _ (x :: d)) as [[|]|] eqn:E; cbn [bind] in H.
      + destruct (r_excludes (real_of p)) as [|y d'] eqn:Ee; [discriminate|].
        destruct (all_match _ (y :: d')) eqn:E'; cbn [bind] in H; [discriminate|]. injection H as <-. eauto.
      + discriminate.
      + injection H as <-. eauto. }
  destruct p as [k a]. cbn in *. destruct He as [->| ->].
  - apply V1 in H. destruct H as [(kr & Hp & Hk)|(_ & kr & Hp & Hk)]; exists kr; (split; [eauto|left; auto]).
  - apply V2 in H. destruct H as [(kr & Hp & Hk)|(_ & kr & Hp & Hk)]; exists kr; (split; [eauto|right; auto]).
Qed.
Lemma all_valid_err (c : choice) l e :
  NoDup (map fst c) -> all_valid (branch_at c) (branch_at l) = Err e ->
  exists k a kr, In (k, a) l /\ (In kr (a_requires a) \/ In kr (a_excludes a)) /\ unevaluable c kr e.
Proof.
  intros Hn. induction l as [|p l IH]; intros H; [discriminate|].
  cbn [branch_at map all_valid] in H. change (map (fun p0 => (fst p0, real_of p0)) l) with (branch_at l) in H.
  destruct (real_is_valid (real_of p) (branch_at c)) as [[|]|e'] eqn:E; cbn [bind] in H; try discriminate.
  - destruct (IH H) as (k & a & kr & Hi & G). exists k, a, kr. split; [now right|exact G].
  - injection H as ->. destruct (real_err c p e Hn E) as (kr & Hk & Hu). destruct p as [k a].
    exists k, a, kr. split; [now left|]. auto.
Qed.
Lemma not_hashed (c : choice) :
  forallb (fun p => hashable (snd p)) (branch_key (branch_at c)) = false ->
  exists k a l, In (k, a) c /\ a_value a = VList l.
Proof.
  intros H. destruct (existsb (fun p => negb (hashable (a_value (snd p)))) c) eqn:E.
  - apply existsb_exists in E. destruct E as ([k a] & Hi & Hv). cbn in Hv. exists k, a.
    destruct (a_value a); try discriminate. eauto.
  - exfalso. enough (G : hashed c) by (apply key_hashable in G; congruence).
    intros k a l Hi El. assert (F : existsb (fun p => negb (hashable (a_value (snd p)))) c = true).
    { apply existsb_exists. exists (k, a). split; [exact Hi|]. cbn. now rewrite El. }
    congruence.
Qed.
Lemma iter_loop_sound nodes T : forall seen bs oe,
  NoDup (map n_name nodes) -> (forall t, In t T -> In t (cands nodes)) ->
  iter_loop seen (map (fun t => map real_of (cand_choice t)) T) = (bs, oe) ->
  (forall b, In b bs -> exists c, shows b c /\ choice_of nodes c /\ choice_valid c) /\
  (forall e, oe = Some e -> exists c k a, choice_of nodes c /\ In (k, a) c /\
     ((exists kr, (In kr (a_requires a) \/ In kr (a_excludes a)) /\ unevaluable c kr e) \/
      (exists l, e = TypeError /\ choice_valid c /\ a_value a = VList l))).
Proof.
  induction T as [|t T IH]; intros seen bs oe Hn Hsub H.
  - cbn in H. injection H as <- <-. split; [intros b []|discriminate].
  - cbn [map iter_loop] in H. pose proof (Hsub t (or_introl eq_refl)) as Ht.
    assert (Hnd : NoDup (map fst (cand_choice t))) by now rewrite (cands_names nodes).
    rewrite (branch_of_nodup _ Hnd) in H. apply cands_in in Ht. destruct Ht as [_ Hch].
    assert (Hsub' : forall u, In u T -> In u (cands nodes)) by (intros; apply Hsub; now right).
    destruct (tree_is_valid (branch_at (cand_choice t))) as [[|]|e] eqn:E.
    + destruct (forallb (fun p => hashable (snd p)) (branch_key (branch_at (cand_choice t)))) eqn:Eh; cbn [negb] in H.
      2:{ injection H as <- <-. split; [intros b []|]. intros e0 E0. injection E0 as <-.
          destruct (not_hashed _ Eh) as (k & a & l & Hi & El). exists (cand_choice t), k, a.
          split; [exact Hch|]. split; [exact Hi|]. right. exists l. split; [reflexivity|]. split; [|exact El].
          intros k' a' Hi'. exact (all_valid_ok _ _ Hnd E k' a' Hi'). }
      destruct (existsb _ seen); [exact (IH _ _ _ Hn Hsub' H)|].
      destruct (iter_loop (_ :: seen) _) as [bs' oe'] eqn:E'. injection H as <- <-.
      destruct (IH _ _ _ Hn Hsub' E') as [I1 I2]. split; [|exact I2].
      intros b [<-|Hb]; [|auto]. exists (cand_choice t). split; [apply branch_at_shows|]. split; [exact Hch|].
      intros k a Hi. exact (all_valid_ok _ _ Hnd E k a Hi).
    + exact (IH _ _ _ Hn Hsub' H).
    + injection H as <- <-. split; [intros b []|]. intros e0 E0. injection E0 as <-.
      destruct (all_valid_err _ _ _ Hnd E) as (k & a & kr & G1 & G2 & G3).
      exists (cand_choice t), k, a. split; [exact Hch|]. split; [exact G1|]. left. eauto.
Qed.
Lemma tree_iteration_sound nodes bs oe :
  NoDup (map n_name nodes) -> tree_iter nodes = (bs, oe) ->
  (forall b, In b bs -> exists c, shows b c /\ choice_of nodes c /\ choice_valid c) /\
  (forall e, oe = Some e -> exists c k a, choice_of nodes c /\ In (k, a) c /\
     ((exists kr, (In kr (a_requires a) \/ In kr (a_excludes a)) /\
        ((e = KeyError /\ cond_missing c kr) \/ (e = TypeError /\ cond_incomparable c kr))) \/
      (exists l, e = TypeError /\ choice_valid c /\ a_value a = VList l))).
Proof. intros Hn. unfold tree_iter. rewrite product_cands. now apply iter_loop_sound. Qed.

(** Weights. *)
Lemma fold_weight (b : branch) : forall acc,
  fold_left (fun acc p => acc * r_weight (snd p)) b acc == acc * Qprod (map (fun p => r_weight (snd p)) b).
Proof.
  induction b as [|p b IH]; intros acc; cbn [fold_left map Qprod]; [ring|]. rewrite IH. ring.
Qed.
Lemma branch_weight_product b c :
  shows b c -> branch_weight b == Qprod (map (fun p => a_weight (snd p)) c).
Proof.
  intros H. unfold branch_weight. rewrite fold_weight.
  assert (E : map (fun p : string * realization => r_weight (snd p)) b = map (fun p => a_weight (snd p)) c).
  { induction H as [|p q b c (_ & _ & _ & E & _) H IH]; [reflexivity|]. cbn. now rewrite E, IH. }
  rewrite E. ring.
Qed.

(** Sorted lists with the same elements are the same. *)
Lemma lex_irrefl u : ~ lex_lt u u.
Proof. induction u as [|i u IH]; intros H; inversion H; subst; [lia|auto]. Qed.
Lemma lex_trans u v w : lex_lt u v -> lex_lt v w -> lex_lt u w.
Proof.
  intros H; revert w; induction H as [i j u v Hij|i u v H IH]; intros w Hw; inversion Hw; subst.
  - constructor; lia. - now constructor. - now constructor. - constructor 2. auto.
Qed.
Lemma sorted_same (l m : list cand) :
  StronglySorted cand_lt l -> StronglySorted cand_lt m -> (forall x, In x l <-> In x m) -> l = m.
Proof.
  intros Hl; revert m; induction Hl as [|x l Hs IH Hall]; intros m Hm H.
  - destruct m as [|y m]; [reflexivity|]. destruct (proj2 (H y)); now left.
  - destruct Hm as [|y m Hm Hally]; [destruct (proj1 (H x)); now left|].
    rewrite Forall_forall in Hall, Hally.
    assert (x = y).
    { destruct (proj1 (H x) (or_introl eq_refl)) as [E|Hx]; [now symmetry|].
      destruct (proj2 (H y) (or_introl eq_refl)) as [E|Hy]; [exact E|].
      exfalso. apply (lex_irrefl (cand_pos x)). eapply lex_trans; [exact (Hall y Hy)|exact (Hally x Hx)]. }
    subst y. f_equal. apply IH; [exact Hm|]. intros z. split; intros Hz.
    + destruct (proj1 (H z) (or_intror Hz)) as [<-|]; [|assumption].
      exfalso. exact (lex_irrefl _ (Hall x Hz)).
    + destruct (proj2 (H z) (or_intror Hz)) as [<-|]; [|assumption].
      exfalso. exact (lex_irrefl _ (Hally x Hz)).
Qed.

Definition validb (t : cand) : bool :=
  match tree_is_valid (branch_at (cand_choice t)) with Ok m => m | Err _ => false end.
Lemma StronglySorted_filter {A} (Rel : A -> A -> Prop) f l : StronglySorted Rel l -> StronglySorted Rel (filter f l).
Proof.
  induction 1 as [|x l Hs IH Hall]; [constructor|]. cbn. destruct (f x); [|exact IH]. constructor; [exact IH|].
  apply Forall_forall. intros y Hy. apply filter_In in Hy. rewrite Forall_forall in Hall. apply Hall, Hy.
Qed.
(** With pairwise different valid candidates nothing is dropped. *)
Lemma iter_no_duplicates nodes :
  NoDup (map n_name nodes) -> Forall no_lists nodes ->
  (forall t, In t (cands nodes) -> choice_evaluable (cand_choice t)) ->
  (forall s t, In s (cands nodes) -> In t (cands nodes) -> cand_lt s t ->
     choice_valid (cand_choice s) -> choice_valid (cand_choice t) ->
     ~ same_values (cand_choice s) (cand_choice t)) ->
  tree_iter nodes = (map (fun t => branch_at (cand_choice t)) (filter validb (cands nodes)), None).
Proof.
  intros Hn Hnl Hev Hd.
  destruct (iter_loop_spec (map n_name nodes) (cands nodes) [] [] Hn (cands_sorted nodes))
    as (U & E & H1 & H2 & H3 & H4 & _ & H6); auto.
  { apply Forall_forall. intros t Ht. split; [now apply cands_names|]. split; [auto|now apply (cands_hashed nodes)]. }
  unfold tree_iter. rewrite product_cands. etransitivity; [exact E|]. do 2 f_equal.
  assert (Hvb : forall t, In t (cands nodes) -> (validb t = true <-> choice_valid (cand_choice t))).
  { intros t Ht. unfold validb.
    assert (Hnd : NoDup (map fst (cand_choice t))) by now rewrite (cands_names nodes).
    destruct (tree_is_valid_evaluable _ Hnd (Hev t Ht)) as (m & -> & Hiff). exact Hiff. }
  apply sorted_same; [exact H2|apply StronglySorted_filter, cands_sorted|].
  intros t. split; intros Ht.
  - apply filter_In. split; [auto|]. apply Hvb; [auto|]. rewrite Forall_forall in H3. auto.
  - apply filter_In in Ht. destruct Ht as [Ht Hv]. apply Hvb in Hv; [|exact Ht].
    destruct (H6 t Ht Hv) as [(c & [] & _)|(u & Hu & Hsv & [->|Hl])]; [exact Hu|].
    exfalso. apply (Hd u t); auto. rewrite Forall_forall in H3. auto.
Qed.

Definition cand_weight (t : cand) : Q := Qprod (map (fun p => a_weight (snd (snd p))) t).
Lemma branch_at_weight t : branch_weight (branch_at (cand_choice t)) == cand_weight t.
Proof.
  rewrite (branch_weight_product _ _ (branch_at_shows _)). unfold cand_choice, cand_weight.
  rewrite map_map. reflexivity.
Qed.
Lemma Qsum_map_eq {A} (f g : A -> Q) l : (forall x, In x l -> f x == g x) -> Qsum (map f l) == Qsum (map g l).
Proof.
  induction l as [|x l IH]; intros H; [reflexivity|]. cbn. rewrite (H x) by now left.
  rewrite IH by (intros; apply H; now right). reflexivity.
Qed.
Lemma Qsum_app l m : Qsum (l ++ m) == Qsum l + Qsum m.
Proof. induction l as [|x l IH]; cbn; [ring|]. rewrite IH. ring. Qed.
Lemma Qsum_scale {A} q (f : A -> Q) l : Qsum (map (fun x => q * f x) l) == q * Qsum (map f l).
Proof. induction l as [|x l IH]; cbn; [ring|]. rewrite IH. ring. Qed.

Lemma product_weight ls :
  Qsum (map cand_weight (product ls)) == Qprod (map (fun l => Qsum (map (fun p => a_weight (snd (snd p))) l)) ls).
Proof.
  induction ls as [|l ls IH]; cbn [product map Qprod]; [reflexivity|].
  rewrite <- IH. clear IH. induction l as [|p l IHl]; cbn [flat_map map Qsum]; [ring|].
  rewrite map_app, Qsum_app, IHl, map_map.
  assert (E : Qsum (map (fun x => cand_weight (p :: x)) (product ls)) ==
              a_weight (snd (snd p)) * Qsum (map cand_weight (product ls))).
  { rewrite <- Qsum_scale. apply Qsum_map_eq. intros x _. reflexivity. }
  rewrite E. ring.
Qed.

Lemma lex_positions nodes s t :
  In s (cands nodes) -> In t (cands nodes) -> cand_lt s t ->
  exists n pre post post' i j a b, In n nodes /\ (i < j)%nat /\
    nth_error (n_alts n) i = Some a /\ nth_error (n_alts n) j = Some b /\ 0 < a_weight a /\ 0 < a_weight b /\
    s = pre ++ (n_name n, (i, a)) :: post /\ t = pre ++ (n_name n, (j, b)) :: post'.
Proof.
  unfold cands. intros Hs Ht. apply product_in in Hs, Ht. revert s t Hs Ht.
  induction nodes as [|n nodes IH]; intros s t Hs Ht Hl.
  - inversion Hs; subst. inversion Hl.
  - inversion Hs as [|? [k [i a]] ? s' Hp Hs']; subst. inversion Ht as [|? [k' [j b]] ? t' Hq Ht']; subst.
    apply node_cands_in in Hp, Hq. destruct Hp as (-> & Ha & Hwa). destruct Hq as (-> & Hb & Hwb).
    unfold cand_lt in Hl. cbn in Hl. inversion Hl as [? ? ? ? Hij|? ? ? Hl']; subst.
    + exists n, [], s', t', i, j, a, b. split; [now left|]. repeat split; auto.
    + destruct (IH s' t' Hs' Ht' Hl') as (m & pre & post & post' & i & j' & a' & b' & H1 & H2 & H3 & H4 & H5 & H6 & -> & ->).
      assert (a = b) by congruence. subst b.
      exists m, ((n_name n, (j, a)) :: pre), post, post', i, j', a', b'. split; [now right|]. repeat split; auto.
Qed.
Lemma same_values_nth c d pre p post q post' :
  same_values c d -> c = pre ++ p :: post -> d = pre ++ q :: post' -> same_value (a_value (snd p)) (a_value (snd q)).
Proof.
  intros H; revert pre d H. revert c. intros c pre. revert c.
  induction pre as [|x pre IH]; intros c d H -> ->; inversion H as [|? ? ? ? [_ H1] H2]; subst; [exact H1|].
  eapply IH; eauto.
Qed.
Lemma cand_choice_app pre p post : cand_choice (pre ++ p :: post) = cand_choice pre ++ (fst p, snd (snd p)) :: cand_choice post.
Proof. unfold cand_choice. now rewrite map_app. Qed.

Definition conditionless (n : node) : Prop :=
  forall a, In a (n_alts n) -> a_requires a = [] /\ a_excludes a = [].
Definition distinct_values (n : node) : Prop :=
  forall i j a b, (i < j)%nat -> nth_error (n_alts n) i = Some a -> nth_error (n_alts n) j = Some b ->
    ~ same_value (a_value a) (a_value b).

Lemma total_weight_unconditional nodes :
  NoDup (map n_name nodes) -> Forall no_lists nodes -> Forall conditionless nodes -> Forall distinct_values nodes ->
  exists bs, tree_iter nodes = (bs, None) /\
    Qsum (map branch_weight bs) ==
    Qprod (map (fun n => Qsum (map a_weight (filter (fun a => negb (Qle_bool (a_weight a) 0)) (n_alts n)))) nodes) /\
    (Forall (fun n => Forall (fun a => 0 <= a_weight a) (n_alts n)) nodes ->
     Qsum (map branch_weight bs) == Qprod (map (fun n => Qsum (map a_weight (n_alts n))) nodes)).
Proof.
  intros Hn Hnl Hc Hd. rewrite Forall_forall in Hc, Hd.
  assert (Hwf : tree_wf nodes).
  { split; [exact Hn|]. split; [exact Hnl|]. intros n a Hni Hai kr Hk. destruct (Hc n Hni a Hai) as [E1 E2]. rewrite E1, E2 in Hk.
    destruct Hk as [[]|[]]. }
  assert (Hal : forall t, In t (cands nodes) -> choice_valid (cand_choice t)).
  { intros t Ht k a Hi. apply cands_in in Ht. destruct Ht as [_ Ht].
    assert (exists n, In n nodes /\ In a (n_alts n)) as (n & Hni & Hai).
    { clear -Ht Hi. unfold choice_of in Ht. induction Ht as [|n p ns c (E1 & E2 & _) H IH]; [destruct Hi|].
      destruct Hi as [->|Hi]; [exists n; split; [now left|exact E2]|].
      destruct (IH Hi) as (m & Hm & G). exists m. split; [now right|exact G]. }
    destruct (Hc n Hni a Hai) as [E1 E2]. split; rewrite ?E1, ?E2; [intros kr []|congruence]. }
  pose proof (iter_no_duplicates nodes Hn Hnl (fun t Ht => wf_evaluable nodes t Hwf Ht)) as Hit.
  eexists. split.
  { apply Hit. intros s t Hs Ht Hl _ _ Hsv.
    destruct (lex_positions nodes s t Hs Ht Hl) as (n & pre & post & post' & i & j & a & b & H1 & H2 & H3 & H4 & _ & _ & -> & ->).
    rewrite !cand_choice_app in Hsv. pose proof (same_values_nth _ _ _ _ _ _ _ Hsv eq_refl eq_refl) as Hv.
    exact (Hd n H1 i j a b H2 H3 H4 Hv). }
  assert (E : filter validb (cands nodes) = cands nodes).
  { clear Hit. assert (G : forall t, In t (cands nodes) -> validb t = true).
    { intros t Ht. unfold validb.
      assert (Hnd : NoDup (map fst (cand_choice t))) by now rewrite (cands_names nodes).
      destruct (tree_is_valid_evaluable _ Hnd (wf_evaluable nodes t Hwf Ht)) as (m & -> & Hiff).
      apply Hiff. auto. }
    clear -G. induction (cands nodes) as [|t l IH]; [reflexivity|]. cbn. rewrite (G t) by now left.
    f_equal. apply IH. intros; apply G; now right. }
  rewrite E, map_map, (Qsum_map_eq _ cand_weight) by (intros; apply branch_at_weight).
  unfold cands at 1 2.
  assert (E2 : Qsum (map cand_weight (product (map node_cands nodes))) ==
     Qprod (map (fun n => Qsum (map a_weight (filter (fun a => negb (Qle_bool (a_weight a) 0)) (n_alts n)))) nodes)).
  { rewrite product_weight, map_map.
    assert (X : forall n, Qsum (map (fun p => a_weight (snd (snd p))) (node_cands n)) =
       Qsum (map a_weight (filter (fun a => negb (Qle_bool (a_weight a) 0)) (n_alts n)))).
    { intros n. unfold node_cands. rewrite map_map. cbn [snd].
      change (fun a => negb (Qle_bool (a_weight a) 0)) with positive.
      rewrite <- (indexed_filter positive (n_alts n) 0), map_map. reflexivity. }
    rewrite (map_ext _ _ X). reflexivity. }
  split; [exact E2|]. intros Hpos. rewrite E2. clear -Hpos.
  induction Hpos as [|n nodes Hn H IH]; [reflexivity|]. cbn [map Qprod]. rewrite IH.
  assert (X : Qsum (map a_weight (filter (fun a => negb (Qle_bool (a_weight a) 0)) (n_alts n))) ==
              Qsum (map a_weight (n_alts n))).
  { clear -Hn. induction Hn as [|a l Ha H IH]; [reflexivity|]. cbn [filter map Qsum].
    destruct (Qle_bool (a_weight a) 0) eqn:E; cbn [negb map Qsum].
    - apply Qle_bool_iff in E. assert (Z : a_weight a == 0) by (apply Qle_antisym; auto). rewrite IH, Z. ring.
    - rewrite IH. reflexivity. }
  rewrite X. reflexivity.
Qed.
