(** Property C50: levels and missing keys of the Wang models. *)
From Coq Require Import String.
From Verif Require Import Common Model.SoilModels Model.Wang Spec.WangSpec Proof.CommonFacts.
Local Open Scope R_scope.

Fixpoint keys_of (e : expr) : list key :=
  match e with
  | Num _ => []
  | Key k => [k]
  | Add a b | Sub a b | Mul a b | Pow a b => keys_of a ++ keys_of b
  | Exp a => keys_of a
  end.

Lemma eval_ok kw e : (forall k, In k (keys_of e) -> kw k <> None) -> exists o, eval kw e = Ok o.
Proof.
  induction e as [r|k|a IHa b IHb|a IHa b IHb|a IHa b IHb|a IHa b IHb|a IHa]; cbn [keys_of eval]; intros H.
  - eauto.
  - specialize (H k (or_introl eq_refl)). destruct (kw k); [eauto|congruence].
  - destruct IHa as [x ->]; [intros; apply H, in_or_app; now left|]. destruct IHb as [y ->]; [intros; apply H, in_or_app; now right|]. cbn. eauto.
  - destruct IHa as [x ->]; [intros; apply H, in_or_app; now left|]. destruct IHb as [y ->]; [intros; apply H, in_or_app; now right|]. cbn. eauto.
  - destruct IHa as [x ->]; [intros; apply H, in_or_app; now left|]. destruct IHb as [y ->]; [intros; apply H, in_or_app; now right|]. cbn. eauto.
  - destruct IHa as [x ->]; [intros; apply H, in_or_app; now left|]. destruct IHb as [y ->]; [intros; apply H, in_or_app; now right|]. cbn. eauto.
  - destruct IHa as [x ->]; [exact H|]. cbn. eauto.
Qed.

Lemma eval_error kw e x : eval kw e = Err x -> x = KeyError.
Proof.
  induction e as [r|k|a IHa b IHb|a IHa b IHb|a IHa b IHb|a IHa b IHb|a IHa]; cbn [eval]; intros H.
  - discriminate.
  - destruct (kw k); [discriminate|congruence].
  - unfold lift2 in H. destruct (eval kw a); cbn in H; [|auto]. destruct (eval kw b); cbn in H; [discriminate|auto].
  - unfold lift2 in H. destruct (eval kw a); cbn in H; [|auto]. destruct (eval kw b); cbn in H; [discriminate|auto].
  - unfold lift2 in H. destruct (eval kw a); cbn in H; [|auto]. destruct (eval kw b); cbn in H; [discriminate|auto].
  - unfold lift2 in H. destruct (eval kw a); cbn in H; [|auto]. destruct (eval kw b); cbn in H; [discriminate|auto].
  - destruct (eval kw a); cbn in H; [discriminate|auto].
Qed.

Lemma eval_missing kw e k : In k (keys_of e) -> kw k = None -> eval kw e = Err KeyError.
Proof.
  intros Hin Hk. destruct (eval kw e) as [o|x] eqn:E; [|f_equal; now apply eval_error in E]. exfalso.
  revert o E Hin. induction e as [r|k'|a IHa b IHb|a IHa b IHb|a IHa b IHb|a IHa b IHb|a IHa]; cbn [keys_of eval]; intros o E Hin.
  - destruct Hin.
  - destruct Hin as [->|[]]. rewrite Hk in E. discriminate.
  - unfold lift2 in E. destruct (eval kw a) as [x|] eqn:Ea; cbn in E; [|discriminate]. destruct (eval kw b) as [y|] eqn:Eb; cbn in E; [|discriminate].
    apply in_app_or in Hin as [Hin|Hin]; eauto.
  - unfold lift2 in E. destruct (eval kw a) as [x|] eqn:Ea; cbn in E; [|discriminate]. destruct (eval kw b) as [y|] eqn:Eb; cbn in E; [|discriminate].
    apply in_app_or in Hin as [Hin|Hin]; eauto.
  - unfold lift2 in E. destruct (eval kw a) as [x|] eqn:Ea; cbn in E; [|discriminate]. destruct (eval kw b) as [y|] eqn:Eb; cbn in E; [|discriminate].
    apply in_app_or in Hin as [Hin|Hin]; eauto.
  - unfold lift2 in E. destruct (eval kw a) as [x|] eqn:Ea; cbn in E; [|discriminate]. destruct (eval kw b) as [y|] eqn:Eb; cbn in E; [|discriminate].
    apply in_app_or in Hin as [Hin|Hin]; eauto.
  - destruct (eval kw a) as [x|] eqn:Ea; cbn in E; [|discriminate]. eauto.
Qed.

Lemma agree_app ks ls kw kw' : agree (ks ++ ls) kw kw' -> agree ks kw kw' /\ agree ls kw kw'.
Proof. intros H. split; intros k Hk; apply H, in_or_app; auto. Qed.
Lemma eval_ext kw kw' e : agree (keys_of e) kw kw' -> eval kw e = eval kw' e.
Proof.
  induction e as [r|k|a IHa b IHb|a IHa b IHb|a IHa b IHb|a IHa b IHb|a IHa]; cbn [keys_of eval]; intros H.
  - reflexivity.
  - now rewrite (H k (or_introl eq_refl)).
  - apply agree_app in H as [Ha Hb]. now rewrite IHa, IHb.
  - apply agree_app in H as [Ha Hb]. now rewrite IHa, IHb.
  - apply agree_app in H as [Ha Hb]. now rewrite IHa, IHb.
  - apply agree_app in H as [Ha Hb]. now rewrite IHa, IHb.
  - now rewrite IHa.
Qed.

Lemma agree_incl ks ls kw kw' : incl ks ls -> agree ls kw kw' -> agree ks kw kw'.
Proof. intros Hi H k Hk. apply H, Hi, Hk. Qed.
Lemma agree_decimal ks kw kw' : agree ks kw kw' -> agree ks (to_decimal kw) (to_decimal kw').
Proof. intros H k Hk. unfold to_decimal. rewrite (H k Hk). reflexivity. Qed.
Lemma decimal_none kw k : to_decimal kw k = None <-> kw k = None.
Proof. unfold to_decimal. destruct k; try reflexivity; destruct (kw _); split; congruence. Qed.

(** ** Levels *)

Lemma count_ext kw kw' ks : agree ks kw kw' -> count_provided kw ks = count_provided kw' ks.
Proof.
  induction ks as [|k ks IH]; intros H; [reflexivity|]. cbn [count_provided]. unfold provided. rewrite (H k (or_introl eq_refl)).
  rewrite IH; [reflexivity|]. intros k' Hk'. apply H. now right.
Qed.
Lemma count_le kw ks : (count_provided kw ks <= length ks)%nat.
Proof. induction ks as [|k ks IH]; cbn; [lia|]. destruct (provided kw k); lia. Qed.
Lemma count_spec kw ks : List.Forall (fun k => kw k <> None) (firstn (count_provided kw ks) ks) /\
  (forall k, nth_error ks (count_provided kw ks) = Some k -> kw k = None).
Proof.
  induction ks as [|k ks [IH1 IH2]]; cbn [count_provided]; [split; [constructor|intros k; discriminate]|].
  unfold provided. destruct (kw k) eqn:E.
  - split; [|exact IH2]. cbn [firstn]. constructor; [congruence|exact IH1].
  - split; [constructor|]. cbn. intros k' H. congruence.
Qed.
Lemma count_decimal kw ks : count_provided (to_decimal kw) ks = count_provided kw ks.
Proof.
  induction ks as [|k ks IH]; [reflexivity|]. cbn [count_provided]. rewrite IH. unfold provided.
  pose proof (decimal_none kw k). destruct (to_decimal kw k), (kw k); try reflexivity; exfalso; intuition congruence.
Qed.
Lemma highest_count kw ks n : highest kw ks n -> count_provided kw ks = S n.
Proof.
  revert n. induction ks as [|k ks IH]; intros n (H1 & H2 & H3); [cbn in H1; lia|]. cbn [firstn] in H2. inversion H2 as [|? ? Hk Hr]; subst.
  cbn [count_provided]. unfold provided. destruct (kw k); [|congruence]. f_equal. destruct n as [|n].
  - destruct ks as [|k' ks]; [reflexivity|]. cbn [count_provided]. unfold provided. rewrite (H3 k' eq_refl). reflexivity.
  - apply IH. split; [cbn in H1; lia|]. split; [exact Hr|]. intros k' Hk'. apply H3. exact Hk'.
Qed.

Lemma levels_first g m : exists rest, LEVELS g m = StressMean :: rest.
Proof. destruct g, m; eexists; reflexivity. Qed.

Lemma level_highest g m kw : kw StressMean <> None ->
  exists n, count_provided kw (LEVELS g m) = S n /\ highest kw (LEVELS g m) n.
Proof.
  intros H. destruct (levels_first g m) as [rest E]. destruct (count_spec kw (LEVELS g m)) as [A B].
  pose proof (count_le kw (LEVELS g m)) as L.
  destruct (count_provided kw (LEVELS g m)) as [|n] eqn:C.
  - rewrite E in C. cbn [count_provided] in C. unfold provided in C. destruct (kw StressMean); [discriminate|congruence].
  - exists n. split; [reflexivity|]. split; [lia|]. split; [exact A|exact B].
Qed.

(** C50 *)
Lemma wang_level s g m kw : group_of s = Some g -> kw StressMean <> None -> ~ (g = ClayeySoil /\ m = GgmaxModel) ->
  exists n, get_level m s kw = Ok (Z.of_nat n) /\ highest kw (documented g m) n.
Proof.
  intros Hg Hs N. destruct (level_highest g m kw Hs) as (n & C & H). exists n. split.
  - unfold get_level. rewrite Hg, C. f_equal. lia.
  - replace (documented g m) with (LEVELS g m); [exact H|]. destruct g, m; try reflexivity. exfalso. now apply N.
Qed.

Lemma clayey_level_undocumented kw : kw StressMean <> None -> kw FinesCont <> None -> kw VoidRatio = None ->
  get_level GgmaxModel "clayey_soil" kw = Ok 0%Z /\ ~ highest kw (documented ClayeySoil GgmaxModel) 0.
Proof.
  intros Hs Hf Hv. split.
  - unfold get_level. cbn [group_of String.eqb Ascii.eqb Bool.eqb LEVELS count_provided]. unfold provided.
    cbn. unfold provided. destruct (kw StressMean); [|congruence]. rewrite Hv. reflexivity.
  - intros (_ & _ & H). apply Hf. now apply H.
Qed.

(** ** Formulas read only the keys of their level *)

Definition keys3 (t : expr * expr * expr) : list key := keys_of (fst (fst t)) ++ keys_of (snd (fst t)) ++ keys_of (snd t).
Definition formula_keys (g : group) (m : wmodel) (level : Z) : list key :=
  match m with
  | GmaxModel => keys_of (gmax_formula g level)
  | GgmaxModel => keys3 (mr_formula g level)
  | DminModel => keys_of (dmin_formula g level)
  | DampingModel => keys3 (damping_formula g level)
  end.
Definition inclb (ks ls : list key) : bool := forallb (fun k => existsb (key_eqb k) ls) ks.
Lemma key_eqb_eq k l : key_eqb k l = true <-> k = l.
Proof. destruct k, l; cbn; split; congruence. Qed.
Lemma inclb_incl ks ls : inclb ks ls = true -> incl ks ls.
Proof.
  intros H k Hk. unfold inclb in H. rewrite forallb_forall in H. specialize (H k Hk). apply existsb_exists in H as (l & Hl & E).
  apply key_eqb_eq in E. now subst.
Qed.

Lemma formula_keys_level g m n : (n < length (LEVELS g m))%nat ->
  incl (formula_keys g m (Z.of_nat n)) (firstn (S n) (LEVELS g m)).
Proof.
  intros H. apply inclb_incl.
  destruct g, m; cbn [LEVELS length] in H; do 5 (destruct n as [|n]; [reflexivity|]); lia.
Qed.
Lemma formula_keys_all g m level : incl (formula_keys g m level) (LEVELS g m).
Proof.
  apply inclb_incl. destruct (Z.ltb level 0) eqn:E.
  - destruct g, m; cbn [formula_keys gmax_formula mr_formula dmin_formula damping_formula]; unfold select; rewrite E; reflexivity.
  - destruct g, m; cbn [formula_keys gmax_formula mr_formula dmin_formula damping_formula]; unfold select; rewrite E;
      destruct (Z.to_nat level) as [|[|[|[|[|n]]]]]; reflexivity.
Qed.
