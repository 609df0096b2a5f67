(** Properties C50, C51, C83 and C87: what the Wang class methods read and raise. *)
From Coq Require Import String.
From Verif Require Import Common Model.SoilModels Model.Wang Spec.WangSpec Proof.CommonFacts Proof.WangFacts.
Local Open Scope R_scope.

Lemma with_group_known {A} m s g kw (f : group -> Z -> res A) : group_of s = Some g ->
  with_group m s kw f = f g (Z.of_nat (count_provided kw (LEVELS g m)) - 1)%Z.
Proof. intros H. unfold with_group, get_level. rewrite H. reflexivity. Qed.

Lemma formula_ok g m kw n : highest kw (LEVELS g m) n ->
  forall k, In k (formula_keys g m (Z.of_nat n)) -> to_decimal kw k <> None.
Proof.
  intros (H1 & H2 & _) k Hk. rewrite decimal_none. apply (formula_keys_level g m n H1) in Hk.
  rewrite List.Forall_forall in H2. now apply H2.
Qed.

Lemma level_decimal g m kw n : highest kw (LEVELS g m) n ->
  (Z.of_nat (count_provided (to_decimal kw) (LEVELS g m)) - 1)%Z = Z.of_nat n.
Proof. intros H. rewrite count_decimal, (highest_count _ _ _ H). lia. Qed.

Lemma keys3_a (a b c : expr) k : In k (keys_of a) -> In k (keys3 (a, b, c)).
Proof. intros H. apply in_or_app. now left. Qed.
Lemma keys3_b (a b c : expr) k : In k (keys_of b) -> In k (keys3 (a, b, c)).
Proof. intros H. apply in_or_app. right. apply in_or_app. now left. Qed.
Lemma keys3_c (a b c : expr) k : In k (keys_of c) -> In k (keys3 (a, b, c)).
Proof. intros H. apply in_or_app. right. apply in_or_app. now right. Qed.

Lemma shear_mod_ok s g kw : group_of s = Some g -> kw StressMean <> None -> exists o, calc_shear_mod s kw = Ok o.
Proof.
  intros Hg Hs. destruct (level_highest g GmaxModel kw Hs) as (n & _ & H).
  unfold calc_shear_mod. rewrite (with_group_known _ _ _ _ _ Hg), (level_decimal _ _ _ _ H).
  apply eval_ok. exact (formula_ok g GmaxModel kw n H).
Qed.
Lemma damping_min_ok s g kw : group_of s = Some g -> kw StressMean <> None -> exists o, calc_damping_min s kw = Ok o.
Proof.
  intros Hg Hs. destruct (level_highest g DminModel kw Hs) as (n & _ & H).
  unfold calc_damping_min. rewrite (with_group_known _ _ _ _ _ Hg), (level_decimal _ _ _ _ H).
  destruct (eval_ok _ _ (formula_ok g DminModel kw n H)) as [o ->]. cbn. eauto.
Qed.
Lemma mod_reduc_ok ss s g kw : group_of s = Some g -> kw StressMean <> None -> exists o, calc_mod_reduc ss s kw = Ok o.
Proof.
  intros Hg Hs. destruct (level_highest g GgmaxModel kw Hs) as (n & _ & H).
  unfold calc_mod_reduc. rewrite (with_group_known _ _ _ _ _ Hg), (level_decimal _ _ _ _ H).
  pose proof (formula_ok g GgmaxModel kw n H) as K. cbn [formula_keys] in K.
  destruct (mr_formula g (Z.of_nat n)) as [[a b] c].
  destruct (eval_ok (to_decimal kw) a) as [x ->]; [intros k Hk; apply K; now apply keys3_a|].
  destruct (eval_ok (to_decimal kw) b) as [y ->]; [intros k Hk; apply K; now apply keys3_b|].
  destruct (eval_ok (to_decimal kw) c) as [z ->]; [intros k Hk; apply K; now apply keys3_c|]. cbn. eauto.
Qed.
Lemma damping_parts ss s g kw : group_of s = Some g -> kw StressMean <> None ->
  exists f, forall given', calc_damping ss s given' kw =
    bind (match given' with Some x => Ok x | None => calc_damping_min s (to_decimal kw) end) (fun dmin => Ok (f dmin)).
Proof.
  intros Hg Hs. destruct (level_highest g DampingModel kw Hs) as (n & _ & H).
  pose proof (formula_ok g DampingModel kw n H) as K. cbn [formula_keys] in K.
  unfold calc_damping.
  destruct (damping_formula g (Z.of_nat n)) as [[a b] c] eqn:E.
  destruct (eval_ok (to_decimal kw) a) as [x Ex]; [intros k Hk; apply K; now apply keys3_a|].
  destruct (eval_ok (to_decimal kw) b) as [y Ey]; [intros k Hk; apply K; now apply keys3_b|].
  destruct (eval_ok (to_decimal kw) c) as [z Ez]; [intros k Hk; apply K; now apply keys3_c|].
  eexists. intros given'. rewrite (with_group_known _ _ _ _ _ Hg), (level_decimal _ _ _ _ H), E, Ex, Ey, Ez. reflexivity.
Qed.
Lemma damping_ok ss s g given kw : group_of s = Some g -> kw StressMean <> None -> exists o, calc_damping ss s given kw = Ok o.
Proof.
  intros Hg Hs. destruct (damping_parts ss s g kw Hg Hs) as [f Hf]. rewrite Hf. destruct given as [x|]; [cbn; eauto|].
  destruct (damping_min_ok s g (to_decimal kw) Hg) as [o ->]; [now rewrite decimal_none|]. cbn. eauto.
Qed.

(** C50: never a KeyError. *)
Lemma wang_defined ss s g given kw : group_of s = Some g -> kw StressMean <> None ->
  (exists o, calc_shear_mod s kw = Ok o) /\ (exists o, calc_mod_reduc ss s kw = Ok o) /\
  (exists o, calc_damping_min s kw = Ok o) /\ (exists o, calc_damping ss s given kw = Ok o).
Proof.
  intros Hg Hs. repeat split; [eapply shear_mod_ok|eapply mod_reduc_ok|eapply damping_min_ok|eapply damping_ok]; eassumption.
Qed.

(** C50: nothing beyond the parameters of the level is read. *)
Lemma calc_any_ext m ss s g d kw kw' : group_of s = Some g ->
  count_provided kw (LEVELS g m) = count_provided kw' (LEVELS g m) ->
  agree (formula_keys g m (Z.of_nat (count_provided kw (LEVELS g m)) - 1)%Z) kw kw' ->
  calc_any m ss s d kw = calc_any m ss s d kw'.
Proof.
  intros Hg C A. apply agree_decimal in A.
  destruct m; cbn [calc_any]; unfold calc_shear_mod, calc_mod_reduc, calc_damping_min, calc_damping;
    rewrite !(with_group_known _ _ _ _ _ Hg), !count_decimal, <- C; cbn [formula_keys] in A.
  - now rewrite (eval_ext _ _ _ A).
  - destruct (mr_formula _ _) as [[a b] c]. apply agree_app in A as [Aa A]. apply agree_app in A as [Ab Ac]. cbn [fst snd] in *.
    now rewrite (eval_ext _ _ _ Aa), (eval_ext _ _ _ Ab), (eval_ext _ _ _ Ac).
  - now rewrite (eval_ext _ _ _ A).
  - destruct (damping_formula _ _) as [[a b] c]. apply agree_app in A as [Aa A]. apply agree_app in A as [Ab Ac]. cbn [fst snd] in *.
    now rewrite (eval_ext _ _ _ Aa), (eval_ext _ _ _ Ab), (eval_ext _ _ _ Ac).
Qed.

Lemma wang_reads m ss s g d n kw kw' : group_of s = Some g -> highest kw (LEVELS g m) n -> highest kw' (LEVELS g m) n ->
  agree (firstn (S n) (LEVELS g m)) kw kw' -> calc_any m ss s d kw = calc_any m ss s d kw'.
Proof.
  intros Hg H H' A. apply (calc_any_ext m ss s g d kw kw' Hg).
  - now rewrite (highest_count _ _ _ H), (highest_count _ _ _ H').
  - rewrite (highest_count _ _ _ H). replace (Z.of_nat (S n) - 1)%Z with (Z.of_nat n) by lia.
    eapply agree_incl; [|exact A]. apply formula_keys_level. apply H.
Qed.

(** Missing mean stress. *)
Lemma no_stress_count g m kw : kw StressMean = None -> count_provided kw (LEVELS g m) = 0%nat.
Proof. intros H. destruct (levels_first g m) as [r ->]. cbn [count_provided]. unfold provided. now rewrite H. Qed.
Lemma stress_read g m : In StressMean (formula_keys g m (-1)).
Proof. destruct g, m; cbn; tauto. Qed.
Lemma three_missing {A} kw a b c (f : option R -> option R -> option R -> res A) : In StressMean (keys3 (a, b, c)) -> kw StressMean = None ->
  bind (eval kw a) (fun x => bind (eval kw b) (fun y => bind (eval kw c) (fun z => f x y z))) = Err KeyError.
Proof.
  intros H Hn. unfold keys3 in H. cbn [fst snd] in H.
  apply in_app_or in H as [H|H]; [now rewrite (eval_missing _ _ _ H Hn)|].
  destruct (eval kw a) as [x|e] eqn:Ea; [|apply eval_error in Ea; now subst]. cbn [bind].
  apply in_app_or in H as [H|H]; [now rewrite (eval_missing _ _ _ H Hn)|].
  destruct (eval kw b) as [y|e] eqn:Eb; [|apply eval_error in Eb; now subst]. cbn [bind].
  now rewrite (eval_missing _ _ _ H Hn).
Qed.

Lemma wang_no_stress ss s g given kw : group_of s = Some g -> kw StressMean = None ->
  calc_shear_mod s kw = Err KeyError /\ calc_mod_reduc ss s kw = Err KeyError /\
  calc_damping_min s kw = Err KeyError /\ calc_damping ss s given kw = Err KeyError.
Proof.
  intros Hg Hs. assert (Hd : to_decimal kw StressMean = None) by exact Hs.
  unfold calc_shear_mod, calc_mod_reduc, calc_damping_min, calc_damping.
  rewrite !(with_group_known _ _ _ _ _ Hg), !(no_stress_count _ _ _ Hd).
  change (Z.of_nat 0 - 1)%Z with (-1)%Z.
  pose proof (stress_read g GmaxModel) as K1. pose proof (stress_read g GgmaxModel) as K2.
  pose proof (stress_read g DminModel) as K3. pose proof (stress_read g DampingModel) as K4. cbn [formula_keys] in *.
  repeat split.
  - exact (eval_missing _ _ _ K1 Hd).
  - destruct (mr_formula g (-1)) as [[a b] c]. exact (three_missing _ _ _ _ _ K2 Hd).
  - now rewrite (eval_missing _ _ _ K3 Hd).
  - destruct (damping_formula g (-1)) as [[a b] c].
    exact (three_missing _ _ _ _ (fun x y z => bind _ (fun dm => Ok (map (fun t => opt_bind x (fun x => opt_bind y (fun y => opt_bind z (fun z => opt_bind dm (fun m => damping_value x y z m t))))) ss))) K4 Hd).
Qed.

(** C83: an unknown soil group. *)
Lemma wang_unknown ss s given dm strains kw : group_of s = None ->
  calc_shear_mod s kw = Err KeyError /\ calc_mod_reduc ss s kw = Err KeyError /\
  calc_damping_min s kw = Err KeyError /\ calc_damping ss s given kw = Err KeyError /\
  wang_init s dm strains kw = Err KeyError.
Proof.
  intros H. unfold calc_shear_mod, calc_mod_reduc, calc_damping_min, calc_damping, with_group, get_level, wang_init. rewrite H.
  repeat split.
Qed.

(** C87: the constructor. *)
Lemma index_agree g b kw m : (m = GgmaxModel \/ m = DampingModel \/ (m = DminModel /\ b = false)) ->
  agree (LEVELS g m) (index_params g b kw) kw.
Proof.
  intros H k Hk. unfold index_params. assert (In k (params g b)) as Hp.
  { unfold params. destruct H as [->|[->|[-> ->]]]; apply in_or_app; auto; right; apply in_or_app; auto. }
  assert (existsb (key_eqb k) (params g b) = true) as ->; [|reflexivity].
  apply existsb_exists. exists k. split; [exact Hp|]. now apply key_eqb_eq.
Qed.
Lemma calc_any_agree m ss s g d kw kw' : group_of s = Some g -> agree (LEVELS g m) kw kw' ->
  calc_any m ss s d kw = calc_any m ss s d kw'.
Proof.
  intros Hg A. apply (calc_any_ext m ss s g d kw kw' Hg); [now apply count_ext|].
  eapply agree_incl; [apply formula_keys_all|exact A].
Qed.
Lemma damping_min_agree s g kw kw' : group_of s = Some g -> agree (LEVELS g DminModel) kw kw' ->
  calc_damping_min s kw = calc_damping_min s kw'.
Proof.
  intros Hg A. pose proof (calc_any_agree DminModel [] s g None kw kw' Hg A) as E. cbn in E.
  destruct (calc_damping_min s kw), (calc_damping_min s kw'); cbn in E; congruence.
Qed.

Lemma wang_constructor s g dm strains kw : group_of s = Some g ->
  match kw StressMean with
  | None => wang_init s dm strains kw = Err ValueError
  | Some _ => exists ms ds d, wang_init s dm strains kw = Ok (ms, ds) /\
      calc_mod_reduc (strains_or_default strains) s kw = Ok ms /\
      (match dm with Some x => d = Some x | None => calc_damping_min s kw = Ok d end) /\
      calc_damping (strains_or_default strains) s (Some d) kw = Ok ds
  end.
Proof.
  intros Hg. set (b := match dm with Some _ => true | None => false end).
  assert (E : index_params g b kw StressMean = kw StressMean).
  { apply (index_agree g b kw GgmaxModel); [now left|]. destruct (levels_first g GgmaxModel) as [r ->]. now left. }
  unfold wang_init. rewrite Hg. fold b. rewrite E. destruct (kw StressMean) as [p|] eqn:Hs; [|reflexivity].
  set (ss := strains_or_default strains).
  assert (Hn : kw StressMean <> None) by congruence.
  pose proof (calc_any_agree GgmaxModel ss s g None _ kw Hg (index_agree g b kw GgmaxModel (or_introl eq_refl))) as E1. cbn [calc_any] in E1.
  pose proof (fun d => calc_any_agree DampingModel ss s g d _ kw Hg (index_agree g b kw DampingModel (or_intror (or_introl eq_refl)))) as E2. cbn [calc_any] in E2.
  rewrite E1. destruct (mod_reduc_ok ss s g kw Hg Hn) as [ms Em]. rewrite Em. cbn [bind].
  destruct dm as [x|].
  - cbn [bind]. rewrite E2. destruct (damping_ok ss s g (Some (Some x)) kw Hg Hn) as [ds Ed]. rewrite Ed. exists ms, ds, (Some x). auto.
  - assert (calc_damping_min s (index_params g b kw) = calc_damping_min s kw) as ->.
    { apply (damping_min_agree s g); [exact Hg|]. apply index_agree. right. right. split; reflexivity. }
    destruct (damping_min_ok s g kw Hg Hn) as [d Ed]. rewrite Ed. cbn [bind]. rewrite E2.
    destruct (damping_ok ss s g (Some d) kw Hg Hn) as [ds Eds]. rewrite Eds. exists ms, ds, d. auto.
Qed.

(** C51: without a minimum damping [calc_damping] uses the minimum damping of properties
    that have been converted from percent twice. *)
Lemma damping_none_twice ss s g kw : group_of s = Some g -> kw StressMean <> None ->
  exists d, calc_damping_min s (to_decimal kw) = Ok d /\ calc_damping ss s None kw = calc_damping ss s (Some d) kw.
Proof.
  intros Hg Hs. destruct (damping_min_ok s g (to_decimal kw) Hg) as [d Ed]; [now rewrite decimal_none|].
  exists d. split; [exact Ed|]. destruct (damping_parts ss s g kw Hg Hs) as [f Hf]. rewrite !Hf, Ed. reflexivity.
Qed.
Lemma damping_none_same ss s g kw : group_of s = Some g -> kw StressMean <> None ->
  (forall k v, In k [FinesCont; PlasIndex; WaterCont] -> kw k = Some v -> v = 0) ->
  exists d, calc_damping_min s kw = Ok d /\ calc_damping ss s None kw = calc_damping ss s (Some d) kw.
Proof.
  intros Hg Hs Z. destruct (damping_none_twice ss s g kw Hg Hs) as (d & Ed & H). exists d. split; [|exact H].
  rewrite <- Ed. apply (damping_min_agree s g); [exact Hg|]. intros k _. unfold to_decimal.
  clear Hs Ed H. destruct k; try reflexivity; destruct (kw _) as [v|] eqn:E; try reflexivity; f_equal;
    (match type of E with kw ?k = _ => rewrite (Z k v); [field|cbn; tauto|exact E] end).
Qed.
