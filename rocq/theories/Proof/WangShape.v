(** Properties C53 and C84: when the Wang curves are real and well shaped. *)
From Coq Require Import String.
From Verif Require Import Common Model.SoilModels Model.Wang Spec.SoilModelSpec Spec.WangSpec Proof.CommonFacts
  Proof.HyperbolicFacts Proof.HyperbolicProps Proof.TwoParamProps Proof.WangFacts Proof.WangProps.
Local Open Scope R_scope.

Definition val (kw : kwds) (e : expr) (x : R) : Prop := eval kw e = Ok (Some x).
Lemma val_num kw r : val kw (Num r) r.
Proof. reflexivity. Qed.
Lemma val_key kw k v : kw k = Some v -> val kw (Key k) v.
Proof. unfold val. cbn. now intros ->. Qed.
Lemma val_add kw a b x y : val kw a x -> val kw b y -> val kw (Add a b) (x + y).
Proof. unfold val. cbn. now intros -> ->. Qed.
Lemma val_sub kw a b x y : val kw a x -> val kw b y -> val kw (Sub a b) (x - y).
Proof. unfold val. cbn. now intros -> ->. Qed.
Lemma val_mul kw a b x y : val kw a x -> val kw b y -> val kw (Mul a b) (x * y).
Proof. unfold val. cbn. now intros -> ->. Qed.
Lemma val_exp kw a x : val kw a x -> val kw (Exp a) (exp x).
Proof. unfold val. cbn. now intros ->. Qed.
Lemma val_pow kw a b x y : val kw a x -> val kw b y -> 0 < x -> val kw (Pow a b) (Rpower x y).
Proof. unfold val. cbn. intros -> -> H. cbn. now rewrite pow_opt_pos. Qed.
Lemma val_pow0 kw a b y : val kw a 0 -> val kw b y -> 0 < y -> val kw (Pow a b) 0.
Proof. unfold val. cbn. intros -> -> H. cbn. now rewrite pow_opt_zero. Qed.

Lemma mr_value_tp a b g s : mr_value a b g s = tp_mod g a b (100 * s).
Proof. reflexivity. Qed.
Lemma damping_value_tp c d g dm s : damping_value c d g dm s = tp_damping g c d (100 * dm) (100 * s).
Proof. reflexivity. Qed.

Ltac pos :=
  match goal with
  | |- _ => lra
  | |- 0 < Rpower _ _ => apply Rpower_gt0
  | |- 0 < exp _ => apply exp_pos
  | |- 0 < ?a * ?b => apply Rmult_lt_0_compat; pos
  | |- 0 < ?a + ?b => apply Rplus_lt_0_compat; pos
  | _ => idtac
  end.
Ltac ev :=
  match goal with
  | |- val _ (Num _) _ => apply val_num
  | |- val _ (Key _) _ => apply val_key; eassumption
  | |- val _ (Add _ _) _ => eapply val_add; ev
  | |- val _ (Sub _ _) _ => eapply val_sub; ev
  | |- val _ (Mul _ _) _ => eapply val_mul; ev
  | |- val _ (Exp _) _ => eapply val_exp; ev
  | |- val _ (Pow _ _) _ => eapply val_pow; [ev|ev|pos]
  | |- _ => idtac
  end.

(** The decimal properties. *)
Definition dec_range (fmax : R) (kd : kwds) : Prop :=
  (exists p, kd StressMean = Some p /\ 0 < p * KPA_TO_ATM <= 60) /\
  (forall v, kd VoidRatio = Some v -> 0.2 <= v <= 4) /\
  (forall v, kd FinesCont = Some v -> 0 <= v <= fmax / 100) /\
  (forall v, kd CoefUnif = Some v -> 0 < v) /\ (forall v, kd Diam50 = Some v -> 0 < v) /\
  (forall v, kd WaterCont = Some v -> 0 <= v < 1) /\ (forall v, kd PlasIndex = Some v -> 0 <= v) /\
  (forall v, kd Ocr = Some v -> 0 < v).
Lemma dec_range_of fmax kw : in_range fmax kw -> dec_range fmax (to_decimal kw).
Proof.
  intros (H1 & H2 & H3 & H4 & H5 & H6 & H7 & H8). unfold dec_range, to_decimal.
  split; [exact H1|]. split; [exact H2|]. split; [|split; [exact H4|split; [exact H5|split; [|split; [|exact H8]]]]].
  - intros v Hv. destruct (kw FinesCont) as [x|]; [|discriminate]. injection Hv as <-. specialize (H3 x eq_refl). lra.
  - intros v Hv. destruct (kw WaterCont) as [x|]; [|discriminate]. injection Hv as <-. specialize (H6 x eq_refl). lra.
  - intros v Hv. destruct (kw PlasIndex) as [x|]; [|discriminate]. injection Hv as <-. specialize (H7 x eq_refl). lra.
Qed.

(** Values of the keys of a level. *)
Lemma given_value (kw : kwds) ks k : List.Forall (fun k => kw k <> None) ks -> In k ks -> exists v, kw k = Some v.
Proof. intros H Hk. rewrite List.Forall_forall in H. specialize (H k Hk). destruct (kw k); [eauto|congruence]. Qed.
Lemma highest_decimal kw ks n : highest kw ks n -> highest (to_decimal kw) ks n.
Proof.
  intros (H1 & H2 & H3). split; [exact H1|]. split.
  - rewrite List.Forall_forall in *. intros k Hk. rewrite decimal_none. now apply H2.
  - intros k Hk. rewrite decimal_none. now apply H3.
Qed.

Lemma e_power e : 0.2 <= e -> 1 / 3 < Rpower e 0.545.
Proof.
  intros He. apply Rlt_le_trans with (Rpower 0.2 0.545); [|apply Rle_Rpower_l; lra].
  assert (L : 5 * ln (1 / 3) < 3 * ln 0.2).
  { replace (5 * ln (1 / 3)) with (ln ((1 / 3) ^ 5)) by (rewrite ln_pow by lra; cbn [INR]; ring).
    replace (3 * ln 0.2) with (ln (0.2 ^ 3)) by (rewrite ln_pow by lra; cbn [INR]; ring).
    apply ln_increasing; lra. }
  assert (ln 0.2 < 0) by (rewrite <- ln_1 at 1; apply ln_increasing; lra).
  rewrite <- (exp_ln (1 / 3)) at 1 by lra. unfold Rpower. apply exp_increasing. lra.
Qed.

Ltac keys kd :=
  repeat match goal with H : List.Forall (fun k => kd k <> None) (?q :: _) |- _ =>
    let h := fresh "G" in inversion H as [|? ? h ?]; subst; clear H;
    destruct (kd q) as [?v|] eqn:?; [clear h|congruence] end;
  repeat match goal with
    | H : Some _ = Some _ |- _ => injection H as H; subst
    | H : forall v, Some ?x = Some v -> _ |- _ => specialize (H x eq_refl)
    | H : List.Forall _ [] |- _ => clear H
  end.
Lemma select_nat {A} n (cs : list A) o : select (Z.of_nat n) cs o = nth n cs o.
Proof. unfold select. rewrite Nat2Z.id. destruct (Z.ltb_spec (Z.of_nat n) 0); [lia|reflexivity]. Qed.
Ltac level H1 H2 := cbn [LEVELS firstn] in H2; rewrite select_nat; cbn [nth].

Lemma mr_positive g n kd : highest kd (LEVELS g GgmaxModel) n -> dec_range (fines_limit g) kd ->
  let '(ea, eb, eg) := mr_formula g (Z.of_nat n) in
  exists a b c, val kd ea a /\ val kd eb b /\ val kd eg c /\ 0 < a /\ 0 < b /\ 0 < c.
Proof.
  intros (H1 & H2 & _) ((p & Hp & Rp) & Re & Rf & Ru & Rd & Rw & Ri & Ro).
  unfold mr_formula, stress, e_, fc, wc, pi_, cu, d50, ocr.
  destruct g; cbn [fines_limit] in Rf; cbn [LEVELS length] in H1.
  - destruct n as [|[|[|[|n]]]]; [..|lia]; level H1 H2; keys kd.
    all: do 3 eexists; split; [ev|]; split; [ev|]; split; [ev|].
    all: split; [pos|]; split; [pos|pos].
    pose proof (e_power v0 (proj1 Re)). lra.
  - destruct n as [|[|[|n]]]; [..|lia]; level H1 H2; keys kd.
    all: do 3 eexists; split; [ev|]; split; [ev|]; split; [ev|].
    all: split; [pos|]; split; [pos|pos].
  - destruct n as [|[|[|[|[|n]]]]]; [..|lia]; level H1 H2; keys kd.
    all: do 3 eexists; split; [ev|]; split; [ev|]; split; [ev|].
    all: split; [pos|]; split; [pos|pos].
Qed.

Lemma gmax_positive g n kd : highest kd (LEVELS g GmaxModel) n -> dec_range (fines_limit g) kd ->
  (g = NonplasticSiltySand -> forall w, kd WaterCont = Some w -> w <= 0.75) ->
  exists x, val kd (gmax_formula g (Z.of_nat n)) x /\ 0 < x.
Proof.
  intros (H1 & H2 & _) ((p & Hp & Rp) & Re & Rf & Ru & Rd & Rw & Ri & Ro) W.
  unfold gmax_formula, stress, e_, fc, wc, pi_, cu, d50, ocr.
  destruct g; cbn [fines_limit] in Rf; cbn [LEVELS length] in H1.
  - clear W. destruct n as [|[|[|[|[|n]]]]]; [..|lia]; level H1 H2; keys kd.
    all: eexists; split; [ev|pos].
  - specialize (W eq_refl). destruct n as [|[|[|n]]]; [..|lia]; level H1 H2; keys kd.
    all: eexists; split; [ev|pos].
  - clear W. destruct n as [|[|[|[|[|n]]]]]; [..|lia]; level H1 H2; keys kd.
    all: eexists; split; [ev|pos].
Qed.

Lemma dmin_positive g n kd : highest kd (LEVELS g DminModel) n -> dec_range (fines_limit g) kd ->
  (g = CleanSandGravel -> forall w, kd WaterCont = Some w -> kd VoidRatio = None -> w < 0.26) ->
  (g = ClayeySoil -> forall i, kd PlasIndex = Some i -> 0 < i) ->
  exists x, val kd (dmin_formula g (Z.of_nat n)) x /\ 0 < x.
Proof.
  intros (H1 & H2 & H3) ((p & Hp & Rp) & Re & Rf & Ru & Rd & Rw & Ri & Ro) W I.
  unfold dmin_formula, stress, e_, fc, wc, pi_, cu, d50, ocr.
  destruct g; cbn [fines_limit] in Rf; cbn [LEVELS length] in H1.
  - specialize (W eq_refl). clear I. destruct n as [|[|[|[|[|n]]]]]; [..|lia].
    3: { specialize (H3 VoidRatio eq_refl). level H1 H2. keys kd. specialize (W H3). eexists; split; [ev|pos]. }
    all: clear H3 W; level H1 H2; keys kd; eexists; split; [ev|pos].
  - clear H3 W I. destruct n as [|[|[|n]]]; [..|lia]; level H1 H2; keys kd.
    all: eexists; split; [ev|pos].
  - specialize (I eq_refl). clear H3 W. destruct n as [|[|[|[|n]]]]; [..|lia]; level H1 H2; keys kd.
    all: eexists; split; [ev|pos].
Qed.

Lemma damping_positive g n kd : highest kd (LEVELS g DampingModel) n -> dec_range (fines_limit g) kd ->
  (g = ClayeySoil -> forall f w p, kd FinesCont = Some f -> kd WaterCont = Some w -> kd PlasIndex <> None -> kd StressMean = Some p ->
     0 < f < 0.12 * p * KPA_TO_ATM + 5.29 * w) ->
  let '(ec, ed, eg) := damping_formula g (Z.of_nat n) in
  exists c d y, val kd ec c /\ val kd ed d /\ val kd eg y /\ 0 < c /\ 12 < d <= 21.7 /\ 0 < y.
Proof.
  intros (H1 & H2 & H3) ((p & Hp & Rp) & Re & Rf & Ru & Rd & Rw & Ri & Ro) C.
  unfold damping_formula, stress, e_, fc, wc, pi_, cu, d50, ocr.
  destruct g; cbn [fines_limit] in Rf; cbn [LEVELS length] in H1.
  - clear C H3. destruct n as [|[|[|[|n]]]]; [..|lia]; level H1 H2; keys kd.
    all: do 3 eexists; split; [ev|]; split; [ev|]; split; [ev|].
    all: split; [pos|]; split; [lra|pos].
  - clear C H3. destruct n as [|[|[|n]]]; [..|lia]; level H1 H2; keys kd.
    all: do 3 eexists; split; [ev|]; split; [ev|]; split; [ev|].
    all: split; [pos|]; split; [lra|pos].
  - specialize (C eq_refl). destruct n as [|[|[|[|n]]]]; [..|lia].
    4: { level H1 H2. keys kd. specialize (C _ _ _ eq_refl eq_refl ltac:(discriminate) eq_refl).
         do 3 eexists; split; [ev|]; split; [ev|]; split; [ev|]. split; [pos|]; split; [lra|pos]. }
    all: clear C H3; level H1 H2; keys kd.
    all: do 3 eexists; split; [ev|]; split; [ev|]; split; [ev|].
    all: split; [pos|]; split; [lra|pos].
Qed.

(** ** C53 for the Wang curves *)

Lemma map_some_the {A} (f : A -> option R) xs : (forall x, In x xs -> exists v, f x = Some v) ->
  map f xs = map Some (map (fun x => the (f x)) xs).
Proof.
  intros H. rewrite map_map. apply map_ext_in. intros x Hx. destruct (H x Hx) as [v ->]. reflexivity.
Qed.

Lemma wang_mod_reduc_shape s g kw ss : group_of s = Some g -> in_range (fines_limit g) kw -> List.Forall (fun t => 0 <= t) ss ->
  exists vs, calc_mod_reduc ss s kw = Ok (map Some vs) /\ List.Forall (fun v => 0 < v <= 1) vs /\ falls ss vs.
Proof.
  intros Hg HR Hss. assert (Hs : kw StressMean <> None) by (destruct HR as ((p & E & _) & _); congruence).
  destruct (level_highest g GgmaxModel kw Hs) as (n & _ & H).
  pose proof (mr_positive g n (to_decimal kw) (highest_decimal _ _ _ H) (dec_range_of _ _ HR)) as P.
  unfold calc_mod_reduc. rewrite (with_group_known _ _ _ _ _ Hg), (level_decimal _ _ _ _ H).
  destruct (mr_formula g (Z.of_nat n)) as [[ea eb] ec]. destruct P as (a & b & c & Va & Vb & Vc & Pa & Pb & Pc).
  unfold val in *. rewrite Va, Vb, Vc. cbn [bind opt_bind].
  rewrite List.Forall_forall in Hss.
  exists (map (fun t => the (mr_value a b c t)) ss). split; [|split].
  - rewrite map_some_the; [reflexivity|]. intros t Ht. specialize (Hss t Ht). rewrite mr_value_tp, tp_mod_some by lra. eauto.
  - apply List.Forall_forall. intros v Hv. apply in_map_iff in Hv as (t & <- & Ht). specialize (Hss t Ht).
    rewrite mr_value_tp. apply tp_mod_range; lra.
  - apply falls_map. intros t t' Ht Ht' L. pose proof (Hss t Ht). pose proof (Hss t' Ht'). rewrite !mr_value_tp. apply tp_mod_falls; lra.
Qed.

Lemma damping_value_dm c d y m m' t : 0 < y -> 0 < c -> 0 <= t -> m < m' ->
  the (damping_value c d y m t) < the (damping_value c d y m' t).
Proof.
  intros Hy Hc Ht L. rewrite !damping_value_tp, !tp_damping_some by lra. cbn [the].
  pose proof (pw_nonneg (100 * t / y) c). set (q := pw _ _) in *. clearbody q.
  apply Rdiv_lt_compat; [lra|]. apply Rdiv_lt_compat; lra.
Qed.

Lemma clayey_decimal g kw : clayey_base g kw ->
  g = ClayeySoil -> forall f w p, to_decimal kw FinesCont = Some f -> to_decimal kw WaterCont = Some w ->
    to_decimal kw PlasIndex <> None -> to_decimal kw StressMean = Some p -> 0 < f < 0.12 * p * KPA_TO_ATM + 5.29 * w.
Proof.
  intros H Hg f w p Hf Hw Hi Hp. rewrite decimal_none in Hi. cbn in *. destruct (kw FinesCont) as [f'|] eqn:Ef; [|discriminate].
  destruct (kw WaterCont) as [w'|] eqn:Ew; [|discriminate]. injection Hf as <-. injection Hw as <-.
  specialize (H Hg f' w' p Ef Ew Hi Hp). lra.
Qed.

Lemma calc_damping_values s g kw ss : group_of s = Some g -> in_range (fines_limit g) kw -> clayey_base g kw ->
  List.Forall (fun t => 0 <= t) ss ->
  exists c d y, 0 < c /\ 12 < d <= 21.7 /\ 0 < y /\
    forall m, calc_damping ss s (Some (Some m)) kw = Ok (map Some (map (fun t => the (damping_value c d y m t)) ss)).
Proof.
  intros Hg HR HC Hss. assert (Hs : kw StressMean <> None) by (destruct HR as ((p & E & _) & _); congruence).
  destruct (level_highest g DampingModel kw Hs) as (n & _ & H).
  pose proof (damping_positive g n (to_decimal kw) (highest_decimal _ _ _ H) (dec_range_of _ _ HR) (clayey_decimal _ _ HC)) as P.
  unfold calc_damping.
  destruct (damping_formula g (Z.of_nat n)) as [[ea eb] ec] eqn:EF. destruct P as (c & d & y & Va & Vb & Vc & Pa & Pb & Pc).
  unfold val in *. exists c, d, y. split; [exact Pa|]. split; [exact Pb|]. split; [exact Pc|]. intros m.
  rewrite (with_group_known _ _ _ _ _ Hg), (level_decimal _ _ _ _ H), EF, Va, Vb, Vc. cbn [bind opt_bind]. rewrite map_some_the; [reflexivity|].
  intros t Ht. rewrite List.Forall_forall in Hss. specialize (Hss t Ht). rewrite damping_value_tp, tp_damping_some by lra. eauto.
Qed.

Lemma wang_damping_shape s g kw ss dm : group_of s = Some g -> in_range (fines_limit g) kw -> clayey_base g kw ->
  List.Forall (fun t => 0 <= t) ss -> 0 <= dm <= 0.12 ->
  exists vs, calc_damping ss s (Some (Some dm)) kw = Ok (map Some vs) /\
    List.Forall (fun v => dm <= v <= 0.217) vs /\ rises ss vs.
Proof.
  intros Hg HR HC Hss Hdm. destruct (calc_damping_values s g kw ss Hg HR HC Hss) as (c & d & y & Pc & Pd & Py & E).
  rewrite List.Forall_forall in Hss. eexists. split; [apply E|]. split.
  - apply List.Forall_forall. intros v Hv. apply in_map_iff in Hv as (t & <- & Ht). specialize (Hss t Ht).
    rewrite damping_value_tp. destruct (tp_damping_between y c d (100 * dm) (100 * t)) as [A B]; try lra.
    rewrite Rmin_right in A by lra. rewrite Rmax_left in B by lra. lra.
  - apply rises_map. intros t t' Ht Ht' L. pose proof (Hss t Ht). pose proof (Hss t' Ht'). rewrite !damping_value_tp.
    destruct (tp_damping_order y c d (100 * dm) (100 * t) (100 * t')) as [A _]; [lra..|]. apply A. lra.
Qed.

(** Minimum damping and shear modulus. *)
Lemma wang_minimum_positive s g kw : group_of s = Some g -> in_range (fines_limit g) kw ->
  (g = CleanSandGravel -> forall w, kw WaterCont = Some w -> kw VoidRatio = None -> w < 26) ->
  (g = ClayeySoil -> forall i, kw PlasIndex = Some i -> 0 < i) ->
  exists v, calc_damping_min s kw = Ok (Some v) /\ 0 < v.
Proof.
  intros Hg HR W I. assert (Hs : kw StressMean <> None) by (destruct HR as ((p & E & _) & _); congruence).
  destruct (level_highest g DminModel kw Hs) as (n & _ & H).
  destruct (dmin_positive g n (to_decimal kw) (highest_decimal _ _ _ H) (dec_range_of _ _ HR)) as (x & Vx & Px).
  - intros Eg w Hw Hv. rewrite decimal_none in Hv. cbn in Hw. destruct (kw WaterCont) as [w'|] eqn:Ew; [|discriminate].
    injection Hw as <-. specialize (W Eg w' eq_refl Hv). lra.
  - intros Eg i Hi. cbn in Hi. destruct (kw PlasIndex) as [i'|] eqn:Ei; [|discriminate]. injection Hi as <-. specialize (I Eg i' eq_refl). lra.
  - unfold calc_damping_min. rewrite (with_group_known _ _ _ _ _ Hg), (level_decimal _ _ _ _ H).
    unfold val in Vx. rewrite Vx. cbn. exists (x / 100). split; [reflexivity|lra].
Qed.
Lemma wang_shear_mod_positive s g kw : group_of s = Some g -> in_range (fines_limit g) kw ->
  (g = NonplasticSiltySand -> forall w, kw WaterCont = Some w -> w <= 75) ->
  exists v, calc_shear_mod s kw = Ok (Some v) /\ 0 < v.
Proof.
  intros Hg HR W. assert (Hs : kw StressMean <> None) by (destruct HR as ((p & E & _) & _); congruence).
  destruct (level_highest g GmaxModel kw Hs) as (n & _ & H).
  destruct (gmax_positive g n (to_decimal kw) (highest_decimal _ _ _ H) (dec_range_of _ _ HR)) as (x & Vx & Px).
  - intros Eg w Hw. cbn in Hw. destruct (kw WaterCont) as [w'|] eqn:Ew; [|discriminate].
    injection Hw as <-. specialize (W Eg w' eq_refl). lra.
  - unfold calc_shear_mod. rewrite (with_group_known _ _ _ _ _ Hg), (level_decimal _ _ _ _ H). exists x. auto.
Qed.

(** ** C84: values that are not real numbers *)

Lemma clean_sand_wet_undefined kw p f w : kw StressMean = Some p -> kw FinesCont = Some f -> kw WaterCont = Some w ->
  kw VoidRatio = None -> 26 < w -> calc_damping_min "clean_sand_and_gravel" kw = Ok None.
Proof.
  intros Hp Hf Hw Hv L. unfold calc_damping_min.
  rewrite (with_group_known DminModel "clean_sand_and_gravel" CleanSandGravel _ _ eq_refl), count_decimal.
  assert (count_provided kw (LEVELS CleanSandGravel DminModel) = 3%nat) as ->
    by (cbn [count_provided LEVELS]; unfold provided; rewrite Hp, Hf, Hw, Hv; reflexivity).
  change (Z.of_nat 3 - 1)%Z with (Z.of_nat 2). unfold dmin_formula. rewrite select_nat. cbn [nth].
  unfold stress, fc, wc. cbn [eval]. unfold to_decimal. rewrite Hp, Hf, Hw. cbn [lift2 bind opt_bind].
  assert (pow_opt (0.26 - w / 100) 0.11 = None) as ->; [|reflexivity].
  unfold pow_opt. destruct (Rltb 0 (0.26 - w / 100)) eqn:Q1; [apply Rltb_true in Q1; lra|]. destruct (Reqb (0.26 - w / 100) 0) eqn:Q2; [apply Reqb_true in Q2; lra|reflexivity].
Qed.
Lemma clayey_fines_undefined kw p f w i ss dm : kw StressMean = Some p -> kw FinesCont = Some f -> kw WaterCont = Some w ->
  kw PlasIndex = Some i -> 12 * p * KPA_TO_ATM + 5.29 * w < f ->
  calc_damping ss "clayey_soil" (Some dm) kw = Ok (map (fun _ => None) ss).
Proof.
  intros Hp Hf Hw Hi L. unfold calc_damping.
  rewrite (with_group_known DampingModel "clayey_soil" ClayeySoil _ _ eq_refl), count_decimal.
  assert (count_provided kw (LEVELS ClayeySoil DampingModel) = 4%nat) as ->
    by (cbn [count_provided LEVELS]; unfold provided; rewrite Hp, Hf, Hw, Hi; reflexivity).
  change (Z.of_nat 4 - 1)%Z with (Z.of_nat 3). unfold damping_formula. rewrite select_nat. cbn [nth].
  unfold stress, fc, wc, pi_. cbn [eval]. unfold to_decimal. rewrite Hp, Hf, Hw, Hi. cbn [lift2 bind opt_bind].
  assert (pow_opt (0.12 * p * KPA_TO_ATM + 5.29 * (w / 100) - f / 100) (1.45 - i / 100 + w / 100 - 1.09 * (f / 100)) = None) as ->.
  { unfold pow_opt. destruct (Rltb 0 (0.12 * p * KPA_TO_ATM + 5.29 * (w / 100) - f / 100)) eqn:Q1; [apply Rltb_true in Q1; lra|].
    destruct (Reqb (0.12 * p * KPA_TO_ATM + 5.29 * (w / 100) - f / 100) 0) eqn:Q2; [apply Reqb_true in Q2; lra|reflexivity]. }
  cbn [lift2 bind opt_bind]. f_equal. apply map_ext. intros t. now destruct (pow_opt _ _).
Qed.

(** ** C51: the wrong minimum damping *)
Lemma clean_sand_twice kw p f ss : kw StressMean = Some p -> 0 < p -> kw FinesCont = Some f -> 0 < f <= 44 -> kw WaterCont = None ->
  in_range 44 kw -> List.Forall (fun t => 0 <= t) ss ->
  exists d us vs, calc_damping_min "clean_sand_and_gravel" kw = Ok d /\
    calc_damping ss "clean_sand_and_gravel" None kw = Ok (map Some us) /\
    calc_damping ss "clean_sand_and_gravel" (Some d) kw = Ok (map Some vs) /\
    length us = length ss /\ length vs = length ss /\
    (forall i u v, nth_error us i = Some u -> nth_error vs i = Some v -> u < v).
Proof.
  intros Hp Pp Hf Rf Hw HR Hss.
  assert (D : forall kd g, kd StressMean = Some p -> kd FinesCont = Some g -> kd WaterCont = None -> 0 <= g ->
    calc_damping_min "clean_sand_and_gravel" kd = Ok (Some (0.55 * (1 + 29.03 * (g / 100)) * Rpower (p * KPA_TO_ATM) (-0.13) / 100))).
  { intros kd g Kp Kf Kw Kg. unfold calc_damping_min.
    rewrite (with_group_known DminModel "clean_sand_and_gravel" CleanSandGravel _ _ eq_refl), count_decimal.
    assert (count_provided kd (LEVELS CleanSandGravel DminModel) = 2%nat) as ->
      by (cbn [count_provided LEVELS]; unfold provided; rewrite Kp, Kf, Kw; reflexivity).
    change (Z.of_nat 2 - 1)%Z with (Z.of_nat 1). unfold dmin_formula. rewrite select_nat. cbn [nth].
    unfold stress, fc. cbn [eval]. unfold to_decimal. rewrite Kp, Kf. cbn [lift2 bind opt_bind].
    rewrite pow_opt_pos by now apply atm_pos. reflexivity. }
  assert (Hn : kw StressMean <> None) by congruence.
  destruct (damping_none_twice ss "clean_sand_and_gravel" CleanSandGravel kw eq_refl Hn) as (d' & E' & T).
  rewrite (D (to_decimal kw) (f / 100)) in E'; [|exact Hp|cbn; now rewrite Hf|cbn; now rewrite Hw|lra].
  destruct (calc_damping_values "clean_sand_and_gravel" CleanSandGravel kw ss eq_refl HR) as (c & dd & y & Pc & Pd & Py & E).
  { intros X. discriminate. }
  { exact Hss. }
  injection E' as <-.
  eexists. eexists. eexists. split; [apply (D kw f Hp Hf Hw); lra|].
  split; [rewrite T; apply E|]. split; [apply E|]. rewrite !map_length. split; [reflexivity|]. split; [reflexivity|].
  intros i u v Hu Hv. rewrite nth_error_map in Hu, Hv. destruct (nth_error ss i) as [t|] eqn:Ht; [|discriminate].
  injection Hu as <-. injection Hv as <-. rewrite List.Forall_forall in Hss. pose proof (Hss t (nth_error_In _ _ Ht)).
  apply damping_value_dm; try assumption.
  pose proof (Rpower_gt0 (p * KPA_TO_ATM) (-0.13)) as Q. set (q := Rpower _ _) in *. clearbody q. nra.
Qed.
