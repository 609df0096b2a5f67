(** Properties C52, C53, C85 and C86: the empirical soil types. *)
From Coq Require Import String.
From Verif Require Import Common Model.Curve Model.Layer Model.SoilModels Spec.SoilModelSpec
  Proof.CommonFacts Proof.HyperbolicFacts.
Local Open Scope R_scope.

Lemma Rpower_lt_base x y c : 0 < c -> 0 < x < y -> Rpower x c < Rpower y c.
Proof.
  intros Hc [Hx Hxy]. unfold Rpower. apply exp_increasing. apply Rmult_lt_compat_l; [exact Hc|]. now apply ln_increasing.
Qed.
Lemma Rpower_gt1 x c : 0 < c -> 1 < x -> 1 < Rpower x c.
Proof.
  intros Hc Hx. unfold Rpower. rewrite <- exp_0 at 1. apply exp_increasing. apply Rmult_lt_0_compat; [exact Hc|].
  rewrite <- ln_1. apply ln_increasing; lra.
Qed.
Lemma Rdiv_lt_compat x y r : 0 < r -> x < y -> x / r < y / r.
Proof. intros Hr H. unfold Rdiv. apply Rmult_lt_compat_r; [apply Rinv_0_lt_compat|]; assumption. Qed.
Lemma inv_between x : 1 < x -> 0 < 1 / x < 1.
Proof.
  intros H. split; [apply Rdiv_lt_0_compat; lra|]. apply (Rmult_lt_reg_r x); [lra|].
  unfold Rdiv. rewrite Rmult_assoc, Rinv_l by lra. lra.
Qed.
Lemma inv_lt x y : 0 < x < y -> 1 / y < 1 / x.
Proof.
  intros H. unfold Rdiv. apply Rmult_lt_compat_l; [lra|]. apply Rinv_lt_contravar; [apply Rmult_lt_0_compat|]; lra.
Qed.

Definition the (o : option R) : R := match o with Some x => x | None => 0 end.

Lemma nth_map_inv {A B} (f : A -> B) xs i y : nth_error (map f xs) i = Some y ->
  exists x, nth_error xs i = Some x /\ y = f x.
Proof.
  rewrite nth_error_map. destruct (nth_error xs i) as [x|]; [|discriminate]. intros E. injection E as <-. eauto.
Qed.

Lemma falls_map ss (f : R -> R) :
  (forall s s', In s ss -> In s' ss -> s < s' -> f s' < f s) -> falls ss (map f ss).
Proof.
  intros H i j s s' v v' Hi Hj Hv Hv' Hlt.
  apply nth_map_inv in Hv as (x & Hx & ->). apply nth_map_inv in Hv' as (x' & Hx' & ->).
  assert (x = s) by congruence. assert (x' = s') by congruence. subst.
  apply H; [eapply nth_error_In; eassumption|eapply nth_error_In; eassumption|exact Hlt].
Qed.
Lemma rises_map ss (f : R -> R) :
  (forall s s', In s ss -> In s' ss -> s < s' -> f s < f s') -> rises ss (map f ss).
Proof.
  intros H i j s s' v v' Hi Hj Hv Hv' Hlt.
  apply nth_map_inv in Hv as (x & Hx & ->). apply nth_map_inv in Hv' as (x' & Hx' & ->).
  assert (x = s) by congruence. assert (x' = s') by congruence. subst.
  apply H; [eapply nth_error_In; eassumption|eapply nth_error_In; eassumption|exact Hlt].
Qed.

Lemma in_firstn {A} n (xs : list A) x : In x (firstn n xs) -> In x xs.
Proof. intros H. rewrite <- (firstn_skipn n xs). apply in_or_app. now left. Qed.

(** ** [np.maximum.accumulate] *)

Lemma max_from_length acc xs : length (max_from acc xs) = length xs.
Proof. revert acc; induction xs as [|x xs IH]; intros acc; [reflexivity|]. cbn. now rewrite IH. Qed.
Lemma max_from_ge acc xs i v : nth_error (max_from acc xs) i = Some v -> acc <= v.
Proof.
  revert acc i; induction xs as [|x xs IH]; intros acc [|i] E; try discriminate; cbn in E.
  - injection E as <-. apply Rmax_l.
  - apply IH in E. pose proof (Rmax_l acc x). lra.
Qed.
Lemma max_from_mono acc xs i j v v' : nth_error (max_from acc xs) i = Some v -> nth_error (max_from acc xs) j = Some v' ->
  (i <= j)%nat -> v <= v'.
Proof.
  revert acc i j; induction xs as [|x xs IH]; intros acc [|i] [|j] E E' H; try discriminate; try lia; cbn in E, E'.
  - rewrite E in E'. injection E' as <-. lra.
  - injection E as <-. apply max_from_ge in E'. exact E'.
  - eapply IH; [exact E|exact E'|lia].
Qed.
Lemma max_accumulate_length xs : length (max_accumulate xs) = length xs.
Proof. destruct xs as [|x xs]; [reflexivity|]. cbn. now rewrite max_from_length. Qed.
Lemma max_accumulate_drops xs : never_drops (max_accumulate xs).
Proof.
  destruct xs as [|x xs]; intros i j v v' E E' H.
  - destruct i; discriminate.
  - change (nth_error (x :: max_from x xs) i = Some v) in E. change (nth_error (x :: max_from x xs) j = Some v') in E'.
    destruct i as [|i], j as [|j]; cbn [nth_error] in E, E'; try lia.
    + rewrite E in E'. injection E' as <-. lra.
    + injection E as <-. now apply max_from_ge in E'.
    + eapply max_from_mono; [exact E|exact E'|lia].
Qed.
(** Every entry is the largest value so far. *)
Lemma max_from_spec acc xs i v : nth_error (max_from acc xs) i = Some v ->
  (v = acc \/ In v (firstn (S i) xs)) /\ List.Forall (fun x => x <= v) (firstn (S i) xs).
Proof.
  revert acc i; induction xs as [|x xs IH]; intros acc [|i] E; try discriminate; cbn [max_from nth_error] in E.
  - injection E as <-. cbn [firstn]. split.
    + unfold Rmax. destruct (Rle_dec acc x); [right; now left|now left].
    + apply List.Forall_cons; [apply Rmax_r|apply List.Forall_nil].
  - pose proof (max_from_ge _ _ _ _ E) as G. apply IH in E as [E1 E2]. change (firstn (S (S i)) (x :: xs)) with (x :: firstn (S i) xs).
    split.
    + destruct E1 as [->|E1]; [|right; now right]. unfold Rmax. destruct (Rle_dec acc x); [right; now left|now left].
    + apply List.Forall_cons; [|exact E2]. pose proof (Rmax_r acc x). lra.
Qed.
Lemma max_accumulate_spec xs i v : nth_error (max_accumulate xs) i = Some v ->
  In v (firstn (S i) xs) /\ List.Forall (fun x => x <= v) (firstn (S i) xs).
Proof.
  destruct xs as [|x xs]; [destruct i; discriminate|]. destruct i as [|i]; cbn [max_accumulate nth_error]; intros E.
  - injection E as <-. cbn [firstn]. split; [now left|]. apply List.Forall_cons; [lra|apply List.Forall_nil].
  - pose proof (max_from_ge _ _ _ _ E). apply max_from_spec in E as [E1 E2].
    change (firstn (S (S i)) (x :: xs)) with (x :: firstn (S i) xs). split.
    + destruct E1 as [->|E1]; [now left|now right].
    + apply List.Forall_cons; [lra|exact E2].
Qed.

(** ** The modified hyperbolic model *)

Lemma mh_mod_some sr c s : 0 < sr -> 0 < s -> mh_mod sr c s = Some (1 / (1 + Rpower (s / sr) c)).
Proof.
  intros Hr Hs. unfold mh_mod. rewrite div_opt_ne by lra. cbn [opt_bind].
  rewrite pow_opt_pos by (apply Rdiv_lt_0_compat; lra). cbn [opt_bind].
  apply div_opt_ne. pose proof (Rpower_gt0 (s / sr) c). lra.
Qed.

Lemma mh_mod_range sr c s : 0 < sr -> 0 < s -> 0 < the (mh_mod sr c s) < 1.
Proof. intros Hr Hs. rewrite mh_mod_some by assumption. apply inv_between. pose proof (Rpower_gt0 (s / sr) c). lra. Qed.
Lemma mh_mod_falls sr c s s' : 0 < sr -> 0 < c -> 0 < s < s' -> the (mh_mod sr c s') < the (mh_mod sr c s).
Proof.
  intros Hr Hc Hs. rewrite !mh_mod_some by lra. cbn [the]. apply inv_lt.
  pose proof (Rpower_gt0 (s / sr) c).
  assert (Rpower (s / sr) c < Rpower (s' / sr) c); [|lra].
  apply Rpower_lt_base; [exact Hc|]. split; [apply Rdiv_lt_0_compat; lra|apply Rdiv_lt_compat; lra].
Qed.
Lemma mh_mod_half sr c : 0 < sr -> mh_mod sr c sr = Some (1 / 2).
Proof.
  intros Hr. rewrite mh_mod_some by assumption. replace (sr / sr) with 1 by (field; lra).
  unfold Rpower. rewrite ln_1, Rmult_0_r, exp_0. reflexivity.
Qed.

Lemma mh_correction_some sc sr c s : 0 < sr -> 0 < s ->
  mh_correction sc sr c s = Some (sc * damping_masing c (hyper_a (s / sr)) * Rpower (the (mh_mod sr c s)) 0.1 / 100).
Proof.
  intros Hr Hs. unfold mh_correction. rewrite masing_a1_some by assumption. cbn [opt_bind].
  pose proof (mh_mod_range sr c s Hr Hs) as Hm. revert Hm. rewrite (mh_mod_some sr c s Hr Hs). cbn [opt_bind the]. intros Hm.
  rewrite pow_opt_pos by lra. reflexivity.
Qed.

Lemma mh_correction_pos sc sr c s : 0 < sc -> 0 < sr -> 0 < c <= 3 / 2 -> 0 < s -> 0 < the (mh_correction sc sr c s).
Proof.
  intros Hsc Hr Hc Hs. rewrite mh_correction_some by assumption. cbn [the].
  assert (0 < s / sr) by (apply Rdiv_lt_0_compat; lra).
  assert (0 < damping_masing c (hyper_a (s / sr))) by (apply masing_poly_pos; [exact Hc|now apply hyper_a_bounds]).
  apply Rdiv_lt_0_compat; [|lra]. repeat apply Rmult_lt_0_compat; try assumption. apply Rpower_gt0.
Qed.

(** C52 *)
Lemma hyperbolic_shape sc sr c dm ss : 0 < sc -> 0 < sr -> 0 < c <= 3 / 2 -> List.Forall (fun s => 0 < s) ss ->
  exists ms ds, modified_hyperbolic sc sr c dm ss = Some (ms, ds) /\
    length ms = length ss /\ length ds = length ss /\
    List.Forall (fun m => 0 < m < 1) ms /\ falls ss ms /\
    (forall i m, nth_error ss i = Some sr -> nth_error ms i = Some m -> m = 1 / 2) /\
    List.Forall (fun d => dm < d) ds /\ never_drops ds.
Proof.
  intros Hsc Hr Hc Hs. rewrite Forall_forall in Hs.
  exists (map (fun s => the (mh_mod sr c s)) ss).
  exists (map (fun d => d + dm) (max_accumulate (map (fun s => the (mh_correction sc sr c s)) ss))).
  split.
  { unfold modified_hyperbolic. rewrite (map_opt_map _ (fun s => the (mh_mod sr c s))).
    2:{ apply Forall_forall. intros s H. rewrite mh_mod_some by (auto; now apply Hs). reflexivity. }
    cbn [opt_bind]. rewrite (map_opt_map _ (fun s => the (mh_correction sc sr c s))); [reflexivity|].
    apply Forall_forall. intros s H. rewrite mh_correction_some by (auto; now apply Hs). reflexivity. }
  split; [apply map_length|]. split; [rewrite map_length, max_accumulate_length; apply map_length|].
  split.
  { apply Forall_forall. intros m H. apply in_map_iff in H as (s & <- & H). apply mh_mod_range; auto. }
  split.
  { apply falls_map. intros s s' H H' L. apply mh_mod_falls; [auto|apply Hc|]. split; [auto|exact L]. }
  split.
  { intros i m H E. apply nth_map_inv in E as (s & E & ->). assert (s = sr) by congruence. subst. now rewrite mh_mod_half. }
  split.
  { apply Forall_forall. intros d H. apply in_map_iff in H as (x & <- & H).
    apply In_nth_error in H as (i & E). apply max_accumulate_spec in E as [E _].
    apply in_firstn in E.
    apply in_map_iff in E as (s & <- & E). pose proof (mh_correction_pos sc sr c s Hsc Hr Hc (Hs _ E)). lra. }
  intros i j v v' E E' L. apply nth_map_inv in E as (x & E & ->). apply nth_map_inv in E' as (x' & E' & ->).
  pose proof (max_accumulate_drops _ _ _ _ _ E E' L). lra.
Qed.

(** The damping is the largest correction so far plus the minimum damping. *)
Lemma hyperbolic_damping sc sr c dm ss ms ds : 0 < sr -> List.Forall (fun s => 0 < s) ss ->
  modified_hyperbolic sc sr c dm ss = Some (ms, ds) ->
  forall i d, nth_error ds i = Some d ->
  (exists s a, In s (firstn (S i) ss) /\ masing_a1 sr s = Some a /\
     d = sc * damping_masing c a * Rpower (1 / (1 + Rpower (s / sr) c)) 0.1 / 100 + dm) /\
  (forall s a, In s (firstn (S i) ss) -> masing_a1 sr s = Some a ->
     sc * damping_masing c a * Rpower (1 / (1 + Rpower (s / sr) c)) 0.1 / 100 + dm <= d).
Proof.
  intros Hr Hs E i d Hd. rewrite Forall_forall in Hs. unfold modified_hyperbolic in E.
  rewrite (map_opt_map _ (fun s => the (mh_mod sr c s))) in E.
  2:{ apply Forall_forall. intros s H. rewrite mh_mod_some by (auto; now apply Hs). reflexivity. }
  cbn [opt_bind] in E. rewrite (map_opt_map _ (fun s => the (mh_correction sc sr c s))) in E.
  2:{ apply Forall_forall. intros s H. rewrite mh_correction_some by (auto; now apply Hs). reflexivity. }
  cbn [opt_bind] in E. injection E as _ <-.
  apply nth_map_inv in Hd as (x & Hx & ->). apply max_accumulate_spec in Hx as [H1 H2].
  rewrite firstn_map in H1, H2. rewrite Forall_forall in H2. split.
  - apply in_map_iff in H1 as (s & <- & H1). exists s, (hyper_a (s / sr)).
    pose proof (Hs s (in_firstn _ _ _ H1)). split; [exact H1|]. split; [now apply masing_a1_some|].
    rewrite mh_correction_some, mh_mod_some by assumption. reflexivity.
  - intros s a H Ha. pose proof (Hs s (in_firstn _ _ _ H)). rewrite masing_a1_some in Ha by assumption. injection Ha as <-.
    assert (L : the (mh_correction sc sr c s) <= x) by (apply H2, (in_map (fun s => the (mh_correction sc sr c s))); exact H).
    rewrite mh_correction_some, mh_mod_some in L by assumption. cbn [the] in L. lra.
Qed.

Lemma ln_1p_ge2 x : 0 < x -> x - x ^ 2 / 2 <= ln (1 + x).
Proof.
  intros H. set (g := fun t => ln (1 + t) - (t - t ^ 2 / 2)).
  destruct (MVT_cor2 g (fun t => / (1 + t) - (1 - t)) 0 x H) as [c [E [H0 H1]]].
  { intros c Hc. unfold g.
    assert (D : derivable_pt_lim (fun t => ln (1 + t) - (t - t ^ 2 / 2)) c
      (/ (1 + c) * (0 + 1) - (1 - ((INR 2 * c ^ 1) * / 2 + c ^ 2 * 0)))).
    { apply (derivable_pt_lim_minus (fun t => ln (1 + t)) (fun t => t - t ^ 2 / 2)).
      - apply (derivable_pt_lim_comp (fun t => 1 + t) ln).
        + apply (derivable_pt_lim_plus (fun _ => 1) (fun t => t)); [apply derivable_pt_lim_const|apply derivable_pt_lim_id].
        + apply derivable_pt_lim_ln. lra.
      - apply (derivable_pt_lim_minus (fun t => t) (fun t => t ^ 2 / 2)); [apply derivable_pt_lim_id|].
        apply (derivable_pt_lim_mult (fun t => t ^ 2) (fun _ => / 2)); [apply derivable_pt_lim_pow|apply derivable_pt_lim_const]. }
    replace (/ (1 + c) - (1 - c)) with (/ (1 + c) * (0 + 1) - (1 - ((INR 2 * c ^ 1) * / 2 + c ^ 2 * 0))); [exact D|].
    cbn [INR pow]. field. lra. }
  assert (G0 : g 0 = 0) by (unfold g; rewrite Rplus_0_r, ln_1; field).
  rewrite G0 in E. assert (K : / (1 + c) - (1 - c) = c ^ 2 / (1 + c)) by (field; lra). rewrite K in E.
  assert (0 < c ^ 2 / (1 + c)) by (apply Rdiv_lt_0_compat; [apply pow_lt|]; lra).
  assert (0 < g x) by nra. unfold g in *. lra.
Qed.

Lemma hyper_a_small x : 0 < x <= 1 / 25 -> hyper_a x <= 8 / 3.
Proof.
  intros H. pose proof (ln_1p_ge2 x (proj1 H)) as HL. pose proof PI2_3_2. assert (P3 : 3 < PI) by lra.
  assert (X2 : 0 < x ^ 2) by (apply pow_lt; lra).
  assert (K : 4 * (x - ln (1 + x)) * (1 + x) / x ^ 2 - 2 <= 2 * x).
  { apply (Rmult_le_reg_r (x ^ 2)); [lra|].
    replace ((4 * (x - ln (1 + x)) * (1 + x) / x ^ 2 - 2) * x ^ 2) with (4 * (x - ln (1 + x)) * (1 + x) - 2 * x ^ 2) by (field; lra).
    assert (4 * (x - ln (1 + x)) * (1 + x) <= 4 * (x ^ 2 / 2) * (1 + x)); [|nra].
    apply Rmult_le_compat_r; lra. }
  unfold hyper_a. assert (C : 0 < 100 / PI <= 100 / 3).
  { split; [apply Rdiv_lt_0_compat; lra|]. unfold Rdiv. apply Rmult_le_compat_l; [lra|]. apply Rinv_le_contravar; lra. }
  revert C K. generalize (100 / PI), (4 * (x - ln (1 + x)) * (1 + x) / x ^ 2 - 2). intros q k C K.
  destruct (Rle_dec k 0); nra.
Qed.

(** The bound on the curvature is needed. *)
Lemma hyperbolic_below_minimum sc sr dm s : 0 < sc -> 0 < sr -> 0 < s <= sr / 25 ->
  exists m d, modified_hyperbolic sc sr 2 dm [s] = Some ([m], [d]) /\ d < dm.
Proof.
  intros Hsc Hr Hs. exists (the (mh_mod sr 2 s)), (the (mh_correction sc sr 2 s) + dm). split.
  - unfold modified_hyperbolic. cbn [map_opt]. rewrite mh_mod_some by lra. cbn [opt_bind]. rewrite mh_correction_some by lra. reflexivity.
  - rewrite mh_correction_some by lra. cbn [the].
    assert (X : 0 < s / sr <= 1 / 25).
    { split; [apply Rdiv_lt_0_compat; lra|]. apply (Rmult_le_reg_r sr); [lra|]. unfold Rdiv. rewrite Rmult_assoc, Rinv_l by lra. lra. }
    pose proof (proj1 (hyper_a_bounds _ (proj1 X))). pose proof (hyper_a_small _ X).
    set (a := hyper_a (s / sr)) in *. clearbody a.
    assert (D : damping_masing 2 a < 0) by (unfold damping_masing, mh_c1, mh_c2, mh_c3; nra).
    assert (W : 0 < Rpower (the (mh_mod sr 2 s)) 0.1) by apply Rpower_gt0.
    assert (sc * damping_masing 2 a * Rpower (the (mh_mod sr 2 s)) 0.1 < 0); [|lra].
    assert (sc * damping_masing 2 a < 0) by nra. nra.
Qed.

(** ** The three soil types *)

Lemma atm_pos p : 0 < p -> 0 < p * KPA_TO_ATM.
Proof. intros H. unfold KPA_TO_ATM. lra. Qed.

Lemma scaling_pos k0 k1 n : 0 < k1 -> 0 < n -> n < exp (k0 / k1) -> 0 < k0 - k1 * ln n.
Proof.
  intros Hk Hn H. apply ln_increasing in H; [|exact Hn]. rewrite ln_exp in H.
  apply (Rmult_lt_compat_l k1) in H; [|exact Hk]. replace (k1 * (k0 / k1)) with k0 in H by (field; lra). lra.
Qed.
Lemma exp_big n b : n <= exp 90 -> 90 < b -> n < exp b.
Proof. intros H Hb. apply Rle_lt_trans with (exp 90); [exact H|]. now apply exp_increasing. Qed.

Lemma mh_soil_shaped id cls name uw sc sr c dm ss : 0 < sc -> 0 < sr -> 0 < c <= 3 / 2 ->
  List.Forall (fun s => 0 < s) (strains_or_default ss) ->
  exists s, mh_soil id cls name uw (Some sc) (Some sr) (Some c) (Some dm) ss = Some s /\
    s_name s = name /\ s_unit_wt s = uw /\ shaped dm (strains_or_default ss) s.
Proof.
  intros H1 H2 H3 H4. destruct (hyperbolic_shape sc sr c dm _ H1 H2 H3 H4) as (ms & ds & E & A1 & A2 & A3 & A4 & _ & A5 & A6).
  unfold mh_soil. cbn [opt_bind]. rewrite E. cbn [opt_bind]. eexists. split; [reflexivity|]. split; [reflexivity|]. split; [reflexivity|].
  unfold shaped, soil_curves. cbn [s_mod s_damp fst snd]. do 2 eexists. do 2 (split; [reflexivity|]).
  unfold modulus_curve, damping_curve. cbn [c_strains c_values]. repeat (split; [first [reflexivity|assumption]|]). assumption.
Qed.

Lemma default_strains_pos : List.Forall (fun s => 0 < s) default_strains.
Proof. apply Forall_forall. intros s H. unfold default_strains in H. apply in_map_iff in H as (i & <- & _). apply Rpower_gt0. Qed.

Lemma darendeli_shape id name uw d given ss : 0 <= da_pi d -> 0 < da_ocr d -> 0 < da_stress d -> 0 < da_freq d ->
  0 < da_cycles d <= exp 90 -> List.Forall (fun s => 0 < s) (strains_or_default ss) ->
  exists dm s, or_else given (darendeli_damping_min d) = Some dm /\
    darendeli_soil id name uw d given ss = Some s /\ shaped dm (strains_or_default ss) s.
Proof.
  intros H1 H2 H3 H4 H5 H6.
  assert (Ed : exists dm0, darendeli_damping_min d = Some dm0).
  { unfold darendeli_damping_min. rewrite pow_opt_pos by assumption. cbn [opt_bind].
    rewrite pow_opt_pos by (now apply atm_pos). cbn [opt_bind]. rewrite ln_opt_pos by assumption. cbn [opt_bind]. eauto. }
  destruct Ed as (dm0 & Ed).
  assert (Eg : exists dm, or_else given (darendeli_damping_min d) = Some dm) by (rewrite Ed; destruct given; cbn; eauto).
  destruct Eg as (dm & Eg). exists dm.
  assert (Es : exists sr, darendeli_strain_ref d = Some sr /\ 0 < sr).
  { unfold darendeli_strain_ref. rewrite pow_opt_pos by assumption. cbn [opt_bind].
    rewrite pow_opt_pos by (now apply atm_pos). cbn [opt_bind]. eexists. split; [reflexivity|].
    pose proof (Rpower_gt0 (da_ocr d) 0.3246). pose proof (Rpower_gt0 (da_stress d * KPA_TO_ATM) 0.3483).
    assert (0 <= da_pi d * Rpower (da_ocr d) 0.3246) by (apply Rmult_le_pos; lra).
    apply Rdiv_lt_0_compat; [|lra]. apply Rmult_lt_0_compat; lra. }
  destruct Es as (sr & Es & Hsr).
  assert (Ec : exists sc, darendeli_scaling d = Some sc /\ 0 < sc).
  { unfold darendeli_scaling. rewrite ln_opt_pos by apply H5. cbn [opt_bind]. eexists. split; [reflexivity|].
    apply scaling_pos; [lra|apply H5|]. apply exp_big; [apply H5|]. lra. }
  destruct Ec as (sc & Ec & Hsc).
  destruct (mh_soil_shaped id 1 name uw sc sr darendeli_curvature dm ss Hsc Hsr) as (s & E & _ & _ & Hsh);
    [unfold darendeli_curvature; lra|exact H6|].
  exists s. split; [exact Eg|]. split; [|exact Hsh]. unfold darendeli_soil. rewrite Eg, Es, Ec. exact E.
Qed.

Lemma ln_10_pos : 0 < ln 10.
Proof. rewrite <- ln_1. apply ln_increasing; lra. Qed.

(** Stresses from [10^-8] to [10^6] atmospheres. *)
Lemma menq_shape id name uw m given ss : 0 < mq_cu m -> 0 < mq_d50 m ->
  Rpower 10 (-8) <= mq_stress m * KPA_TO_ATM <= Rpower 10 6 ->
  0 < mq_cycles m <= exp 90 -> List.Forall (fun s => 0 < s) (strains_or_default ss) ->
  exists dm s, or_else given (menq_damping_min m) = Some dm /\
    menq_soil id name uw m given ss = Some s /\ shaped dm (strains_or_default ss) s.
Proof.
  intros H1 H2 H3 H5 H6. pose proof (Rpower_gt0 10 (-8)) as P8.
  assert (Hp : 0 < mq_stress m * KPA_TO_ATM) by lra.
  assert (Ed : exists dm0, menq_damping_min m = Some dm0).
  { unfold menq_damping_min. repeat (rewrite pow_opt_pos by assumption; cbn [opt_bind]). eauto. }
  destruct Ed as (dm0 & Ed).
  assert (Eg : exists dm, or_else given (menq_damping_min m) = Some dm) by (rewrite Ed; destruct given; cbn; eauto).
  destruct Eg as (dm & Eg). exists dm.
  assert (Es : exists sr, menq_strain_ref m = Some sr /\ 0 < sr).
  { unfold menq_strain_ref. repeat (rewrite pow_opt_pos by assumption; cbn [opt_bind]).
    eexists. split; [reflexivity|]. apply Rdiv_lt_0_compat; [|lra].
    apply Rmult_lt_0_compat; [apply Rmult_lt_0_compat; [lra|]|]; apply Rpower_gt0. }
  destruct Es as (sr & Es & Hsr).
  assert (Ec : exists sc, menq_scaling m = Some sc /\ 0 < sc).
  { unfold menq_scaling. rewrite ln_opt_pos by apply H5. cbn [opt_bind]. eexists. split; [reflexivity|].
    apply scaling_pos; [lra|apply H5|]. apply exp_big; [apply H5|]. lra. }
  destruct Ec as (sc & Ec & Hsc).
  assert (Ek : exists c, menq_curvature m = Some c /\ 0 < c <= 3 / 2).
  { unfold menq_curvature. rewrite ln_opt_pos by assumption. cbn [opt_bind]. eexists. split; [reflexivity|].
    pose proof ln_10_pos as L10. destruct H3 as [Ha Hb].
    assert (A : -8 * ln 10 <= ln (mq_stress m * KPA_TO_ATM)).
    { destruct Ha as [Ha|Ha]; [apply ln_increasing in Ha; [|exact P8]|]; [|rewrite <- Ha]; unfold Rpower in *; rewrite ln_exp in *; lra. }
    assert (B : ln (mq_stress m * KPA_TO_ATM) <= 6 * ln 10).
    { destruct Hb as [Hb|Hb]; [apply ln_increasing in Hb; [|exact Hp]|rewrite Hb]; unfold Rpower in *; rewrite ln_exp in *; lra. }
    assert (Q : -8 <= ln (mq_stress m * KPA_TO_ATM) / ln 10 <= 6).
    { split; apply (Rmult_le_reg_r (ln 10)); try assumption; unfold Rdiv; rewrite Rmult_assoc, Rinv_l by lra; lra. }
    lra. }
  destruct Ek as (c & Ek & Hc).
  destruct (mh_soil_shaped id 2 name uw sc sr c dm ss Hsc Hsr Hc H6) as (s & E & _ & _ & Hsh).
  exists s. split; [exact Eg|]. split; [|exact Hsh]. unfold menq_soil. rewrite Eg, Es, Ec, Ek. exact E.
Qed.

Lemma rollins_shape id name uw r given ss : (forall cu, ro_cu r = Some cu -> 0 < cu) -> 0 < ro_stress r ->
  0 < ro_cycles r <= exp 90 -> List.Forall (fun s => 0 < s) (strains_or_default ss) ->
  exists dm s, or_else given (Some 0.01) = Some dm /\
    rollins_soil id name uw r given ss = Some s /\ shaped dm (strains_or_default ss) s.
Proof.
  intros H1 H2 H5 H6.
  assert (Eg : exists dm, or_else given (Some 0.01) = Some dm) by (destruct given; cbn; eauto).
  destruct Eg as (dm & Eg). exists dm.
  assert (Es : exists sr, rollins_strain_ref r = Some sr /\ 0 < sr).
  { unfold rollins_strain_ref. destruct (ro_cu r) as [cu|].
    - rewrite (pow_opt_pos cu) by (now apply H1). cbn [opt_bind]. rewrite pow_opt_pos by assumption. cbn [opt_bind].
      eexists. split; [reflexivity|]. apply Rdiv_lt_0_compat; [|lra]. apply Rmult_lt_0_compat; [apply Rmult_lt_0_compat; [lra|]|]; apply Rpower_gt0.
    - rewrite pow_opt_pos by assumption. cbn [opt_bind]. eexists. split; [reflexivity|].
      apply Rdiv_lt_0_compat; [|lra]. apply Rmult_lt_0_compat; [lra|apply Rpower_gt0]. }
  destruct Es as (sr & Es & Hsr).
  assert (Ec : exists sc, rollins_scaling r = Some sc /\ 0 < sc).
  { unfold rollins_scaling. rewrite ln_opt_pos by apply H5. cbn [opt_bind]. eexists. split; [reflexivity|].
    apply scaling_pos; [lra|apply H5|]. apply exp_big; [apply H5|]. lra. }
  destruct Ec as (sc & Ec & Hsc).
  destruct (mh_soil_shaped id 3 name uw sc sr 0.84 dm ss Hsc Hsr) as (s & E & _ & _ & Hsh); [lra|exact H6|].
  exists s. split; [exact Eg|]. split; [|exact Hsh]. unfold rollins_soil. rewrite Eg, Es, Ec. exact E.
Qed.

(** C85 *)
Lemma darendeli_minimum d : 0 <= da_pi d -> 0 < da_ocr d -> 0 < da_stress d -> 0 < da_freq d ->
  exists dm, darendeli_damping_min d = Some dm /\ (0 < dm <-> exp (- (1 / 0.2919)) < da_freq d) /\
    (da_freq d < exp (- (1 / 0.2919)) -> dm < 0).
Proof.
  intros H1 H2 H3 H4. unfold darendeli_damping_min. rewrite pow_opt_pos by assumption. cbn [opt_bind].
  rewrite pow_opt_pos by (now apply atm_pos). cbn [opt_bind]. rewrite ln_opt_pos by assumption. cbn [opt_bind].
  eexists. split; [reflexivity|].
  pose proof (Rpower_gt0 (da_ocr d) (-0.1069)). pose proof (Rpower_gt0 (da_stress d * KPA_TO_ATM) (-0.2889)).
  assert (0 <= da_pi d * Rpower (da_ocr d) (-0.1069)) by (apply Rmult_le_pos; lra).
  assert (K : 0 < (0.8005 + 0.0129 * da_pi d * Rpower (da_ocr d) (-0.1069)) * Rpower (da_stress d * KPA_TO_ATM) (-0.2889))
    by (apply Rmult_lt_0_compat; lra).
  set (k := (0.8005 + _) * _) in *. clearbody k.
  assert (L1 : exp (- (1 / 0.2919)) < da_freq d -> 0 < 1 + 0.2919 * ln (da_freq d)).
  { intros L. apply ln_increasing in L; [|apply exp_pos]. rewrite ln_exp in L. lra. }
  assert (L2 : da_freq d < exp (- (1 / 0.2919)) -> 1 + 0.2919 * ln (da_freq d) < 0).
  { intros L. apply ln_increasing in L; [|assumption]. rewrite ln_exp in L. lra. }
  assert (N : da_freq d < exp (- (1 / 0.2919)) -> k * (1 + 0.2919 * ln (da_freq d)) / 100 < 0).
  { intros L. apply L2 in L. nra. }
  split; [|exact N]. split.
  - intros P. destruct (Rtotal_order (exp (- (1 / 0.2919))) (da_freq d)) as [G|[G|G]]; [exact G| |].
    + rewrite <- G, ln_exp in P. lra.
    + apply N in G. lra.
  - intros L. apply L1 in L. apply Rdiv_lt_0_compat; [|lra]. now apply Rmult_lt_0_compat.
Qed.
