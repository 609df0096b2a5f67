(** Depth averages and the quarter-wavelength iteration. *)
From Verif Require Import Common Model.Curve Model.Layer Model.Qwl Spec.StepSpec Spec.QwlSpec
  Proof.CommonFacts Proof.CurveFacts Proof.StepFacts Proof.WaveFacts.
From Coquelicot Require Import Coquelicot.
Local Open Scope R_scope.

(** * [my_trapz] *)
Lemma trapz_loop_step ls : ls <> nil -> List.Forall (fun p => 0 <= fst p) ls ->
  forall dmax total depth p, depth <= dmax ->
  trapz_loop ls dmax total depth p = Ok (total + step_int ls (dmax - depth)).
Proof.
  induction ls as [|[t v] ls IH]; intros Hne Hp dmax total depth p Hd; [contradiction|].
  inversion Hp as [|? ? Ht Hp']; subst. cbn [fst] in Ht. cbn [trapz_loop].
  destruct ls as [|q ls].
  - destruct (Rltb dmax (depth + t)) eqn:E; cbn [trapz_loop step_int]; f_equal; ring.
  - rewrite step_int_cons. destruct (Rltb dmax (depth + t)) eqn:E.
    + apply Rltb_true in E. destruct (Rle_dec (dmax - depth) t); [|lra]. f_equal; ring.
    + apply Rltb_false in E. rewrite IH; [|discriminate|exact Hp'|exact E].
      destruct (Rle_dec (dmax - depth) t) as [L|L].
      * replace (dmax - (depth + t)) with 0 by lra. rewrite step_int_0 by exact Hp'. replace (dmax - depth) with t by lra. f_equal; ring.
      * replace (dmax - (depth + t)) with (dmax - depth - t) by ring. f_equal; ring.
Qed.

Lemma combine_ne {A B} (xs : list A) (ys : list B) : length ys = length xs -> ys <> nil -> combine xs ys <> nil.
Proof. destruct xs, ys; cbn; congruence. Qed.
Lemma combine_fst {B} (xs : list R) (ys : list B) (P : R -> Prop) :
  List.Forall P xs -> List.Forall (fun p => P (fst p)) (combine xs ys).
Proof. intros H. revert ys. induction H; intros [|b ys]; cbn; constructor; auto. Qed.
Lemma combine_snd {A} (xs : list A) (ys : list R) (P : R -> Prop) :
  List.Forall P ys -> List.Forall (fun p => P (snd p)) (combine xs ys).
Proof. intros H. revert xs. induction H; intros [|a xs]; cbn; constructor; auto. Qed.

Lemma my_trapz_step thickness prop d : length prop = length thickness -> prop <> nil ->
  List.Forall (fun t => 0 <= t) thickness -> 0 < d ->
  my_trapz_numba thickness prop d = Ok (step_int (combine thickness prop) d / d).
Proof.
  intros HL Hne Ht Hd. unfold my_trapz_numba.
  rewrite trapz_loop_step; [|now apply combine_ne|now apply combine_fst|lra].
  cbn [bind]. rewrite (proj2 (Reqb_false d 0)) by lra. f_equal. replace (d - 0) with d by ring. f_equal. ring.
Qed.

(** C19 *)
Theorem trapz_is_average thickness prop d : length prop = length thickness -> prop <> nil ->
  List.Forall (fun t => 0 <= t) thickness -> 0 < d ->
  exists v, my_trapz_numba thickness prop d = Ok v /\
  is_RInt (step_fun (combine thickness prop)) 0 d (d * v) /\
  forall lo hi, List.Forall (fun p => lo <= p <= hi) prop -> lo <= v <= hi.
Proof.
  intros HL Hne Ht Hd. eexists. split; [now apply my_trapz_step|]. split.
  - replace (d * (step_int (combine thickness prop) d / d)) with (step_int (combine thickness prop) d) by (field; lra).
    apply step_int_is_RInt; [now apply combine_ne|now apply combine_fst|lra].
  - intros lo hi Hb. destruct (step_int_bounds (combine thickness prop) lo hi d) as [H1 H2];
      [now apply combine_ne|now apply combine_fst|lra|apply (combine_snd thickness prop (fun p => lo <= p <= hi)); exact Hb|].
    split.
    + apply (Rmult_le_reg_l d); [exact Hd|]. replace (d * (step_int (combine thickness prop) d / d)) with (step_int (combine thickness prop) d) by (field; lra). exact H1.
    + apply (Rmult_le_reg_l d); [exact Hd|]. replace (d * (step_int (combine thickness prop) d / d)) with (step_int (combine thickness prop) d) by (field; lra). exact H2.
Qed.

(** C24: the two versions agree except at depth zero. *)
Theorem trapz_versions_agree thickness prop d : d <> 0 ->
  my_trapz_python thickness prop d = bind (my_trapz_numba thickness prop d) (fun v => Ok (Some v)).
Proof.
  intros Hd. unfold my_trapz_python, my_trapz_numba. destruct (trapz_loop _ _ _ _ _); cbn [bind]; [|reflexivity].
  now rewrite (proj2 (Reqb_false d 0)) by exact Hd.
Qed.
Theorem trapz_versions_differ thickness prop : length prop = length thickness -> prop <> nil ->
  List.Forall (fun t => 0 <= t) thickness ->
  my_trapz_python thickness prop 0 = Ok None /\ my_trapz_numba thickness prop 0 = Err ZeroDivisionError.
Proof.
  intros HL Hne Ht. unfold my_trapz_python, my_trapz_numba.
  rewrite trapz_loop_step; [|now apply combine_ne|now apply combine_fst|lra]. cbn [bind]. rewrite Reqb_refl. now split.
Qed.

(** * The iteration *)
Section Site.
Variables thickness slowness : list R.
Hypothesis Hs : site_property thickness slowness.
Let l := combine thickness slowness.

Lemma mean_to_step prop d : site_property thickness prop -> 0 < d ->
  mean_to (combine thickness prop) d = step_int (combine thickness prop) d / d.
Proof.
  intros (HL & Hne & Ht & _) Hd. unfold mean_to. rewrite step_int_RInt; [reflexivity|now apply combine_ne|now apply combine_fst|lra].
Qed.
Lemma positive_lower prop : prop <> nil -> List.Forall (fun p => 0 < p) prop ->
  exists lo hi, 0 < lo /\ List.Forall (fun p => lo <= p <= hi) prop.
Proof.
  induction prop as [|p prop IH]; intros Hne Hp; [contradiction|]. inversion Hp as [|? ? H1 H2]; subst.
  destruct prop as [|q prop].
  - exists p, p. split; [exact H1|]. constructor; [lra|constructor].
  - destruct (IH ltac:(discriminate) H2) as (lo & hi & Hlo & Hb). exists (Rmin p lo), (Rmax p hi).
    split; [unfold Rmin; destruct Rle_dec; lra|]. constructor; [split; [apply Rmin_l|apply Rmax_l]|].
    eapply Forall_impl; [|exact Hb]. cbn. intros x [A B]. split; [eapply Rle_trans; [apply Rmin_r|exact A]|eapply Rle_trans; [exact B|apply Rmax_r]].
Qed.
Lemma trapz_mean prop d : site_property thickness prop -> 0 < d ->
  my_trapz_numba thickness prop d = Ok (mean_to (combine thickness prop) d) /\ 0 < mean_to (combine thickness prop) d.
Proof.
  intros Hp Hd. pose proof Hp as (HL & Hne & Ht & Hpos). rewrite mean_to_step by assumption.
  rewrite my_trapz_step by assumption. split; [reflexivity|].
  destruct (positive_lower prop Hne Hpos) as (lo & hi & Hlo & Hb).
  destruct (trapz_is_average thickness prop d HL Hne Ht Hd) as (v & E & _ & B).
  rewrite my_trapz_step in E by assumption. apply Ok_inj in E. rewrite E. destruct (B lo hi Hb). lra.
Qed.

Lemma average_map prop ds : site_property thickness prop -> List.Forall (fun d => 0 < d) ds ->
  qwl_average thickness prop (map Some ds) = Ok (map (fun d => Some (mean_to (combine thickness prop) d)) ds).
Proof.
  intros Hp Hd. unfold qwl_average. induction Hd as [|d ds Hd _ IH]; [reflexivity|].
  cbn [map map_res trapz_at]. rewrite (proj1 (trapz_mean prop d Hp Hd)). cbn [bind]. rewrite IH. reflexivity.
Qed.

Lemma refine_pos f d : 0 < f -> 0 < d -> 0 < refine l f d.
Proof.
  intros Hf Hd. destruct (trapz_mean slowness d Hs Hd) as [_ Hm]. fold l in Hm. unfold refine.
  assert (0 < 1 / (4 * mean_to l d * f)) by (apply Rdiv_lt_0_compat; nra). lra.
Qed.
Lemma average_pos : 0 < average slowness.
Proof.
  destruct Hs as (_ & Hne & _ & Hp). unfold average. apply Rdiv_lt_0_compat.
  - destruct slowness as [|x xs]; [contradiction|]. inversion Hp; subst. rewrite Rsum_cons.
    assert (0 <= Rsum xs); [|lra]. apply Rsum_nonneg. eapply Forall_impl; [|eassumption]. cbn; intros; lra.
  - apply lt_0_INR. destruct slowness; [contradiction|cbn; lia].
Qed.
Lemma depth_after_pos f k : 0 < f -> 0 < depth_after thickness slowness f k.
Proof.
  intros Hf. unfold depth_after. induction k as [|k IH]; cbn [Nat.iter nat_rect].
  - apply Rdiv_lt_0_compat; [lra|]. pose proof average_pos. nra.
  - now apply refine_pos.
Qed.

Lemma start_some f : 0 < f -> qwl_start slowness f = Some (depth_after thickness slowness f 0).
Proof.
  intros Hf. unfold qwl_start, mean_opt, inv_opt, depth_after. cbn [Nat.iter nat_rect]. pose proof average_pos as HA.
  destruct Hs as (_ & Hne & _ & _). destruct slowness as [|x xs] eqn:E; [contradiction|]. cbn [opt_bind]. fold (average (x :: xs)).
  rewrite (proj2 (Reqb_false _ 0)) by nra. reflexivity.
Qed.

Lemma nexts_map k fs : List.Forall (fun f => 0 < f) fs ->
  qwl_nexts (map (fun f => Some (depth_after thickness slowness f k)) fs)
            (map (fun f => Some (mean_to l (depth_after thickness slowness f k))) fs) fs =
  map (fun f => Some (depth_after thickness slowness f (S k))) fs.
Proof.
  induction 1 as [|f fs Hf _ IH]; [reflexivity|]. cbn [map qwl_nexts]. rewrite IH. f_equal.
  unfold qwl_next, inv_opt. cbn [opt_bind].
  destruct (trapz_mean slowness _ Hs (depth_after_pos f k Hf)) as [_ Hm]. fold l in Hm.
  rewrite (proj2 (Reqb_false _ 0)) by nra. cbn [opt_bind]. reflexivity.
Qed.

Lemma allclose_map (a b : R -> R) fs :
  allclose (map (fun f => Some (a f)) fs) (map (fun f => Some (b f)) fs) = true <-> List.Forall (fun f => agree (a f) (b f)) fs.
Proof.
  unfold allclose. induction fs as [|f fs IH]; cbn [map combine forallb fst snd qwl_close]; [split; [constructor|reflexivity]|].
  rewrite Bool.andb_true_iff, IH, Rleb_true. split; [intros [H1 H2]; now constructor|intros H; inversion H; subst; now split].
Qed.

Definition all_agree (fs : list R) (k : nat) : Prop :=
  List.Forall (fun f => agree (depth_after thickness slowness f k) (depth_after thickness slowness f (S k))) fs.

Lemma loop_spec fs : List.Forall (fun f => 0 < f) fs -> forall fuel k,
  (exists j, (k <= j < k + fuel)%nat /\ all_agree fs j /\ (forall i, (k <= i < j)%nat -> ~ all_agree fs i) /\
     qwl_loop fuel thickness slowness fs (map (fun f => Some (depth_after thickness slowness f k)) fs) =
     Ok (map (fun f => Some (depth_after thickness slowness f (S j))) fs,
         map (fun f => Some (mean_to l (depth_after thickness slowness f j))) fs)) \/
  ((forall i, (k <= i < k + fuel)%nat -> ~ all_agree fs i) /\
   qwl_loop fuel thickness slowness fs (map (fun f => Some (depth_after thickness slowness f k)) fs) = Err RuntimeError).
Proof.
  intros Hf fuel. induction fuel as [|fuel IH]; intros k; [right; split; [lia|reflexivity]|].
  cbn [qwl_loop].
  assert (EA : qwl_average thickness slowness (map (fun f => Some (depth_after thickness slowness f k)) fs) =
     Ok (map (fun f => Some (mean_to l (depth_after thickness slowness f k))) fs)).
  { rewrite <- (map_map (fun f => depth_after thickness slowness f k) Some).
    rewrite average_map; [now rewrite map_map|exact Hs|]. apply Forall_map. eapply Forall_impl; [|exact Hf]. cbn. intros f H. now apply depth_after_pos. }
  rewrite EA. cbn [bind]. rewrite nexts_map by exact Hf.
  destruct (allclose _ _) eqn:E.
  - left. exists k. apply allclose_map in E. split; [lia|]. split; [exact E|]. split; [lia|reflexivity].
  - assert (NA : ~ all_agree fs k).
    { intros H. apply allclose_map in H. congruence. }
    destruct (IH (S k)) as [(j & Hj & H1 & H2 & H3)|[H1 H2]].
    + left. exists j. split; [lia|]. split; [exact H1|]. split; [|exact H3]. intros i Hi.
      destruct (Nat.eq_dec i k) as [->|]; [exact NA|]. apply H2. lia.
    + right. split; [|exact H2]. intros i Hi. destruct (Nat.eq_dec i k) as [->|]; [exact NA|]. apply H1. lia.
Qed.
End Site.

Lemma pow_half x : 0 < x -> pow_opt x 0.5 = Some (sqrt x).
Proof.
  intros H. unfold pow_opt. rewrite (proj2 (Rltb_true 0 x)) by exact H. f_equal. replace 0.5 with (/ 2) by lra. now apply Rpower_sqrt.
Qed.

(** Everything the calculation can do, for positive frequencies. *)
Theorem amp_characterised thickness slowness density atten fs rho_n s_n :
  site_property thickness slowness -> site_property thickness density ->
  last_opt density = Some rho_n -> last_opt slowness = Some s_n ->
  List.Forall (fun f => 0 < f) fs ->
  let d := depth_after thickness slowness in
  let together k := forall f, In f fs -> agree (d f k) (d f (S k)) in
  (exists k, (k < 50)%nat /\ together k /\ (forall j, (j < k)%nat -> ~ together j) /\
     let amp f := sqrt (impedance_ratio rho_n s_n (mean_to (combine thickness density) (d f (S k)))
                                                  (mean_to (combine thickness slowness) (d f k))) in
     calc_amp Standard atten fs density thickness slowness =
     Ok (map (fun f => Some (amp f)) fs,
         map (fun f => Some (amp f * exp (- PI * match atten with Some a => a | None => 0 end * f))) fs) /\
     forall f, In f fs -> 0 < amp f) \/
  ((forall k, (k < 50)%nat -> ~ together k) /\ calc_amp Standard atten fs density thickness slowness = Err RuntimeError).
Proof.
  intros Hs Hd Er Es Hf d together.
  assert (TA : forall k, together k <-> all_agree thickness slowness fs k).
  { intros k. unfold together, all_agree. rewrite Forall_forall. reflexivity. }
  assert (E0 : map (qwl_start slowness) fs = map (fun f => Some (depth_after thickness slowness f 0)) fs).
  { apply map_ext_in. intros f Hin. apply start_some; [exact Hs|]. rewrite Forall_forall in Hf. now apply Hf. }
  destruct (loop_spec thickness slowness Hs fs Hf 50 0) as [(k & Hk & H1 & H2 & H3)|[H1 H2]].
  - left. exists k. split; [lia|]. split; [now apply TA|]. split; [intros j Hj; rewrite TA; apply H2; lia|].
    cbv zeta. set (amp := fun f => sqrt _).
    assert (HP : forall f, In f fs -> 0 < d f k /\ 0 < d f (S k)).
    { intros f Hin. rewrite Forall_forall in Hf. split; apply depth_after_pos; auto. }
    assert (Hlast : forall p v, site_property thickness p -> last_opt p = Some v -> 0 < v).
    { intros p v (_ & _ & _ & Hp) Hv. rewrite Forall_forall in Hp. apply Hp. now apply last_opt_In. }
    pose proof (Hlast density rho_n Hd Er) as Hrn. pose proof (Hlast slowness s_n Hs Es) as Hsn.
    assert (HR : forall f, In f fs -> 0 < impedance_ratio rho_n s_n (mean_to (combine thickness density) (d f (S k)))
                                                  (mean_to (combine thickness slowness) (d f k))).
    { intros f Hin. destruct (HP f Hin) as [P1 P2]. destruct (trapz_mean thickness density _ Hd P2) as [_ M1].
      destruct (trapz_mean thickness slowness _ Hs P1) as [_ M2]. unfold impedance_ratio.
      apply Rdiv_lt_0_compat; apply Rdiv_lt_0_compat; assumption. }
    split; [|intros f Hin; apply sqrt_lt_R0; now apply HR].
    unfold calc_amp. rewrite E0, H3. cbn [bind fst snd].
    rewrite <- (map_map (fun f => depth_after thickness slowness f (S k)) Some).
    rewrite average_map; [|exact Hd|].
    2:{ apply Forall_map. apply Forall_forall. intros f Hin. now apply HP. }
    cbn [bind]. unfold exponents. cbn [bind]. rewrite Er, Es. rewrite map_map.
    assert (EA : amps rho_n s_n (map (fun f => Some (mean_to (combine thickness density) (d f (S k)))) fs)
              (map (fun f => Some (mean_to (combine thickness slowness) (d f k))) fs) (map (fun _ => Some 0.5) fs) =
            map (fun f => Some (amp f)) fs).
    { unfold amp. clear - HR HP Hrn Hsn Hs Hd. induction fs as [|f fs IH]; [reflexivity|]. cbn [map amps]. rewrite IH.
      2:{ intros g Hg. apply HP. now right. } 2:{ intros g Hg. apply HR. now right. }
      f_equal. destruct (HP f (or_introl eq_refl)) as [P1 P2]. destruct (trapz_mean thickness density _ Hd P2) as [_ M1].
      destruct (trapz_mean thickness slowness _ Hs P1) as [_ M2].
      unfold amp_at, div_opt. cbn [opt_bind]. rewrite !(proj2 (Reqb_false _ 0)) by lra. cbn [opt_bind].
      assert (0 < mean_to (combine thickness density) (d f (S k)) / mean_to (combine thickness slowness) (d f k)) by (apply Rdiv_lt_0_compat; assumption).
      rewrite !(proj2 (Reqb_false _ 0)) by lra. cbn [opt_bind]. apply pow_half. apply (HR f (or_introl eq_refl)). }
    unfold d in EA at 1 2. rewrite EA. do 2 f_equal.
    clear. induction fs as [|f fs IH]; [reflexivity|]. cbn [map site_terms opt_bind]. rewrite IH. do 3 f_equal.
    unfold site_factor. destruct atten as [a|].
    + destruct (Reqb a 0) eqn:E; [|reflexivity]. apply Reqb_true in E. subst a. replace (- PI * 0 * f) with 0 by ring. now rewrite exp_0.
    + replace (- PI * 0 * f) with 0 by ring. now rewrite exp_0.
  - right. split; [intros k Hk; rewrite TA; apply H1; lia|]. unfold calc_amp. rewrite E0, H2. reflexivity.
Qed.
