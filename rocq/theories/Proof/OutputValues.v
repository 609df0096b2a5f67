(** Values of the profile outputs, statistics and Arias intensity. *)
From Coq Require Import String Sorted.
From Verif Require Import Common Proof.CommonFacts Model.Curve Model.Layer Model.Profile Model.Averages Model.Output
  Spec.LayerSpec Spec.ProfileSpec Spec.OutputSpec Proof.CurveFacts Proof.ProfileFacts Proof.OutputFacts Proof.OutputProps.
Local Open Scope R_scope.

(** * C66 *)
Lemma mid_refs_length ls : ls <> [] -> length (mid_refs ls) = length ls.
Proof. intros H. unfold mid_refs. cbn [length]. rewrite removelast_length, map_length. destruct ls; [congruence|cbn; lia]. Qed.

Theorem max_strain_lengths ls : ls <> [] -> length (max_strain_values ls) = length (mid_refs ls).
Proof.
  intros H. rewrite mid_refs_length by exact H. unfold max_strain_values. cbn [length].
  rewrite map_length, removelast_length. destruct ls; [congruence|cbn; lia].
Qed.

Theorem top_lengths f ls : (2 <= length ls)%nat -> exists vs, top_values f ls = Ok vs /\ length vs = length (top_refs ls).
Proof.
  intros H. unfold top_values, top_refs. rewrite map_length.
  pose proof (removelast_length ls) as HL. destruct (map f (removelast ls)) as [|v vs] eqn:E.
  - apply (f_equal (@length R)) in E. rewrite map_length in E. cbn in E. lia.
  - eexists. split; [reflexivity|]. apply (f_equal (@length R)) in E. rewrite map_length in E. cbn [length] in E.
    rewrite map_length. cbn [length]. lia.
Qed.

Lemma csr_entries_length ls vs : csr_entries ls = Ok vs -> length vs = length ls.
Proof.
  revert vs; induction ls as [|[l s] ls IH]; intros vs H; cbn [csr_entries] in H.
  - injection H as <-. reflexivity.
  - destruct (csr_entry l s) as [c|]; [|discriminate]. cbn [bind] in H.
    destruct (csr_entries ls) as [cs|]; [|discriminate]. cbn [bind] in H. injection H as <-. cbn. f_equal. now apply IH.
Qed.

Theorem csr_lengths ls sv vs : length sv = length ls -> csr_values (combine ls sv) = Ok vs ->
  length vs = length (mid_refs ls).
Proof.
  intros HL H. unfold csr_values in H. destruct (csr_entries (removelast (combine ls sv))) as [cs|] eqn:E; [|discriminate].
  cbn [bind] in H. pose proof (csr_entries_length _ _ E) as G. rewrite removelast_length, combine_length, HL, Nat.min_id in G.
  destruct cs as [|c cs]; [discriminate|]. injection H as <-. cbn [length map] in *. rewrite map_length.
  rewrite mid_refs_length; [lia|]. destruct ls; [cbn in G; lia|discriminate].
Qed.

(** The ratio of every layer: 0.65 times its peak shear stress over the effective
    vertical stress at mid-height. *)
Theorem csr_content ls sv vs : csr_values (combine ls sv) = Ok vs ->
  forall i l s m, nth_error (removelast (combine ls sv)) i = Some (l, Ok s) -> l_smax l = Some m -> s <> 0 ->
  nth_error vs (S i) = Some (Some (0.65 * (shear_mod l * m / s))).
Proof.
  intros H i l s m Hi Hm Hs. unfold csr_values in H.
  destruct (csr_entries (removelast (combine ls sv))) as [cs|] eqn:E; [|discriminate]. cbn [bind] in H.
  destruct cs as [|c cs]; [discriminate|]. injection H as <-. cbn [map nth_error].
  enough (G : nth_error (c :: cs) i = Some (Some (shear_mod l * m / s))).
  { change (option_map (Rmult 0.65) c :: map (option_map (Rmult 0.65)) cs) with (map (option_map (Rmult 0.65)) (c :: cs)).
    now rewrite (map_nth_error _ _ _ G). }
  revert i Hi E. generalize (removelast (combine ls sv)) as xs. generalize (c :: cs) as ys. clear c cs.
  intros ys xs. revert ys. induction xs as [|[l0 s0] xs IH]; intros ys [|i] Hi E; try discriminate; cbn [csr_entries] in E.
  - injection Hi as -> ->. unfold csr_entry, stress_shear_max in E. rewrite Hm in E. cbn [bind] in E.
    destruct (Reqb s 0) eqn:Es; [apply Reqb_true in Es; contradiction|].
    destruct (csr_entries xs) as [r|]; [|discriminate]. cbn [bind] in E. injection E as <-. reflexivity.
  - destruct (csr_entry l0 s0) as [c|]; [|discriminate]. cbn [bind] in E.
    destruct (csr_entries xs) as [r|] eqn:Er; [|discriminate]. cbn [bind] in E. injection E as <-.
    cbn [nth_error]. exact (IH r i Hi eq_refl).
Qed.

Theorem accel_lengths acc ls vs : accel_values acc (top_refs ls) = Ok vs -> length vs = length (top_refs ls).
Proof.
  generalize (top_refs ls) as ds. intros ds. revert vs; induction ds as [|d ds IH]; intros vs H; cbn [accel_values] in H.
  - injection H as <-. reflexivity.
  - destruct (acc d) as [a|]; [|discriminate]. cbn [bind] in H. destruct (accel_values acc ds) as [r|]; [|discriminate].
    cbn [bind] in H. injection H as <-. cbn. f_equal. now apply IH.
Qed.

(** * C73: the stored profile read back at any depth *)
Lemma next_value_nth pts z j x y : nth_error pts j = Some (x, y) ->
  (forall i p, (i < j)%nat -> nth_error pts i = Some p -> fst p < z) -> z <= x -> next_value pts z = Some y.
Proof.
  revert j; induction pts as [|[x0 y0] pts IH]; intros [|j] H Hlt Hle; try discriminate.
  - injection H as -> ->. cbn [next_value]. destruct pts; [reflexivity|].
    unfold Rltb. destruct (Rlt_dec x z); [lra|reflexivity].
  - cbn [nth_error] in H. cbn [next_value]. destruct pts as [|p pts]; [now destruct j|].
    pose proof (Hlt 0%nat (x0, y0) ltac:(lia) eq_refl) as G. cbn [fst] in G. rewrite (proj2 (Rltb_true _ _) G).
    apply (IH j); [exact H| |exact Hle]. intros i q Hi Hq. apply (Hlt (S i) q); [lia|exact Hq].
Qed.

Lemma finite_pairs_padded (rs vs : list R) n : length rs = length vs ->
  finite_pairs (padded n (map Some rs)) (padded n (map Some vs)) = Some (combine rs vs).
Proof.
  intros H. unfold padded. rewrite !map_length, H. generalize (n - length vs)%nat as k. intros k.
  revert vs H; induction rs as [|r rs IH]; intros [|v vs] H; try discriminate; cbn [map app finite_pairs combine].
  - destruct k as [|k]; [reflexivity|]. cbn [repeat]. induction k as [|k IHk]; [reflexivity|exact IHk].
  - rewrite IH by (injection H; auto). reflexivity.
Qed.

Lemma depths_sorted ls : forall d, (forall above l below, ls = above ++ l :: below -> l_depth l = d + total_thick above) ->
  Forall (fun l => 0 < l_thick l) (removelast ls) -> StronglySorted Rlt (map l_depth ls).
Proof.
  induction ls as [|l ls IH]; intros d Hd HF; [constructor|]. cbn [map].
  pose proof (Hd [] l ls eq_refl) as D0. cbn in D0.
  destruct ls as [|l1 ls]; [repeat constructor|]. 
  assert (HF' : 0 < l_thick l /\ Forall (fun l => 0 < l_thick l) (removelast (l1 :: ls))).
  { change (removelast (l :: l1 :: ls)) with (l :: removelast (l1 :: ls)) in HF. inversion HF; subst. now split. }
  destruct HF' as [Hl HF'].
  assert (Hd' : forall above x below, l1 :: ls = above ++ x :: below -> l_depth x = (d + l_thick l) + total_thick above).
  { intros above x below E. rewrite (Hd (l :: above) x below) by (now rewrite E). rewrite total_thick_cons. ring. }
  constructor; [exact (IH (d + l_thick l) Hd' HF')|].
  apply Forall_forall. intros y Hy. apply in_map_iff in Hy. destruct Hy as (x & <- & Hx).
  apply in_split in Hx. destruct Hx as (above & below & E). rewrite (Hd' above x below E), D0.
  assert (0 <= total_thick above).
  { assert (HP : Forall (fun l => 0 < l_thick l) above).
    { rewrite E in HF'. rewrite removelast_app in HF' by discriminate. apply Forall_app in HF'. tauto. }
    clear -HP. induction HP as [|a rest Ha HP IH]; [cbn; lra|]. rewrite total_thick_cons. lra. }
  lra.
Qed.

Lemma xsorted_pairs (xs ys : list R) : length xs = length ys -> StronglySorted Rlt xs -> xsorted (combine xs ys).
Proof.
  intros HL H. revert ys HL; induction H as [|x xs H IH HF]; intros [|y ys] HL; try discriminate; [constructor|].
  cbn [combine]. constructor; [apply IH; now injection HL|]. apply Forall_forall. intros [a b] Hab.
  rewrite Forall_forall in HF. apply HF. now apply in_combine_l in Hab.
Qed.

Lemma ss_nth (xs : list R) i j a b : StronglySorted Rlt xs -> (i < j)%nat -> nth_error xs i = Some a -> nth_error xs j = Some b -> a < b.
Proof.
  intros H. revert i j; induction H as [|x xs H IH HF]; intros [|i] [|j] L Ha Hb; try discriminate; try lia.
  - injection Ha as ->. rewrite Forall_forall in HF. apply HF. now apply nth_error_In with j.
  - apply (IH i j); [lia|exact Ha|exact Hb].
Qed.

Lemma xsorted_in_last pts p q : xsorted pts -> last_opt pts = Some q -> In p pts -> fst p <= fst q.
Proof.
  intros Hs Hl Hp. apply in_split in Hp. destruct Hp as (a & b & ->).
  assert (Hs' : xsorted (p :: b)) by (clear -Hs; induction a as [|x a IH]; [exact Hs|inversion Hs; subst; auto]).
  apply (xsorted_last_ge b p q Hs'). clear -Hl. revert Hl. induction a as [|x a IH]; intros Hl; [exact Hl|].
  apply IH. rewrite <- Hl. cbn [app]. destruct (a ++ p :: b) eqn:E; [destruct a; discriminate|reflexivity].
Qed.

Lemma ln_interp_hit (rs vs : list R) n z j x v : length rs = length vs -> StronglySorted Rlt rs ->
  nth_error rs j = Some x -> nth_error vs j = Some v -> 0 < v ->
  (forall i a, (i < j)%nat -> nth_error rs i = Some a -> a < z) -> z <= x -> (forall a, nth_error rs 0 = Some a -> a <= z) ->
  profile_at (padded n (map Some rs)) (padded n (map Some vs)) z = Some v.
Proof.
  intros HL HS Hx Hv Hpos Hlt Hle H0. unfold profile_at, ln_interp. rewrite finite_pairs_padded by exact HL. cbv zeta.
  set (lp := map (fun p => (fst p, ln (snd p))) (combine rs vs)).
  assert (Elp : lp = combine rs (map ln vs)).
  { unfold lp. clear. revert vs; induction rs as [|r rs IH]; intros [|v vs]; try reflexivity. cbn. f_equal. apply IH. }
  assert (Hsrt : xsorted lp) by (rewrite Elp; apply xsorted_pairs; [now rewrite map_length|exact HS]).
  rewrite (sort_pts_sorted _ Hsrt).
  assert (Hj : nth_error lp j = Some (x, ln v)).
  { unfold lp. rewrite (map_nth_error _ _ _ (nth_error_combine rs vs j x v Hx Hv)). reflexivity. }
  assert (E0 : exists x0 y0 rest, lp = (x0, y0) :: rest).
  { destruct lp as [|[x0 y0] rest]; [now destruct j|]. do 3 eexists. reflexivity. }
  destruct E0 as (x0 & y0 & rest & E0).
  destruct (last_opt lp) as [[xl yl]|] eqn:El.
  2:{ apply last_opt_none in El. rewrite El in E0. discriminate. }
  assert (Hx0 : nth_error rs 0 = Some x0).
  { rewrite E0 in Elp. destruct rs as [|r rs]; [discriminate|]. destruct vs; [discriminate|]. cbn in Elp. injection Elp as -> _ _. reflexivity. }
  pose proof (H0 x0 Hx0) as Hz0.
  assert (Hxl : x <= xl).
  { apply (xsorted_in_last lp (x, ln v) (xl, yl)); [exact Hsrt|exact El|now apply nth_error_In with j]. }
  assert (Hn : next_value lp z = Some (ln v)).
  { apply (next_value_nth lp z j x (ln v)); [exact Hj| |exact Hle].
    intros i p Hi Hp. rewrite Elp in Hp. destruct p as [a b].
    apply (Hlt i a Hi). clear -Hp. revert i Hp. generalize (map ln vs). induction rs as [|r rs IH]; intros [|y l] [|i] Hp; try discriminate.
    - injection Hp as -> _. reflexivity.
    - exact (IH l i Hp). }
  rewrite Hn, E0. rewrite E0 in Hsrt, El. rewrite ?(sort_pts_sorted _ Hsrt), El.
  unfold Rltb. destruct (Rlt_dec z x0); [lra|]. destruct (Rlt_dec xl z); [lra|].
  cbn [option_map]. now rewrite exp_ln.
Qed.

Theorem profile_read_back f ls z l n : depths_cumulative ls ->
  Forall (fun l => 0 < l_thick l /\ 0 < f l) (removelast ls) -> inside ls z l ->
  exists vs, top_values f ls = Ok vs /\
    profile_at (padded n (map Some (top_refs ls))) (padded n vs) z = Some (f l).
Proof.
  intros Hd HF (above & below & E & Hb & Hz).
  assert (HFt : Forall (fun l => 0 < l_thick l) (removelast ls)) by (apply Forall_impl with (2 := HF); tauto).
  assert (HS : StronglySorted Rlt (top_refs ls)).
  { apply (depths_sorted ls 0); [|exact HFt]. intros a x b Ex. rewrite (Hd a x b Ex). ring. }
  destruct below as [|l' below]; [congruence|].
  assert (Hlen : (2 <= length ls)%nat) by (rewrite E, app_length; cbn; lia).
  destruct (map f (removelast ls)) as [|v0 vs0] eqn:Ev.
  { apply (f_equal (@length R)) in Ev. rewrite map_length, removelast_length in Ev. cbn in Ev. lia. }
  assert (Et : top_values f ls = Ok (map Some (v0 :: v0 :: vs0))) by (unfold top_values; now rewrite Ev).
  exists (map Some (v0 :: v0 :: vs0)). split; [exact Et|].
  assert (Hin : In l (removelast ls)).
  { rewrite E, removelast_app by discriminate. apply in_or_app. right. now left. }
  apply (ln_interp_hit (top_refs ls) (v0 :: v0 :: vs0) n z (S (length above)) (l_depth l') (f l)).
  - unfold top_refs. rewrite map_length. cbn [length]. apply (f_equal (@length R)) in Ev.
    rewrite map_length, removelast_length in Ev. cbn [length] in Ev. lia.
  - exact HS.
  - unfold top_refs. apply map_nth_error. rewrite E. rewrite nth_error_app2 by lia.
    replace (S (length above) - length above)%nat with 1%nat by lia. reflexivity.
  - cbn [nth_error]. rewrite <- Ev. apply map_nth_error. rewrite E, removelast_app by discriminate.
    rewrite nth_error_app2 by lia. rewrite Nat.sub_diag. reflexivity.
  - rewrite Forall_forall in HF. now apply HF.
  - intros i a Hi Ha. unfold top_refs in HS, Ha.
    assert (Hl : nth_error (map l_depth ls) (length above) = Some (total_thick above)).
    { rewrite <- (Hd above l (l' :: below) E). apply map_nth_error. rewrite E, nth_error_app2, Nat.sub_diag by lia. reflexivity. }
    destruct (Nat.eq_dec i (length above)) as [->|Ni]; [rewrite Ha in Hl; injection Hl as ->; lra|].
    pose proof (ss_nth _ i (length above) _ _ HS ltac:(lia) Ha Hl). lra.
  - rewrite (Hd (above ++ [l]) l' below) by (now rewrite <- app_assoc). rewrite total_thick_app, total_thick_cons. cbn. lra.
  - intros a Ha.
    assert (Hl : nth_error (map l_depth ls) (length above) = Some (total_thick above)).
    { rewrite <- (Hd above l (l' :: below) E). apply map_nth_error. rewrite E, nth_error_app2, Nat.sub_diag by lia. reflexivity. }
    unfold top_refs in Ha, HS. destruct (Nat.eq_dec 0 (length above)) as [Z0|Ni].
    + rewrite <- Z0, Ha in Hl. injection Hl as ->. lra.
    + pose proof (ss_nth _ 0%nat (length above) _ _ HS ltac:(lia) Ha Hl). lra.
Qed.

(** * C74: statistics *)
Lemma exp_mean xs : xs <> [] -> Forall (fun x => 0 < x) xs -> exp (mean (map ln xs)) ^ length xs = product xs.
Proof.
  intros Hne HF. rewrite <- (map_length ln). set (ys := map ln xs).
  assert (HL : INR (length ys) <> 0) by (unfold ys; rewrite map_length; apply not_0_INR; destruct xs; [congruence|discriminate]).
  assert (HE : forall n x, exp x ^ n = exp (INR n * x)).
  { induction n as [|n IHn]; intros x; [cbn; rewrite Rmult_0_l, exp_0; reflexivity|].
    rewrite S_INR, <- tech_pow_Rmult, IHn, <- exp_plus. f_equal. ring. }
  rewrite HE. unfold mean. replace (INR (length ys) * (Rsum ys / INR (length ys))) with (Rsum ys) by (field; exact HL).
  unfold ys. clear -HF. induction HF as [|x xs Hx HF IH]; [cbn; apply exp_0|].
  cbn [map]. rewrite Rsum_cons, exp_plus, IH, exp_ln by exact Hx. reflexivity.
Qed.

Lemma Rsum_bounds lo hi xs : Forall (fun x => lo <= x <= hi) xs -> INR (length xs) * lo <= Rsum xs <= INR (length xs) * hi.
Proof.
  induction 1 as [|x xs Hx HF IH]; [cbn; lra|]. rewrite Rsum_cons. cbn [length]. rewrite S_INR. lra.
Qed.
Lemma mean_bounds lo hi xs : xs <> [] -> Forall (fun x => lo <= x <= hi) xs -> lo <= mean xs <= hi.
Proof.
  intros Hne HF. pose proof (Rsum_bounds lo hi xs HF) as [H1 H2]. unfold mean.
  assert (HL : 0 < INR (length xs)) by (apply lt_0_INR; destruct xs; [congruence|cbn; lia]).
  split; apply (Rmult_le_reg_l (INR (length xs))); try exact HL;
    replace (INR (length xs) * (Rsum xs / INR (length xs))) with (Rsum xs) by (field; lra); lra.
Qed.

Lemma Rsum_sq_zero xs : Rsum (map (fun x => x ^ 2) xs) = 0 -> Forall (fun x => x = 0) xs.
Proof.
  induction xs as [|x xs IH]; intros H; [constructor|]. cbn [map] in H. rewrite Rsum_cons in H.
  assert (H2 : 0 <= Rsum (map (fun x => x ^ 2) xs)).
  { apply Rsum_nonneg. apply Forall_forall. intros y Hy. apply in_map_iff in Hy. destruct Hy as (u & <- & _). apply pow2_ge_0. }
  pose proof (pow2_ge_0 x). constructor; [|apply IH; lra]. assert (x ^ 2 = 0) by lra. nra.
Qed.

Theorem row_stats_spec row : present row <> [] -> Forall (fun x => 0 < x) (present row) ->
  exists med sd, row_stats row = Some (med, sd) /\ 0 < med /\
    med ^ length (present row) = product (present row) /\
    (forall lo hi, 0 < lo -> Forall (fun x => lo <= x <= hi) (present row) -> lo <= med <= hi) /\
    0 <= sd /\ (sd = 0 <-> forall x, In x (present row) -> x = med).
Proof.
  intros Hne HF. unfold row_stats. set (xs := present row) in *.
  destruct (map ln xs) as [|y ys] eqn:E; [destruct xs; [congruence|discriminate]|]. rewrite <- E.
  set (m := mean (map ln xs)). do 2 eexists. split; [reflexivity|]. split; [apply exp_pos|].
  split; [now apply exp_mean|]. split.
  { intros lo hi Hlo HB. assert (Hhi : lo <= hi) by (destruct HB as [|x l Hx]; [congruence|lra]).
    assert (HM : ln lo <= m <= ln hi).
    { apply mean_bounds; [rewrite E; discriminate|]. apply Forall_forall. intros y' Hy'. apply in_map_iff in Hy'.
      destruct Hy' as (x & <- & Hx). rewrite Forall_forall in HB. specialize (HB x Hx). split; apply ln_le; lra. }
    rewrite <- (exp_ln lo) by exact Hlo. rewrite <- (exp_ln hi) by lra.
    assert (Hexp : forall a b, a <= b -> exp a <= exp b) by (intros a b [G|G]; [left; now apply exp_increasing|right; now f_equal]).
    split; apply Hexp; lra. }
  split; [apply sqrt_pos|].
  assert (HL : 0 < INR (length (map ln xs))) by (rewrite E; apply lt_0_INR; cbn; lia).
  assert (HQ : forall x, In x xs -> 0 < x) by (rewrite Forall_forall in HF; exact HF).
  split.
  - intros Hs x Hx.
    assert (H0 : mean (map (fun x => (x - m) ^ 2) (map ln xs)) = 0).
    { apply sqrt_eq_0; [|exact Hs]. unfold mean. apply Rmult_le_pos.
      - apply Rsum_nonneg. apply Forall_forall. intros y' Hy'. apply in_map_iff in Hy'. destruct Hy' as (u & <- & _). apply pow2_ge_0.
      - rewrite map_length. left. now apply Rinv_0_lt_compat. }
    unfold mean in H0. rewrite map_length in H0.
    assert (H1 : Rsum (map (fun x => (x - m) ^ 2) (map ln xs)) = 0).
    { apply (Rmult_eq_reg_r (/ INR (length (map ln xs)))); [|apply Rinv_neq_0_compat; lra]. rewrite Rmult_0_l. exact H0. }
    assert (H2 : Forall (fun d => d = 0) (map (fun x => x - m) (map ln xs))).
    { apply Rsum_sq_zero. rewrite map_map. exact H1. }
    rewrite Forall_forall in H2. specialize (H2 (ln x - m)). rewrite <- (exp_ln x) by (now apply HQ). f_equal.
    assert (ln x - m = 0); [|lra]. apply H2. apply in_map_iff. exists (ln x). split; [reflexivity|now apply in_map].
  - intros Hall. assert (Hz : forall d, In d (map (fun x => (x - m) ^ 2) (map ln xs)) -> d = 0).
    { intros d Hd. apply in_map_iff in Hd. destruct Hd as (y' & <- & Hy'). apply in_map_iff in Hy'. destruct Hy' as (x & <- & Hx).
      rewrite (Hall x Hx), ln_exp. ring. }
    replace (mean (map (fun x => (x - m) ^ 2) (map ln xs))) with 0; [apply sqrt_0|].
    unfold mean. replace (Rsum (map (fun x => (x - m) ^ 2) (map ln xs))) with 0; [unfold Rdiv; ring|].
    revert Hz. generalize (map (fun x => (x - m) ^ 2) (map ln xs)) as ds. induction ds as [|d ds IH]; intros Hz; [reflexivity|].
    rewrite Rsum_cons, (Hz d (or_introl eq_refl)), <- IH; [ring|]. intros d' Hd'. apply Hz. now right.
Qed.

(** Missing entries do not matter. *)
Theorem row_stats_missing a b : row_stats (a ++ None :: b) = row_stats (a ++ b).
Proof.
  unfold row_stats. replace (present (a ++ None :: b)) with (present (a ++ b)); [reflexivity|].
  induction a as [|[x|] a IH]; cbn; [reflexivity|now f_equal|exact IH].
Qed.

Theorem calc_stats_rows refs o es : holds_fixed refs o es ->
  calc_stats o = match es with
                 | [] => Err TypeError
                 | [_] => Err IndexError
                 | _ => Ok (map (fun i => row_stats (map (fun e => nth i (en_vals e) None) es)) (seq 0 (longest (map en_vals es))))
                 end.
Proof.
  intros (_ & _ & H). unfold calc_stats. destruct es as [|e0 [|e1 es]].
  - now rewrite H.
  - destruct H as (a & -> & ->). reflexivity.
  - destruct H as (a & -> & Ha). rewrite (shows_canon _ _ Ha), canon_many by (cbn; lia). unfold table. f_equal.
    rewrite map_map. apply map_ext. intros i. f_equal. rewrite map_map. reflexivity.
Qed.

(** * C62: Arias intensity *)
Lemma trapezoid_area dt ys : trapezoid dt ys = area dt ys.
Proof.
  unfold trapezoid. induction ys as [|a ys IH]; [reflexivity|]. destruct ys as [|b ys]; [reflexivity|].
  change (trapezoids dt (a :: b :: ys)) with (dt * (a + b) / 2 :: trapezoids dt (b :: ys)). rewrite Rsum_cons, IH. reflexivity.
Qed.
Lemma trapezoids_length dt ys : length (trapezoids dt ys) = (length ys - 1)%nat.
Proof.
  induction ys as [|a ys IH]; [reflexivity|]. destruct ys as [|b ys]; [reflexivity|].
  change (trapezoids dt (a :: b :: ys)) with (dt * (a + b) / 2 :: trapezoids dt (b :: ys)). cbn [length] in *. rewrite IH. lia.
Qed.
Lemma trapezoids_firstn dt ys i : trapezoids dt (firstn (S i) ys) = firstn i (trapezoids dt ys).
Proof.
  revert i; induction ys as [|a ys IH]; intros i; [now destruct i|]. destruct i as [|i]; [reflexivity|].
  destruct ys as [|b ys]; [now destruct i|].
  change (firstn (S (S i)) (a :: b :: ys)) with (a :: b :: firstn i ys).
  change (trapezoids dt (a :: b :: ys)) with (dt * (a + b) / 2 :: trapezoids dt (b :: ys)).
  change (trapezoids dt (a :: b :: firstn i ys)) with (dt * (a + b) / 2 :: trapezoids dt (firstn (S i) (b :: ys))).
  cbn [firstn]. f_equal. apply IH.
Qed.
Lemma cumsum_nth xs i x : nth_error (cumsum xs) i = Some x -> x = Rsum (firstn (S i) xs).
Proof.
  unfold cumsum. cut (forall acc, nth_error (cumsum_from acc xs) i = Some x -> x = acc + Rsum (firstn (S i) xs)).
  { intros G H. rewrite (G 0 H). ring. }
  revert i; induction xs as [|y xs IH]; intros i acc H; [now destruct i|]. cbn [cumsum_from] in H. destruct i as [|i].
  - injection H as <-. cbn. ring.
  - cbn [nth_error] in H. rewrite (IH i _ H). cbn [firstn]. rewrite Rsum_cons. ring.
Qed.

(** Sample [i] is the intensity of the first [i + 2] samples of the response. *)
Theorem arias_sample dt accels i v : nth_error (arias_series dt accels) i = Some v ->
  v = calc_arias_intensity dt (firstn (S (S i)) accels).
Proof.
  unfold arias_series, cumulative_trapezoid. intros H.
  destruct (nth_error (cumsum (trapezoids dt (map (fun a => a ^ 2) accels))) i) as [c|] eqn:E.
  2:{ rewrite nth_error_map, E in H. discriminate. }
  rewrite (map_nth_error _ _ _ E) in H. injection H as <-. rewrite (cumsum_nth _ _ _ E).
  unfold calc_arias_intensity, trapezoid. rewrite <- firstn_map, trapezoids_firstn. field.
Qed.

Theorem arias_length dt accels : length (arias_series dt accels) = (length accels - 1)%nat.
Proof. unfold arias_series, cumulative_trapezoid. now rewrite map_length, cumsum_length, trapezoids_length, map_length. Qed.

Theorem arias_last dt accels : (2 <= length accels)%nat ->
  last_opt (arias_series dt accels) = Some (calc_arias_intensity dt accels).
Proof.
  intros H. rewrite last_opt_nth. rewrite arias_length.
  destruct (nth_error (arias_series dt accels) (length accels - 1 - 1)) as [v|] eqn:E.
  - f_equal. rewrite (arias_sample _ _ _ _ E). replace (S (S (length accels - 1 - 1))) with (length accels) by lia.
    now rewrite firstn_all.
  - apply nth_error_None in E. rewrite arias_length in E. lia.
Qed.

Lemma area_nonneg dt ys : 0 <= dt -> Forall (fun y => 0 <= y) ys -> Forall (fun t => 0 <= t) (trapezoids dt ys).
Proof.
  intros Hd H. induction H as [|a ys Ha HF IH]; [constructor|]. destruct ys as [|b ys]; [constructor|].
  change (trapezoids dt (a :: b :: ys)) with (dt * (a + b) / 2 :: trapezoids dt (b :: ys)). constructor; [|exact IH].
  inversion HF; subst. assert (0 <= dt * (a + b)) by (apply Rmult_le_pos; lra). lra.
Qed.

Theorem arias_monotone dt accels i j u v : 0 <= dt -> (i <= j)%nat ->
  nth_error (arias_series dt accels) i = Some u -> nth_error (arias_series dt accels) j = Some v -> 0 <= u <= v.
Proof.
  intros Hd Hij Hu Hv. rewrite (arias_sample _ _ _ _ Hu), (arias_sample _ _ _ _ Hv).
  unfold calc_arias_intensity, trapezoid. rewrite <- !firstn_map, !trapezoids_firstn.
  assert (HF : Forall (fun t => 0 <= t) (trapezoids dt (map (fun a => a ^ 2) accels))).
  { apply area_nonneg; [exact Hd|]. apply Forall_forall. intros y Hy. apply in_map_iff in Hy. destruct Hy as (x & <- & _). apply pow2_ge_0. }
  set (ts := trapezoids dt (map (fun a => a ^ 2) accels)) in *.
  assert (HS : forall k, 0 <= Rsum (firstn k ts)).
  { intros k. apply Rsum_nonneg. apply Forall_forall. intros x Hx. rewrite Forall_forall in HF. apply HF.
    rewrite <- (firstn_skipn k ts). apply in_or_app. now left. }
  assert (HM : Rsum (firstn (S i) ts) <= Rsum (firstn (S j) ts)).
  { replace (S j) with (S i + (j - i))%nat by lia. rewrite <- (firstn_skipn (S i) (firstn (S i + (j - i)) ts)).
    rewrite firstn_firstn, Nat.min_l by lia. rewrite Rsum_app.
    assert (0 <= Rsum (skipn (S i) (firstn (S i + (j - i)) ts))); [|lra]. apply Rsum_nonneg. apply Forall_forall.
    intros x Hx. rewrite Forall_forall in HF. apply HF. rewrite <- (firstn_skipn (S i + (j - i)) ts). apply in_or_app. left.
    rewrite <- (firstn_skipn (S i) (firstn (S i + (j - i)) ts)). apply in_or_app. now right. }
  assert (HP : 0 < PI * GRAVITY / 2) by (unfold GRAVITY; pose proof PI_RGT_0; nra).
  pose proof (HS (S i)). split; [apply Rmult_le_pos; lra|]. apply Rmult_le_compat_l; lra.
Qed.

(** The reported time of sample [i] is one step before the end of its integration. *)
Theorem arias_times c accels i v : ca_values c = Ok (map Some (arias_series (ca_dt c) accels)) ->
  nth_error (arias_series (ca_dt c) accels) i = Some v ->
  nth_error (call_refs KSeries c (map Some (arias_series (ca_dt c) accels))) i = Some (Some (ca_dt c * INR i)) /\
  v = calc_arias_intensity (ca_dt c) (firstn (S (S i)) accels).
Proof.
  intros _ H. split; [|now apply arias_sample]. unfold call_refs. rewrite map_length.
  assert (Hi : (i < length (arias_series (ca_dt c) accels))%nat) by (apply nth_error_Some; congruence).
  rewrite (map_nth_error _ i _ (d := i)); [reflexivity|].
  rewrite (nth_error_nth' _ 0%nat) by (now rewrite seq_length). rewrite seq_nth by exact Hi. reflexivity.
Qed.

(** The maximum-strain profile is stored at mid-heights, so below mid-height the
    read-back value belongs to the next layer. *)
Theorem strain_profile_below a b h ea eb n z : depths_cumulative [a; b; h] ->
  l_smax a = Some ea -> l_smax b = Some eb -> 0 < l_thick a -> 0 < l_thick b -> 0 < eb ->
  l_thick a / 2 < z <= l_thick a ->
  inside [a; b; h] z a /\
  profile_at (padded n (map Some (mid_refs [a; b; h]))) (padded n (max_strain_values [a; b; h])) z = Some eb.
Proof.
  intros Hd Ha Hb Ta Tb He Hz.
  pose proof (Hd [] a [b; h] eq_refl) as Da. pose proof (Hd [a] b [h] eq_refl) as Db. cbn in Da, Db.
  split. { exists [], [b; h]. split; [reflexivity|]. split; [discriminate|]. cbn. lra. }
  unfold max_strain_values. cbn [removelast map]. rewrite Ha, Hb.
  change [Some 0; Some ea; Some eb] with (map Some [0; ea; eb]).
  assert (E : mid_refs [a; b; h] = [0; l_thick a / 2; l_thick a + l_thick b / 2]).
  { unfold mid_refs. cbn [map removelast]. unfold depth_mid. rewrite Da, Db. do 2 f_equal; [|f_equal]; field. }
  rewrite E. apply (ln_interp_hit _ _ n z 2 (l_thick a + l_thick b / 2) eb); try reflexivity.
  - repeat (constructor; [|repeat (apply Forall_cons; [lra|]); apply Forall_nil]). constructor.
  - exact He.
  - intros [|[|i]] x Hi Hx; [injection Hx as <-; lra|injection Hx as <-; lra|lia].
  - lra.
  - intros x Hx. injection Hx as <-. lra.
Qed.

(** ** Which depth goes with which layer *)
Lemma removelast_mid {A} (above : list A) l below : below <> [] -> removelast (above ++ l :: below) = above ++ l :: removelast below.
Proof. intros H. rewrite removelast_app by discriminate. destruct below; [congruence|reflexivity]. Qed.

Theorem profile_pairs ls above l below : depths_cumulative ls -> ls = above ++ l :: below -> below <> nil ->
  nth_error (mid_refs ls) 0 = Some 0 /\ nth_error (max_strain_values ls) 0 = Some (Some 0) /\
  nth_error (mid_refs ls) (S (length above)) = Some (total_thick above + l_thick l / 2) /\
  nth_error (max_strain_values ls) (S (length above)) = Some (l_smax l) /\
  nth_error (top_refs ls) (S (length above)) = Some (total_thick above + l_thick l) /\
  forall f vs, top_values f ls = Ok vs -> nth_error vs (S (length above)) = Some (Some (f l)).
Proof.
  intros HD E NB. split; [reflexivity|]. split; [reflexivity|].
  assert (R0 : removelast ls = above ++ l :: removelast below) by (rewrite E; now apply removelast_mid).
  assert (N : nth_error (removelast ls) (length above) = Some l) by (rewrite R0, nth_error_app2, Nat.sub_diag by lia; reflexivity).
  split; [|split; [|split]].
  - unfold mid_refs. cbn [nth_error]. replace (removelast (map depth_mid ls)) with (map depth_mid (removelast ls)).
    + rewrite (map_nth_error _ _ _ N). unfold depth_mid. now rewrite (HD _ _ _ E).
    + clear. induction ls as [|a [|b ls] IH]; [reflexivity..|]. cbn [removelast map] in *. now f_equal.
  - unfold max_strain_values. cbn [nth_error]. exact (map_nth_error _ _ _ N).
  - destruct below as [|x below]; [congruence|]. unfold top_refs.
    assert (E2 : ls = (above ++ [l]) ++ x :: below) by (rewrite E, <- app_assoc; reflexivity).
    assert (N2 : nth_error ls (S (length above)) = Some x).
    { rewrite E2. replace (S (length above)) with (length (above ++ [l])) by (rewrite app_length; cbn; lia). rewrite nth_error_app2, Nat.sub_diag by lia. reflexivity. }
    rewrite (map_nth_error _ _ _ N2), (HD _ _ _ E2). f_equal. clear. unfold total_thick. rewrite fold_right_app. cbn [fold_right].
    induction above as [|a above IH]; cbn [fold_right]; [ring|]. rewrite IH. ring.
  - intros f vs H. unfold top_values in H. pose proof (map_nth_error f _ _ N) as Nf. destruct (map f (removelast ls)) as [|v w]; [discriminate|].
    injection H as <-. cbn [nth_error]. change (Some v :: map Some w) with (map (@Some R) (v :: w)). exact (map_nth_error _ _ _ Nf).
Qed.
