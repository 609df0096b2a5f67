(** Curves evaluated in binary64 arithmetic: C162. *)
From Flocq Require Import Core.
From Flocq Require Import Relative.
From Coq Require Import Sorted.
From Verif Require Import Common Model.Curve Model.Layer Model.Rounded Model.RoundedCurve Spec.CurveSpec Spec.RoundSpec
  Spec.RoundCurveSpec Proof.CommonFacts Proof.CurveFacts Proof.RoundFacts.
From Coq Require Import List.
Import ListNotations.
Local Open Scope R_scope.

Notation u := half_ulp.
Lemma u_small : 0 < u <= 1 / 1000.
Proof.
  unfold half_ulp. split; [apply Rinv_0_lt_compat, pow_lt; lra|].
  replace (1 / 1000) with (/ 1000) by lra. apply Rinv_le_contravar; [lra|].
  apply Rle_trans with (2 ^ 10); [cbn; lra|]. apply Rle_pow; [lra|lia].
Qed.
Lemma tiny_pos : 0 < tiny.
Proof. unfold tiny. apply Rinv_0_lt_compat, pow_lt. lra. Qed.

(** ** The exact reading *)
Lemma interp_exact f x pts : np_interp_r unrounded f x pts = np_interp x pts.
Proof.
  induction pts as [|[x0 y0] pts IH]; [reflexivity|]. destruct pts as [|[x1 y1] rest]; [reflexivity|].
  change (np_interp_r unrounded f x ((x0, y0) :: (x1, y1) :: rest)) with
    (if Rltb x x1 then if Rleb x x0 then y0 else segment_r unrounded f x0 y0 x1 y1 x
     else np_interp_r unrounded f x ((x1, y1) :: rest)).
  rewrite np_interp_cons2, IH. unfold segment_r, unrounded. now destruct f.
Qed.
Theorem curve_exact f c s : curve_call_r unrounded ln f c s = curve_call c s.
Proof.
  unfold curve_call_r, curve_call, interp1d_call_r, interp1d_call, ln_table_r, ln_table, unrounded.
  destruct (Nat.eqb _ _); [|reflexivity]. destruct (combine _ _) as [|[x y] tab]; [reflexivity|].
  destruct (last_opt _) as [[a b]|]; [|reflexivity]. destruct (sort_pts _) as [|[p q] srt] eqn:E; [reflexivity|].
  destruct (last_opt _) as [[a' b']|]; [|reflexivity]. fold unrounded. 
  change (fun x : R => x) with unrounded. now rewrite interp_exact.
Qed.

(** ** Tables *)
Lemma table_sorted lg c : float_table lg c -> xsorted (ln_table_r lg c) /\ ln_table_r lg c <> [].
Proof.
  intros ((Hl & Hne & _) & _ & _ & Hs). unfold ln_table_r. split.
  2:{ destruct (c_strains c), (c_values c); try congruence; discriminate. }
  revert Hl Hs. clear. generalize (c_values c) as vs. generalize (c_strains c) as ss.
  induction ss as [|s ss IH]; intros vs Hl Hs; [constructor|]. destruct vs as [|v vs]; [discriminate|].
  cbn [map combine]. assert (HT : xsorted (combine (map lg ss) vs)).
  { apply IH; [cbn in Hl; lia|]. intros i. exact (Hs (S i)). }
  constructor; [exact HT|]. destruct ss as [|s1 ss]; [constructor|]. destruct vs as [|v1 vs]; [discriminate|].
  pose proof (Hs 0%nat s s1 eq_refl eq_refl) as H01. cbn [map combine] in *.
  constructor; [exact H01|]. inversion HT as [|? ? _ HA]; subst. apply Forall_forall. intros p Hp.
  rewrite Forall_forall in HA. specialize (HA p Hp). unfold xlt in *. cbn in *. lra.
Qed.
Lemma table_point lg c i s v : point (c_strains c) (c_values c) i s v -> nth_error (ln_table_r lg c) i = Some (lg s, v).
Proof. intros [H1 H2]. apply nth_error_combine; [|exact H2]. now apply map_nth_error. Qed.

Lemma interp_left rnd f x x0 y0 rest : xsorted ((x0, y0) :: rest) -> x <= x0 -> np_interp_r rnd f x ((x0, y0) :: rest) = y0.
Proof.
  intros Hs Hx. destruct rest as [|[x1 y1] rest]; [reflexivity|].
  cbn [np_interp_r]. inversion Hs as [|? ? _ Hall]; subst.
  inversion Hall as [|? ? H1 _]; subst. unfold xlt in H1; cbn in H1.
  rcase; [|lra]. rcase; [reflexivity|lra].
Qed.
Lemma interp_right rnd f x pts xl yl : xsorted pts -> last_opt pts = Some (xl, yl) -> xl <= x -> np_interp_r rnd f x pts = yl.
Proof.
  intros Hs Hl Hx. induction pts as [|[x0 y0] pts IH]; [discriminate|].
  destruct pts as [|[x1 y1] rest].
  - injection Hl as -> ->. reflexivity.
  - cbn [np_interp_r]. inversion Hs as [|? ? Hs' _]; subst.
    change (last_opt ((x1, y1) :: rest) = Some (xl, yl)) in Hl.
    pose proof (xsorted_last_ge _ _ _ Hs' Hl) as Hle. cbn in Hle.
    rcase; [lra|]. apply IH; assumption.
Qed.
Lemma interp_mid rnd f x pts i x0 y0 x1 y1 : xsorted pts ->
  nth_error pts i = Some (x0, y0) -> nth_error pts (S i) = Some (x1, y1) -> x0 <= x < x1 ->
  np_interp_r rnd f x pts = if Rleb x x0 then y0 else segment_r rnd f x0 y0 x1 y1 x.
Proof.
  revert i; induction pts as [|[a b] pts IH]; intros i Hs H0 H1 Hx; [destruct i; discriminate|].
  inversion Hs as [|? ? Hs' Hall]; subst. rewrite Forall_forall in Hall.
  destruct pts as [|[a1 b1] rest]; [destruct i as [|[|i]]; discriminate|].
  destruct i as [|i].
  - injection H0 as -> ->. cbn in H1; injection H1 as -> ->. cbn [np_interp_r]. rcase; [reflexivity|lra].
  - assert (Hge : a1 <= x0).
    { destruct i as [|i]; cbn in H0; [injection H0 as -> ->; lra|].
      apply nth_error_In in H0. inversion Hs' as [|? ? _ Hall']; subst.
      rewrite Forall_forall in Hall'. apply Hall' in H0. unfold xlt in H0; cbn in H0; lra. }
    cbn [np_interp_r]. rcase; [lra|]. apply (IH i); assumption.
Qed.
Lemma interp_knot rnd f pts i x0 y0 : xsorted pts -> nth_error pts i = Some (x0, y0) -> np_interp_r rnd f x0 pts = y0.
Proof.
  intros Hs H0. destruct (nth_error pts (S i)) as [[x1 y1]|] eqn:E.
  - assert (x0 < x1).
    { clear -Hs H0 E. revert i H0 E. induction Hs as [|p l Hs IH Hall]; intros i H0 E; [destruct i; discriminate|].
      destruct i as [|i]; [|exact (IH i H0 E)]. cbn in H0. injection H0 as ->. change (nth_error l 0 = Some (x1, y1)) in E.
      rewrite Forall_forall in Hall. exact (Hall _ (nth_error_In _ _ E)). }
    rewrite (interp_mid rnd f x0 pts i x0 y0 x1 y1 Hs H0 E) by lra. rcase; [reflexivity|lra].
  - apply interp_right with (xl := x0); [exact Hs| |lra].
    rewrite last_opt_nth. assert (i < length pts)%nat by (apply nth_error_Some; congruence).
    apply nth_error_None in E. replace (length pts - 1)%nat with i by lia. exact H0.
Qed.

Lemma call_interp rnd lg f c s : float_table lg c ->
  curve_call_r rnd lg f c s = Ok (clip (np_interp_r rnd f (lg (Rmax (rnd 1e-9) s)) (ln_table_r lg c)) (c_lo c) (c_hi c)).
Proof.
  intros H. destruct (table_sorted lg c H) as [Hs Hne]. destruct H as ((Hl & _) & _).
  unfold curve_call_r. rewrite Hl, Nat.eqb_refl. unfold interp1d_call_r. rewrite (sort_pts_sorted _ Hs).
  destruct (ln_table_r lg c) as [|[x0 y0] rest]; [congruence|].
  destruct (last_opt_some (x0, y0) rest) as [[xl yl] Hll]. rewrite Hll.
  do 2 f_equal. rcase.
  - symmetry. apply interp_left; [exact Hs|lra].
  - rcase; [|reflexivity]. symmetry. eapply interp_right; eauto; lra.
Qed.

Lemma clip_bounds v lo hi : lo <= hi -> lo <= clip v lo hi <= hi.
Proof. intros H. unfold clip. split; [apply Rmin_glb; [apply Rmax_r|exact H]|apply Rmin_r]. Qed.
Lemma clip_le v w lo hi : v <= w -> clip v lo hi <= clip w lo hi.
Proof. intros H. unfold clip. apply Rle_min_compat_r. now apply Rle_max_compat_r. Qed.
Lemma clip_near v w lo hi : Rabs (clip v lo hi - clip w lo hi) <= Rabs (v - w).
Proof.
  unfold clip, Rmin, Rmax. destruct (Rle_dec v lo), (Rle_dec w lo);
    repeat match goal with |- context [Rle_dec ?a ?b] => destruct (Rle_dec a b) end;
    unfold Rabs; repeat match goal with |- context [Rcase_abs ?a] => destruct (Rcase_abs a) end; lra.
Qed.

(** ** Values inside the limits, at the tabulated strains and beyond the table *)
Theorem computed_in_limits lg f c s : float_table lg c -> exists v, curve_call_r b64 lg f c s = Ok v /\ c_lo c <= v <= c_hi c.
Proof. intros H. rewrite (call_interp _ _ _ _ _ H). eexists. split; [reflexivity|]. apply clip_bounds, H. Qed.

Theorem computed_at_points lg f c i s v : float_table lg c -> point (c_strains c) (c_values c) i s v -> b64 1e-9 <= s ->
  exists r, curve_call_r b64 lg f c s = Ok r /\ limited (c_lo c) (c_hi c) v r.
Proof.
  intros H Hp Hs. rewrite (call_interp _ _ _ _ _ H). rewrite Rmax_right by exact Hs.
  destruct (table_sorted lg c H) as [Hx _]. rewrite (interp_knot _ _ _ i (lg s) v Hx (table_point lg c i s v Hp)).
  eexists. split; [reflexivity|]. apply clip_limited, H.
Qed.

Lemma floor_pos : 0 < b64 1e-9.
Proof.
  apply Rlt_le_trans with (bpow radix2 (-40)); [apply bpow_gt_0|].
  apply b64_ge_b.
  - apply generic_format_bpow. unfold FLT_exp. lia.
  - replace (bpow radix2 (-40)) with (/ 2 ^ 40).
    + apply Rle_trans with (/ 1e9); [apply Rinv_le_contravar; [lra|cbn; lra]|lra].
    + change (-40)%Z with (- (Z.of_nat 40))%Z. now rewrite bpow_opp, bpow_nat.
Qed.
Lemma strain_pos s : 0 < Rmax (b64 1e-9) s.
Proof. apply Rlt_le_trans with (b64 1e-9); [apply floor_pos|apply Rmax_l]. Qed.

Theorem computed_outside lg f c s : float_log lg -> float_table lg c ->
  (forall s0 v0, point (c_strains c) (c_values c) 0 s0 v0 -> b64 1e-9 <= s0 -> s <= s0 ->
     exists r, curve_call_r b64 lg f c s = Ok r /\ limited (c_lo c) (c_hi c) v0 r) /\
  (forall s1 v1, point (c_strains c) (c_values c) (length (c_strains c) - 1) s1 v1 -> s1 <= s ->
     exists r, curve_call_r b64 lg f c s = Ok r /\ limited (c_lo c) (c_hi c) v1 r).
Proof.
  intros [_ Hm] H. destruct (table_sorted lg c H) as [Hx Hne]. rewrite (call_interp _ _ _ _ _ H).
  split; intros z v Hp; [intros H9 Hs|intros Hs]; pose proof (table_point lg c _ z v Hp) as Hn;
    (eexists; split; [reflexivity|]).
  - destruct (ln_table_r lg c) as [|[x y] rest] eqn:E; [congruence|]. injection Hn as -> ->.
    rewrite interp_left; [apply clip_limited, H|exact Hx|].
    apply Hm; [apply strain_pos|]. now apply Rmax_lub.
  - rewrite (interp_right _ _ _ _ (lg z) v Hx); [apply clip_limited, H| |].
    + rewrite last_opt_nth. unfold ln_table_r at 2. rewrite combine_length, map_length.
      destruct H as ((Hl & _) & _). rewrite <- Hl, Nat.min_id. exact Hn.
    + apply Hm; [|apply Rle_trans with s; [exact Hs|apply Rmax_r]].
      destruct H as ((_ & _ & HP & _) & _). destruct Hp as [Hp _]. now apply (nth_error_pos _ _ _ _ HP Hp).
Qed.

(** ** One segment *)
Lemma b64_0_le x : x <= 0 -> b64 x <= 0.
Proof. intros H. rewrite <- b64_0. now apply b64_le. Qed.
Lemma slope_pos x0 x1 y0 y1 : is_b64 x0 -> is_b64 x1 -> x0 < x1 -> y0 <= y1 -> 0 <= b64 (b64 (y1 - y0) / b64 (x1 - x0)).
Proof.
  intros Hx0 Hx1 H Hy. apply b64_ge0. unfold Rdiv. apply Rmult_le_pos; [apply b64_ge0; lra|]. apply Rlt_le, Rinv_0_lt_compat. now apply b64_sub_pos.
Qed.
Lemma slope_neg x0 x1 y0 y1 : is_b64 x0 -> is_b64 x1 -> x0 < x1 -> y1 <= y0 -> b64 (b64 (y1 - y0) / b64 (x1 - x0)) <= 0.
Proof.
  intros Hx0 Hx1 H Hy. apply b64_0_le. pose proof (b64_sub_pos x1 x0 Hx1 Hx0 H) as P. pose proof (b64_0_le (y1 - y0) ltac:(lra)) as N.
  unfold Rdiv. pose proof (Rinv_0_lt_compat _ P). nra.
Qed.
Lemma segment_mono f x0 y0 x1 y1 x x' : is_b64 x0 -> is_b64 x1 -> x0 < x1 -> is_b64 y0 -> x0 <= x -> x <= x' ->
  (y0 <= y1 -> y0 <= segment_r b64 f x0 y0 x1 y1 x <= segment_r b64 f x0 y0 x1 y1 x') /\
  (y1 <= y0 -> segment_r b64 f x0 y0 x1 y1 x' <= segment_r b64 f x0 y0 x1 y1 x <= y0).
Proof.
  intros Hx0 Hx1 H Hy0 Hx Hx'.
  assert (D0 : 0 <= b64 (x - x0)) by (apply b64_ge0; lra).
  assert (D1 : b64 (x - x0) <= b64 (x' - x0)) by (apply b64_le; lra).
  split; intros Hy.
  - pose proof (slope_pos x0 x1 y0 y1 Hx0 Hx1 H Hy) as Hs. unfold segment_r. cbv zeta.
    set (k := b64 (b64 (y1 - y0) / b64 (x1 - x0))) in *. set (d := b64 (x - x0)) in *. set (d' := b64 (x' - x0)) in *.
    assert (0 <= k * d) by (apply Rmult_le_pos; assumption). assert (k * d <= k * d') by (apply Rmult_le_compat_l; assumption).
    destruct f.
    + split; [apply b64_ge_b; [exact Hy0|lra]|apply b64_le; lra].
    + split; [apply b64_ge_b; [exact Hy0|]|apply b64_le, Rplus_le_compat_r; now apply b64_le].
      pose proof (b64_ge0 (k * d) ltac:(assumption)). lra.
  - pose proof (slope_neg x0 x1 y0 y1 Hx0 Hx1 H Hy) as Hs. unfold segment_r. cbv zeta.
    set (k := b64 (b64 (y1 - y0) / b64 (x1 - x0))) in *. set (d := b64 (x - x0)) in *. set (d' := b64 (x' - x0)) in *.
    assert (k * d <= 0) by nra. assert (k * d' <= k * d) by nra.
    destruct f.
    + split; [apply b64_le; lra|apply b64_le_b; [exact Hy0|lra]].
    + split; [apply b64_le, Rplus_le_compat_r; now apply b64_le|apply b64_le_b; [exact Hy0|]].
      pose proof (b64_0_le (k * d) ltac:(assumption)). lra.
Qed.

Lemma b64_err x : exists e h, Rabs e <= u /\ Rabs h <= tiny / 2 /\ b64 x = x * (1 + e) + h.
Proof.
  destruct (error_N_FLT radix2 (-1074) 53 ltac:(lia) (fun z => negb (Z.even z)) x) as (e & h & He & Hh & _ & E).
  exists e, h. split; [|split; [|exact E]].
  - assert (E1 : bpow radix2 (- (53) + 1) = / 2 ^ 52).
    { change (- (53) + 1)%Z with (- (Z.of_nat 52))%Z. now rewrite bpow_opp, bpow_nat. }
    rewrite E1 in He. apply Rle_trans with (1 := He). unfold half_ulp. apply Req_le.
    rewrite <- Rinv_mult. f_equal.
  - assert (E1 : bpow radix2 (-1074) = / 2 ^ 1074).
    { change (-1074)%Z with (- (Z.of_nat 1074))%Z. now rewrite bpow_opp, bpow_nat. }
    rewrite E1 in Hh. unfold tiny. lra.
Qed.
Lemma rel_ex a z : Rabs (a - z) <= u * Rabs z -> exists e, Rabs e <= u /\ a = z * (1 + e).
Proof.
  intros H. destruct (Req_dec z 0) as [->|N].
  - exists 0. rewrite Rabs_R0 in *. pose proof u_small. split; [lra|]. assert (E : Rabs (a - 0) = 0) by (pose proof (Rabs_pos (a - 0)); lra).
    destruct (Req_dec (a - 0) 0) as [F|F]; [lra|]. now apply Rabs_no_R0 in F.
  - exists ((a - z) / z). split; [|field; exact N]. unfold Rdiv. rewrite Rabs_mult, Rabs_inv.
    apply (Rmult_le_reg_r (Rabs z)); [now apply Rabs_pos_lt|]. rewrite Rmult_assoc, Rinv_l; [lra|]. now apply Rabs_no_R0.
Qed.

(** Four roundings of a quotient of differences times a difference. *)
Lemma factor_near e1 e2 e3 e4 : Rabs e1 <= u -> Rabs e2 <= u -> Rabs e3 <= u -> Rabs e4 <= u ->
  Rabs ((1 + e2) * (1 + e3) * (1 + e4) / (1 + e1) - 1) <= 5 * u.
Proof.
  intros H1 H2 H3 H4. pose proof u_small as Hu.
  apply Rabs_le_inv in H1, H2, H3, H4.
  assert (P1 : 0 < 1 + e1) by lra.
  assert (A : (1 - u) * (1 - u) * (1 - u) <= (1 + e2) * (1 + e3) * (1 + e4) <= (1 + u) * (1 + u) * (1 + u)).
  { split; repeat apply Rmult_le_compat; try lra; apply Rmult_le_pos; lra. }
  assert (B1 : (1 + u) * (1 + u) * (1 + u) <= (1 + 5 * u) * (1 - u)) by nra.
  assert (B2 : (1 - 5 * u) * (1 + u) <= (1 - u) * (1 - u) * (1 - u)) by nra.
  assert (C1 : (1 + e2) * (1 + e3) * (1 + e4) / (1 + e1) <= 1 + 5 * u).
  { apply (Rmult_le_reg_r (1 + e1)); [exact P1|]. unfold Rdiv. rewrite Rmult_assoc, Rinv_l, Rmult_1_r by lra. nra. }
  assert (C2 : 1 - 5 * u <= (1 + e2) * (1 + e3) * (1 + e4) / (1 + e1)).
  { apply (Rmult_le_reg_r (1 + e1)); [exact P1|]. unfold Rdiv. rewrite Rmult_assoc, Rinv_l, Rmult_1_r by lra. nra. }
  apply Rabs_le. lra.
Qed.

Lemma between_max y0 y1 t : 0 <= t <= 1 -> Rabs (y0 + (y1 - y0) * t) <= Rmax (Rabs y0) (Rabs y1).
Proof.
  intros Ht. replace (y0 + (y1 - y0) * t) with ((1 - t) * y0 + t * y1) by ring.
  apply Rle_trans with (1 := Rabs_triang _ _). rewrite !Rabs_mult, (Rabs_pos_eq (1 - t)), (Rabs_pos_eq t) by lra.
  pose proof (Rmax_l (Rabs y0) (Rabs y1)). pose proof (Rmax_r (Rabs y0) (Rabs y1)). nra.
Qed.

Lemma segment_error f x0 y0 x1 y1 x : is_b64 x0 -> is_b64 x1 -> is_b64 x -> is_b64 y0 -> is_b64 y1 -> x0 < x1 -> x0 <= x <= x1 ->
  Rabs (segment_r b64 f x0 y0 x1 y1 x - (y0 + (y1 - y0) * ((x - x0) / (x1 - x0)))) <=
  8 * u * Rabs (y1 - y0) + u * Rmax (Rabs y0) (Rabs y1) + 2 * tiny * (1 + (x1 - x0)).
Proof.
  intros Hx0 Hx1 Hx Hy0 Hy1 H [Ha Hb]. pose proof u_small as Hu. pose proof tiny_pos as Ht.
  destruct (rel_ex _ _ (b64_sub x1 x0 Hx1 Hx0)) as (e1 & He1 & E1).
  destruct (rel_ex _ _ (b64_sub y1 y0 Hy1 Hy0)) as (e2 & He2 & E2).
  destruct (rel_ex _ _ (b64_sub x x0 Hx Hx0)) as (e4 & He4 & E4).
  set (q := b64 (y1 - y0) / b64 (x1 - x0)).
  destruct (b64_err q) as (e3 & h3 & He3 & Hh3 & E3).
  set (th := (x - x0) / (x1 - x0)).
  assert (Hth : 0 <= th <= 1).
  { unfold th. split; [apply Rmult_le_pos; [lra|apply Rlt_le, Rinv_0_lt_compat; lra]|].
    apply (Rmult_le_reg_r (x1 - x0)); [lra|]. unfold Rdiv. rewrite Rmult_assoc, Rinv_l; lra. }
  set (k := (1 + e2) * (1 + e3) * (1 + e4) / (1 + e1)).
  pose proof (factor_near e1 e2 e3 e4 He1 He2 He3 He4) as Hk. fold k in Hk.
  assert (Hd : b64 (x - x0) = (x1 - x0) * th * (1 + e4)).
  { rewrite E4. f_equal. unfold th. field. lra. }
  pose proof He1 as He1'. apply Rabs_le_inv in He1'. pose proof He4 as He4'. apply Rabs_le_inv in He4'.
  set (D := y1 - y0) in *. set (w := x1 - x0) in *. assert (Hw : 0 < w) by (unfold w; lra).
  assert (ES : b64 q * b64 (x - x0) = D * th * k + h3 * (w * th * (1 + e4))).
  { rewrite E3, Hd. unfold q. rewrite E1, E2. unfold k. field. lra. }
  set (S := b64 q * b64 (x - x0)) in *.
  pose proof (Rabs_pos D) as HD0.
  assert (Hw1 : 0 <= w * th * (1 + e4) <= w * (1 + u)).
  { split; [apply Rmult_le_pos; [apply Rmult_le_pos; lra|lra]|].
    apply Rle_trans with (w * 1 * (1 + u)); [|lra]. apply Rmult_le_compat; [apply Rmult_le_pos; lra|lra| |lra].
    apply Rmult_le_compat_l; lra. }
  assert (HS : Rabs (S - D * th) <= 5 * u * Rabs D + tiny / 2 * (w * (1 + u))).
  { rewrite ES. replace (D * th * k + h3 * (w * th * (1 + e4)) - D * th) with (D * th * (k - 1) + h3 * (w * th * (1 + e4))) by ring.
    apply Rle_trans with (1 := Rabs_triang _ _). apply Rplus_le_compat.
    - rewrite !Rabs_mult, (Rabs_pos_eq th) by lra. pose proof (Rabs_pos (k - 1)).
      apply Rle_trans with (Rabs D * 1 * (5 * u)); [|lra]. apply Rmult_le_compat; try lra; [apply Rmult_le_pos; lra|].
      apply Rmult_le_compat_l; lra.
    - rewrite Rabs_mult, (Rabs_pos_eq (w * th * (1 + e4))) by lra. apply Rmult_le_compat; try lra. apply Rabs_pos. }
  pose proof (between_max y0 y1 th Hth) as HM. fold D in HM.
  set (M := Rmax (Rabs y0) (Rabs y1)) in *. set (X := y0 + D * th) in *.
  assert (HDM : Rabs D <= 2 * M).
  { unfold D. apply Rle_trans with (Rabs y1 + Rabs y0).
    - replace (y1 - y0) with (y1 + - y0) by ring. apply Rle_trans with (1 := Rabs_triang _ _). rewrite Rabs_Ropp. lra.
    - unfold M. pose proof (Rmax_l (Rabs y0) (Rabs y1)). pose proof (Rmax_r (Rabs y0) (Rabs y1)). lra. }
  assert (HDt : Rabs (D * th) <= Rabs D).
  { rewrite Rabs_mult, (Rabs_pos_eq th) by lra. nra. }
  assert (HSa : Rabs S <= Rabs D + (5 * u * Rabs D + tiny / 2 * (w * (1 + u)))).
  { replace S with (D * th + (S - D * th)) by ring. apply Rle_trans with (1 := Rabs_triang _ _). lra. }
  (* the last sum, for a term close to [D * th] *)
  assert (LAST : forall p a e h, Rabs (p - D * th) <= a -> Rabs e <= u -> Rabs h <= tiny / 2 ->
    Rabs ((p + y0) * (1 + e) + h - X) <= a * (1 + u) + u * M + tiny / 2).
  { intros p a e h Hp He Hh. replace ((p + y0) * (1 + e) + h - X) with ((p - D * th) * (1 + e) + (e * X + h)) by (unfold X; ring).
    apply Rle_trans with (1 := Rabs_triang _ _). pose proof (Rabs_triang (e * X) h) as T. rewrite Rabs_mult in T. rewrite Rabs_mult.
    assert (R1 : Rabs (1 + e) <= 1 + u). { apply Rabs_le_inv in He. apply Rabs_le. lra. }
    pose proof (Rabs_pos (p - D * th)). pose proof (Rabs_pos (1 + e)). pose proof (Rabs_pos e). pose proof (Rabs_pos X).
    assert (Rabs (p - D * th) * Rabs (1 + e) <= a * (1 + u)) by (apply Rmult_le_compat; lra).
    assert (Rabs e * Rabs X <= u * M) by (apply Rmult_le_compat; lra). lra. }
  unfold segment_r. cbv zeta. fold D. fold w. fold q. fold S. fold th. fold X.
  assert (HtD : 0 <= u * Rabs D) by (apply Rmult_le_pos; lra). assert (Htw : 0 <= tiny * w) by (apply Rmult_le_pos; lra).
  assert (U1 : u * Rabs D * u <= u * Rabs D / 1000) by nra. assert (U2 : 0 <= tiny * w * u <= tiny * w / 1000) by nra.
  assert (U3 : tiny * w * u * u <= tiny * w / 1000) by nra. assert (U4 : tiny * u <= tiny / 1000) by nra.
  destruct f.
  - destruct (b64_err (S + y0)) as (e6 & h6 & He6 & Hh6 & E6). rewrite E6.
    apply Rle_trans with (1 := LAST S _ e6 h6 HS He6 Hh6).
    assert ((5 * u * Rabs D + tiny / 2 * (w * (1 + u))) * (1 + u) <= 6 * (u * Rabs D) + tiny * w).
    { replace ((5 * u * Rabs D + tiny / 2 * (w * (1 + u))) * (1 + u)) with
        (5 * (u * Rabs D) + 5 * (u * Rabs D * u) + tiny * w / 2 + tiny * w * u + tiny * w * u * u / 2) by field. lra. }
    lra.
  - destruct (b64_err S) as (e5 & h5 & He5 & Hh5 & E5).
    destruct (rel_ex _ _ (b64_add (b64 S) y0 (b64_is S) Hy0)) as (e6 & He6 & E6). rewrite E6.
    assert (HP : Rabs (b64 S - D * th) <= 6.5 * (u * Rabs D) + tiny * w + tiny / 2).
    { rewrite E5. replace (S * (1 + e5) + h5 - D * th) with ((S - D * th) + (e5 * S + h5)) by ring.
      apply Rle_trans with (1 := Rabs_triang _ _). pose proof (Rabs_triang (e5 * S) h5) as T. rewrite Rabs_mult in T.
      pose proof (Rabs_pos e5). pose proof (Rabs_pos S).
      assert (Rabs e5 * Rabs S <= u * (Rabs D + (5 * u * Rabs D + tiny / 2 * (w * (1 + u))))) by (apply Rmult_le_compat; lra).
      assert (u * (Rabs D + (5 * u * Rabs D + tiny / 2 * (w * (1 + u)))) <= 1.1 * (u * Rabs D) + 0.1 * (tiny * w)).
      { replace (u * (Rabs D + (5 * u * Rabs D + tiny / 2 * (w * (1 + u))))) with
          (u * Rabs D + 5 * (u * Rabs D * u) + tiny * w * u / 2 + tiny * w * u * u / 2) by field. lra. }
      assert (tiny / 2 * (w * (1 + u)) <= 0.6 * (tiny * w)).
      { replace (tiny / 2 * (w * (1 + u))) with (tiny * w / 2 + tiny * w * u / 2) by field. lra. }
      lra. }
    pose proof (LAST (b64 S) _ e6 0 HP He6 ltac:(rewrite Rabs_R0; lra)) as L. rewrite Rplus_0_r in L.
    apply Rle_trans with (1 := L).
    assert ((6.5 * (u * Rabs D) + tiny * w + tiny / 2) * (1 + u) <= 7 * (u * Rabs D) + 1.1 * (tiny * w) + tiny).
    { replace ((6.5 * (u * Rabs D) + tiny * w + tiny / 2) * (1 + u)) with
        (6.5 * (u * Rabs D) + 6.5 * (u * Rabs D * u) + tiny * w + tiny * w * u + tiny / 2 + tiny * u / 2) by lra. lra. }
    lra.
Qed.

(** ** Whole curves *)
Theorem computed_segment lg f c i s0 v0 s1 v1 s s' : float_log lg -> float_table lg c ->
  point (c_strains c) (c_values c) i s0 v0 -> point (c_strains c) (c_values c) (S i) s1 v1 ->
  b64 1e-9 <= s0 -> s0 <= s -> s <= s' -> lg s' < lg s1 ->
  exists r r' k, curve_call_r b64 lg f c s = Ok r /\ curve_call_r b64 lg f c s' = Ok r' /\ limited (c_lo c) (c_hi c) v0 k /\
    (v0 <= v1 -> k <= r <= r') /\ (v1 <= v0 -> r' <= r <= k).
Proof.
  intros [Hf Hm] H H0 H1 H9 Hs Hs' Hlt. destruct (table_sorted lg c H) as [Hx _].
  rewrite !(call_interp _ _ _ _ _ H). rewrite !Rmax_right by lra.
  pose proof floor_pos as HP.
  assert (P0 : 0 < s0) by lra. assert (P : 0 < s) by lra. assert (P' : 0 < s') by lra.
  assert (P1 : 0 < s1). { destruct H as ((_ & _ & HPs & _) & _). destruct H1 as [H1 _]. now apply (nth_error_pos _ _ _ _ HPs H1). }
  pose proof (Hm s0 s P0 Hs) as L1. pose proof (Hm s s' P Hs') as L2.
  assert (V0 : is_b64 v0). { destruct H as (_ & HV & _). destruct H0 as [_ H0]. now apply (nth_error_pos _ _ _ _ HV H0). }
  rewrite (interp_mid b64 f (lg s) _ i (lg s0) v0 (lg s1) v1 Hx (table_point _ _ _ _ _ H0) (table_point _ _ _ _ _ H1)) by lra.
  rewrite (interp_mid b64 f (lg s') _ i (lg s0) v0 (lg s1) v1 Hx (table_point _ _ _ _ _ H0) (table_point _ _ _ _ _ H1)) by lra.
  destruct (segment_mono f (lg s0) v0 (lg s1) v1 (lg s) (lg s') (Hf s0 P0) (Hf s1 P1) ltac:(lra) V0 L1 L2) as [M1 M2].
  destruct (segment_mono f (lg s0) v0 (lg s1) v1 (lg s') (lg s') (Hf s0 P0) (Hf s1 P1) ltac:(lra) V0 ltac:(lra) ltac:(lra)) as [N1 N2].
  eexists. eexists. exists (clip v0 (c_lo c) (c_hi c)). split; [reflexivity|]. split; [reflexivity|].
  split; [apply clip_limited, H|].
  split; intros Hv.
  - specialize (M1 Hv). specialize (N1 Hv). split; apply clip_le; repeat rcase; lra.
  - specialize (M2 Hv). specialize (N2 Hv). split; apply clip_le; repeat rcase; lra.
Qed.

Definition point_ok (p : R * R) : Prop := is_b64 (fst p) /\ is_b64 (snd p) /\ 0 <= snd p <= 1.

Lemma interp_close f x pts : is_b64 x -> xsorted pts -> List.Forall point_ok pts ->
  (forall p q, In p pts -> In q pts -> fst q - fst p <= 1024) ->
  Rabs (np_interp_r b64 f x pts - np_interp x pts) <= 10 * u.
Proof.
  intros Hx. pose proof u_small as Hu. induction pts as [|[x0 y0] pts IH]; intros Hs HF Hw.
  { cbn. rewrite Rminus_0_r, Rabs_R0. lra. }
  destruct pts as [|[x1 y1] rest]. { cbn. rewrite Rminus_eq_0, Rabs_R0. lra. }
  change (np_interp_r b64 f x ((x0, y0) :: (x1, y1) :: rest)) with
    (if Rltb x x1 then if Rleb x x0 then y0 else segment_r b64 f x0 y0 x1 y1 x
     else np_interp_r b64 f x ((x1, y1) :: rest)).
  rewrite np_interp_cons2. inversion Hs as [|? ? Hs' Hall]; subst. inversion HF as [|? ? F0 HF']; subst.
  rcase.
  - rcase; [rewrite Rminus_eq_0, Rabs_R0; lra|].
    inversion HF' as [|? ? F1 _]; subst. destruct F0 as (A1 & A2 & A3), F1 as (B1 & B2 & B3). cbn [fst snd] in *.
    replace ((y1 - y0) / (x1 - x0) * (x - x0) + y0) with (y0 + (y1 - y0) * ((x - x0) / (x1 - x0))) by (unfold Rdiv; ring).
    apply Rle_trans with (1 := segment_error f x0 y0 x1 y1 x A1 B1 Hx A2 B2 ltac:(lra) ltac:(lra)).
    pose proof (Hw (x0, y0) (x1, y1) (or_introl eq_refl) (or_intror (or_introl eq_refl))) as W. cbn [fst] in W.
    assert (Rabs (y1 - y0) <= 1) by (apply Rabs_le; lra).
    assert (Rmax (Rabs y0) (Rabs y1) <= 1) by (apply Rmax_lub; rewrite Rabs_pos_eq; lra).
    assert (HT : 2 * tiny * (1 + (x1 - x0)) <= u).
    { pose proof tiny_pos. apply Rle_trans with (2 * tiny * 2 ^ 11); [apply Rmult_le_compat_l; [lra|]; cbn; lra|].
      unfold tiny, half_ulp. apply (Rmult_le_reg_r (2 ^ 1074)); [apply pow_lt; lra|].
      replace (2 * / 2 ^ 1074 * 2 ^ 11 * 2 ^ 1074) with (2 ^ 12 * (/ 2 ^ 1074 * 2 ^ 1074)) by (change 12%nat with (S 11); cbn [pow]; ring).
      rewrite Rinv_l by (apply pow_nonzero; lra). rewrite Rmult_1_r.
      change 1074%nat with (53 + (12 + 1009))%nat. rewrite (pow_add 2 53), (pow_add 2 12), <- Rmult_assoc, Rinv_l, Rmult_1_l by (apply pow_nonzero; lra).
      pose proof (pow_R1_Rle 2 1009 ltac:(lra)). pose proof (pow_lt 2 12 ltac:(lra)). nra. }
    nra.
  - apply IH; [exact Hs'|exact HF'|]. intros p q Hp Hq. apply Hw; now right.
Qed.

Lemma fraction_points lg c : float_log lg -> fraction_table lg c -> List.Forall point_ok (ln_table_r lg c) /\
  (forall p q, In p (ln_table_r lg c) -> In q (ln_table_r lg c) -> fst q - fst p <= 1024).
Proof.
  intros [Hf _] (((Hl & _ & HP & _) & HB & _) & HV & HW). unfold ln_table_r. rewrite Forall_forall in HP, HB, HV. split.
  - apply Forall_forall. intros [x y] Hi. pose proof (in_combine_l _ _ _ _ Hi) as H1. pose proof (in_combine_r _ _ _ _ Hi) as H2.
    apply in_map_iff in H1. destruct H1 as (s & <- & Hs). repeat split; cbn [fst snd]; [apply Hf, HP, Hs|apply HB, H2|apply HV, H2|apply HV, H2].
  - intros [x y] [x' y'] Hi Hj. apply in_combine_l in Hi, Hj. apply in_map_iff in Hi, Hj.
    destruct Hi as (s & <- & Hs), Hj as (s' & <- & Hs'). cbn [fst]. now apply HW.
Qed.

(** The computed value is that of the straight line between the computed logarithms, up to
    ten half-units of rounding. *)
Lemma call_close lg f c s : float_log lg -> fraction_table lg c ->
  exists r, curve_call_r b64 lg f c s = Ok r /\
  Rabs (r - clip (np_interp (lg (Rmax (b64 1e-9) s)) (ln_table_r lg c)) (c_lo c) (c_hi c)) <= 10 * u.
Proof.
  intros HL H. destruct (fraction_points lg c HL H) as [F W]. destruct H as (H & _).
  rewrite (call_interp _ _ _ _ _ H). eexists. split; [reflexivity|]. apply Rle_trans with (1 := clip_near _ _ _ _).
  apply interp_close; [apply HL, strain_pos|apply (table_sorted lg c H)|exact F|exact W].
Qed.
Theorem computed_near_chord lg f c i s0 v0 s1 v1 s : float_log lg -> fraction_table lg c ->
  point (c_strains c) (c_values c) i s0 v0 -> point (c_strains c) (c_values c) (S i) s1 v1 ->
  b64 1e-9 <= s -> s0 <= s <= s1 ->
  exists r k, curve_call_r b64 lg f c s = Ok r /\ limited (c_lo c) (c_hi c) (chord_in lg s0 v0 s1 v1 s) k /\ Rabs (r - k) <= 10 * u.
Proof.
  intros HL H H0 H1 H9 Hs. destruct (call_close lg f c s HL H) as (r & E & B). rewrite Rmax_right in B by exact H9.
  exists r. eexists. split; [exact E|]. split; [apply clip_limited, H|]. destruct H as (H & _). pose proof H as ((_ & _ & HP & _) & _ & _ & Hd).
  assert (P0 : 0 < s0) by (destruct H0 as [H0 _]; now apply (nth_error_pos _ _ _ _ HP H0)).
  assert (L01 : lg s0 < lg s1) by (destruct H0 as [H0 _], H1 as [H1 _]; exact (Hd i s0 s1 H0 H1)).
  destruct HL as [_ Hm]. pose proof (Hm s0 s P0 ltac:(lra)). pose proof (Hm s s1 ltac:(lra) ltac:(lra)).
  rewrite (np_interp_mid _ _ i (lg s0) v0 (lg s1) v1 (proj1 (table_sorted lg c H)) (table_point _ _ _ _ _ H0) (table_point _ _ _ _ _ H1)) in B by lra.
  replace (chord_in lg s0 v0 s1 v1 s) with ((v1 - v0) / (lg s1 - lg s0) * (lg s - lg s0) + v0); [exact B|].
  unfold chord_in, Rdiv. ring.
Qed.

(** Hence the distance from the exact curve, for a logarithm with errors up to [d]. *)
Theorem computed_accuracy lg f c i s0 v0 s1 v1 s d : float_log lg -> fraction_table lg c ->
  point (c_strains c) (c_values c) i s0 v0 -> point (c_strains c) (c_values c) (S i) s1 v1 ->
  b64 1e-9 <= s -> 1e-9 <= s -> s0 <= s <= s1 ->
  Rabs (lg s0 - ln s0) <= d -> Rabs (lg s1 - ln s1) <= d -> Rabs (lg s - ln s) <= d -> 2 * d < ln s1 - ln s0 ->
  exists r e, curve_call_r b64 lg f c s = Ok r /\ curve_call c s = Ok e /\
    Rabs (r - e) <= Rabs (v1 - v0) * (4 * d / (ln s1 - ln s0 - 2 * d)) + 10 * u.
Proof.
  intros HL H H0 H1 H9 H9' Hs D0 D1 D2 Hd.
  destruct (computed_near_chord lg f c i s0 v0 s1 v1 s HL H H0 H1 H9 Hs) as (r & k & E & Hk & B).
  exists r, (clip (chord s0 v0 s1 v1 s) (c_lo c) (c_hi c)). split; [exact E|].
  destruct H as (H & _). pose proof H as (Hg & _ & Hlh & _). split; [now apply (curve_between c i s0 v0 s1 v1)|].
  apply limited_clip in Hk; [|exact Hlh]. subst k.
  set (A := clip (chord_in lg s0 v0 s1 v1 s) (c_lo c) (c_hi c)) in *. set (X := clip (chord s0 v0 s1 v1 s) (c_lo c) (c_hi c)).
  replace (r - X) with ((A - X) + (r - A)) by ring. apply Rle_trans with (1 := Rabs_triang _ _). apply Rplus_le_compat; [|exact B].
  apply Rle_trans with (1 := clip_near _ _ _ _). unfold chord_in, chord.
  pose proof Hg as (_ & _ & HP & _).
  assert (P0 : 0 < s0) by (destruct H0 as [H0 _]; now apply (nth_error_pos _ _ _ _ HP H0)).
  assert (L0 : ln s0 <= ln s) by (apply ln_le; lra). assert (L1 : ln s <= ln s1) by (apply ln_le; lra).
  apply Rabs_le_inv in D0, D1, D2.
  set (w := ln s1 - ln s0) in *. set (a := ln s - ln s0) in *.
  assert (Hd0 : 0 <= d) by lra. assert (Hw : 0 < w) by lra. assert (Hwl : 0 < lg s1 - lg s0) by (unfold w in Hd; lra).
  set (wl := lg s1 - lg s0) in *. set (al := lg s - lg s0).
  assert (Q1 : Rabs (al - a) <= 2 * d) by (apply Rabs_le; unfold al, a; lra).
  assert (Q2 : Rabs (wl - w) <= 2 * d) by (apply Rabs_le; unfold wl, w; lra).
  assert (Ha : 0 <= a <= w) by (unfold a, w; lra).
  replace (v0 + (v1 - v0) * (al / wl) - (v0 + (v1 - v0) * (a / w))) with ((v1 - v0) * (((al - a) * w - a * (wl - w)) / (w * wl)))
    by (field; lra).
  rewrite Rabs_mult. apply Rmult_le_compat_l; [apply Rabs_pos|].
  unfold Rdiv at 1. rewrite Rabs_mult, (Rabs_pos_eq (/ (w * wl))) by (apply Rlt_le, Rinv_0_lt_compat, Rmult_lt_0_compat; lra).
  assert (N : Rabs ((al - a) * w - a * (wl - w)) <= 4 * d * w).
  { replace ((al - a) * w - a * (wl - w)) with ((al - a) * w + - (a * (wl - w))) by ring.
    apply Rle_trans with (1 := Rabs_triang _ _). rewrite Rabs_Ropp, !Rabs_mult, (Rabs_pos_eq w), (Rabs_pos_eq a) by lra.
    pose proof (Rabs_pos (wl - w)). pose proof (Rabs_pos (al - a)).
    assert (Rabs (al - a) * w <= 2 * d * w) by (apply Rmult_le_compat_r; lra).
    assert (a * Rabs (wl - w) <= w * (2 * d)) by (apply Rmult_le_compat; lra). lra. }
  assert (W2 : w - 2 * d <= wl) by (apply Rabs_le_inv in Q2; lra).
  apply Rle_trans with (4 * d * w * / (w * wl)).
  - apply Rmult_le_compat_r; [apply Rlt_le, Rinv_0_lt_compat, Rmult_lt_0_compat; lra|exact N].
  - replace (4 * d * w * / (w * wl)) with (4 * d * / wl) by (field; lra). unfold Rdiv. apply Rmult_le_compat_l; [lra|].
    apply Rinv_le_contravar; lra.
Qed.

(** A falling curve falls, a rising one rises, up to twenty half-units. *)
Lemma combine_sorted (Rel : R -> R -> Prop) (xs ys : list R) : StronglySorted Rel ys ->
  StronglySorted (fun p q : R * R => Rel (snd p) (snd q)) (combine xs ys).
Proof.
  intros H; revert xs; induction H as [|y ys H IH Hall]; intros [|x xs]; cbn [combine]; try constructor; [apply IH|].
  apply Forall_forall. intros [a b] Hi. cbn [snd]. apply in_combine_r in Hi. rewrite Forall_forall in Hall. now apply Hall.
Qed.
Theorem computed_almost_monotone lg f c s s' : float_log lg -> fraction_table lg c -> s <= s' ->
  exists r r', curve_call_r b64 lg f c s = Ok r /\ curve_call_r b64 lg f c s' = Ok r' /\
    (StronglySorted (fun v w => w <= v) (c_values c) -> r' <= r + 20 * u) /\
    (StronglySorted (fun v w => v <= w) (c_values c) -> r <= r' + 20 * u).
Proof.
  intros HL H Hs. destruct (call_close lg f c s HL H) as (r & E & B). destruct (call_close lg f c s' HL H) as (r' & E' & B').
  exists r, r'. split; [exact E|]. split; [exact E'|]. pose proof (proj1 (table_sorted lg c (proj1 H))) as HX.
  assert (HM : lg (Rmax (b64 1e-9) s) <= lg (Rmax (b64 1e-9) s')).
  { apply HL; [apply strain_pos|]. now apply Rle_max_compat_l. }
  apply Rabs_le_inv in B, B'.
  split; intros HV.
  - pose proof (np_interp_antitone (ln_table_r lg c) _ _ HX (combine_sorted _ (map lg (c_strains c)) _ HV) HM) as N.
    apply (clip_le _ _ (c_lo c) (c_hi c)) in N. lra.
  - assert (N : np_interp (lg (Rmax (b64 1e-9) s)) (ln_table_r lg c) <= np_interp (lg (Rmax (b64 1e-9) s')) (ln_table_r lg c)).
    { assert (X' : xsorted (map (fun p => (fst p, - snd p)) (ln_table_r lg c))).
      { clear -HX. induction HX as [|p l HX IH Hall]; cbn [map]; constructor; [exact IH|].
        apply Forall_forall. intros q Hq. apply in_map_iff in Hq. destruct Hq as (z & <- & Hz). unfold xlt. cbn [fst].
        rewrite Forall_forall in Hall. exact (Hall z Hz). }
      assert (Y' : ynonincr (map (fun p => (fst p, - snd p)) (ln_table_r lg c))).
      { pose proof (combine_sorted _ (map lg (c_strains c)) _ HV) as Y. fold (ln_table_r lg c) in Y. clear -Y.
        induction Y as [|p l Y IH Hall]; cbn [map]; constructor; [exact IH|].
        apply Forall_forall. intros q Hq. apply in_map_iff in Hq. destruct Hq as (z & <- & Hz). cbn [snd].
        rewrite Forall_forall in Hall. specialize (Hall z Hz). cbv beta in Hall. lra. }
      pose proof (np_interp_antitone _ _ _ X' Y' HM) as N. rewrite !np_interp_opp in N. lra. }
    apply (clip_le _ _ (c_lo c) (c_hi c)) in N. lra.
Qed.
