(** Property C162: nonlinear curves evaluated in binary64 arithmetic. *)
From Flocq Require Import Core.
From Coq Require Import Sorted.
From Verif Require Import Common Model.Curve Model.Rounded Model.RoundedCurve Spec.CurveSpec Spec.RoundSpec Spec.RoundCurveSpec.
From Verif Require Import Proof.CommonFacts Proof.CurveFacts Proof.RoundFacts Proof.RoundCurve.
From Coq Require Import List.
Local Open Scope R_scope.

(** The correctly rounded logarithm, and a table whose strains are 2^-20 and 2^-5. *)
Definition rc_log (x : R) : R := b64 (ln x).
Definition rc_curve : curve := modulus_curve 0 (cons (/ 2 ^ 20) (cons (/ 2 ^ 5) nil)) (cons 1 (cons (/ 2 ^ 1) nil)).
Lemma rc_pow n : (n < 1000)%nat -> is_b64 (/ 2 ^ n).
Proof.
  intros H. replace (/ 2 ^ n) with (bpow radix2 (- Z.of_nat n)) by now rewrite bpow_opp, bpow_nat.
  apply generic_format_bpow. unfold FLT_exp. lia.
Qed.
Lemma rc_float_log : float_log rc_log.
Proof. split; [intros; apply b64_is|]. intros x y H1 H2. apply b64_le. now apply ln_le. Qed.
Lemma rc_ln n : - INR n <= ln (/ 2 ^ n) <= - INR n / 2.
Proof.
  rewrite ln_Rinv, ln_pow by (try apply pow_lt; lra).
  assert (/ 2 < ln 2) by apply ln_lt_2.
  assert (ln 2 <= 1). { rewrite <- (ln_exp 1). apply ln_le; [lra|]. pose proof (exp_ineq1 1 ltac:(lra)). lra. }
  pose proof (pos_INR n). split; nra.
Qed.
Lemma rc_int n : is_b64 (- INR n) -> is_b64 (INR n).
Proof. intros H. rewrite <- (Ropp_involutive (INR n)). now apply is_b64_opp. Qed.
Lemma rc_bpow n : (n < 50)%nat -> is_b64 (2 ^ n).
Proof. intros H. rewrite <- bpow_nat. apply generic_format_bpow. unfold FLT_exp. lia. Qed.
Lemma rc_logs : - (2 ^ 5) <= rc_log (/ 2 ^ 20) <= - (2 ^ 3) /\ - (2 ^ 3) + 1 < rc_log (/ 2 ^ 5) <= 0.
Proof.
  pose proof (rc_ln 20) as A. pose proof (rc_ln 5) as B. rewrite INR_IZR_INZ in A, B; cbn [Z.of_nat Pos.of_succ_nat Pos.succ] in A, B. unfold rc_log.
  assert (I6 : is_b64 (- (2 ^ 2 + 2 ^ 1))).
  { apply is_b64_opp. replace (2 ^ 2 + 2 ^ 1) with (F2R (Float radix2 3 1)) by (unfold F2R; cbn; lra).
    apply generic_format_F2R. intros _. unfold cexp, FLT_exp.
    rewrite (mag_unique radix2 _ 3); [lia|]. unfold F2R; cbn. rewrite Rabs_pos_eq; lra. }
  split; split.
  - apply b64_ge_b; [apply is_b64_opp, rc_bpow; lia|lra].
  - apply b64_le_b; [apply is_b64_opp, rc_bpow; lia|lra].
  - apply Rlt_le_trans with (- (2 ^ 2 + 2 ^ 1)); [lra|]. apply b64_ge_b; [exact I6|lra].
  - apply b64_le_b; [apply is_b64_0|lra].
Qed.

(** C162: without rounding and with the exact logarithm this is the model of the other
    theorems. *)
Theorem C162_exact : forall f c s,
  curve_call_r unrounded ln f c s = curve_call c s.
Proof. exact curve_exact. Qed.
Print Assumptions C162_exact.

(** C162,C03: the computed value lies between the limits, exactly. *)
Theorem C162_limits : forall lg f c s,
  float_table lg c -> exists v, curve_call_r b64 lg f c s = Ok v /\ c_lo c <= v <= c_hi c.
Proof. exact computed_in_limits. Qed.
Print Assumptions C162_limits.
Example C162_table : fraction_table rc_log rc_curve.
Proof.
  pose proof rc_logs as (A & B).
  assert (P20 : / 2 ^ 20 < / 2 ^ 5) by (cbn; lra). assert (P0 : 0 < / 2 ^ 20) by (cbn; lra).
  split; [|split].
  - split; [|split; [|split]].
    + split; [reflexivity|]. split; [discriminate|]. cbn [rc_curve modulus_curve c_strains].
      split; [constructor; [exact P0|constructor; [exact (Rlt_trans _ _ _ P0 P20)|constructor]]|].
      constructor; [constructor; [constructor|constructor]|constructor; [exact P20|constructor]].
    + repeat constructor; [exact (rc_bpow 0 ltac:(lia))|exact (rc_pow 1 ltac:(lia))].
    + cbn. lra.
    + intros [|[|i]] s0 s1 H0 H1; cbn [nth_error rc_curve modulus_curve c_strains] in H0, H1; try discriminate.
      assert (s0 = / 2 ^ 20) by congruence. assert (s1 = / 2 ^ 5) by congruence. subst s0 s1. unfold rc_log in *. lra.
  - repeat constructor; cbn; lra.
  - cbn [rc_curve modulus_curve c_strains]. intros s s' [<-|[<-|[]]] [<-|[<-|[]]]; unfold rc_log in *; lra.
Qed.

(** C162,C01: at a tabulated strain the computed value is the tabulated one, exactly,
    within the limits. *)
Theorem C162_points : forall lg f c i s v,
  float_table lg c -> point (c_strains c) (c_values c) i s v -> b64 1e-9 <= s ->
  exists r, curve_call_r b64 lg f c s = Ok r /\ limited (c_lo c) (c_hi c) v r.
Proof. exact computed_at_points. Qed.
Print Assumptions C162_points.

(** C162,C02: up to the first and from the last strain of the table on, the computed
    value is that of the end of the table, exactly. *)
Theorem C162_ends : forall lg f c s,
  float_log lg -> float_table lg c ->
  (forall s0 v0, point (c_strains c) (c_values c) 0 s0 v0 -> b64 1e-9 <= s0 -> s <= s0 ->
     exists r, curve_call_r b64 lg f c s = Ok r /\ limited (c_lo c) (c_hi c) v0 r) /\
  (forall s1 v1, point (c_strains c) (c_values c) (length (c_strains c) - 1) s1 v1 -> s1 <= s ->
     exists r, curve_call_r b64 lg f c s = Ok r /\ limited (c_lo c) (c_hi c) v1 r).
Proof. exact computed_outside. Qed.
Print Assumptions C162_ends.

(** C162: between two tabulated strains the computed value rises or falls with the
    table, and never goes back beyond the value on the left. *)
Theorem C162_segment : forall lg f c i s0 v0 s1 v1 s s',
  float_log lg -> float_table lg c ->
  point (c_strains c) (c_values c) i s0 v0 -> point (c_strains c) (c_values c) (S i) s1 v1 ->
  b64 1e-9 <= s0 -> s0 <= s -> s <= s' -> lg s' < lg s1 ->
  exists r r' k, curve_call_r b64 lg f c s = Ok r /\ curve_call_r b64 lg f c s' = Ok r' /\ limited (c_lo c) (c_hi c) v0 k /\
    (v0 <= v1 -> k <= r <= r') /\ (v1 <= v0 -> r' <= r <= k).
Proof. exact computed_segment. Qed.
Print Assumptions C162_segment.
Example C162_segment_ex : float_log rc_log /\ b64 1e-9 <= / 2 ^ 20 /\ / 2 ^ 20 <= / 2 ^ 19 /\ rc_log (/ 2 ^ 19) < rc_log (/ 2 ^ 5).
Proof.
  split; [exact rc_float_log|]. split; [apply b64_le_b; [apply rc_pow; lia|cbn; lra]|]. split; [cbn; lra|].
  pose proof rc_logs as (_ & B). pose proof (rc_ln 19) as A. rewrite INR_IZR_INZ in A; cbn [Z.of_nat Pos.of_succ_nat Pos.succ] in A.
  apply Rle_lt_trans with (- (2 ^ 3)); [|unfold rc_log in *; lra]. apply b64_le_b; [apply is_b64_opp, rc_bpow; lia|lra].
Qed.

(** C162: for a table of fractions it is within ten half-units of rounding (10 / 2^53)
    of the line between the computed logarithms. *)
Theorem C162_chord : forall lg f c i s0 v0 s1 v1 s,
  float_log lg -> fraction_table lg c ->
  point (c_strains c) (c_values c) i s0 v0 -> point (c_strains c) (c_values c) (S i) s1 v1 ->
  b64 1e-9 <= s -> s0 <= s <= s1 ->
  exists r k, curve_call_r b64 lg f c s = Ok r /\ limited (c_lo c) (c_hi c) (chord_in lg s0 v0 s1 v1 s) k /\ Rabs (r - k) <= 10 * u.
Proof. exact computed_near_chord. Qed.
Print Assumptions C162_chord.

(** C162,C01: so it is as close to the exact curve as the logarithm allows: the
    difference of the two values times 4 d / (w - 2 d), d being the error of the
    logarithm and w the distance of the logarithms of the two strains, and ten
    half-units. *)
Theorem C162_accuracy : forall lg f c i s0 v0 s1 v1 s d,
  float_log lg -> fraction_table lg c ->
  point (c_strains c) (c_values c) i s0 v0 -> point (c_strains c) (c_values c) (S i) s1 v1 ->
  b64 1e-9 <= s -> 1e-9 <= s -> s0 <= s <= s1 ->
  Rabs (lg s0 - ln s0) <= d -> Rabs (lg s1 - ln s1) <= d -> Rabs (lg s - ln s) <= d -> 2 * d < ln s1 - ln s0 ->
  exists r e, curve_call_r b64 lg f c s = Ok r /\ curve_call c s = Ok e /\
    Rabs (r - e) <= Rabs (v1 - v0) * (4 * d / (ln s1 - ln s0 - 2 * d)) + 10 * u.
Proof. exact computed_accuracy. Qed.
Print Assumptions C162_accuracy.
Example C162_accuracy_ex : exists d, 0 < d /\ Rabs (rc_log (/ 2 ^ 20) - ln (/ 2 ^ 20)) <= d /\ Rabs (rc_log (/ 2 ^ 5) - ln (/ 2 ^ 5)) <= d /\
  Rabs (rc_log (/ 2 ^ 10) - ln (/ 2 ^ 10)) <= d /\ 2 * d < ln (/ 2 ^ 5) - ln (/ 2 ^ 20).
Proof.
  exists 1. assert (E : forall n, (n <= 20)%nat -> Rabs (rc_log (/ 2 ^ n) - ln (/ 2 ^ n)) <= 1).
  { intros n Hn. unfold rc_log. destruct (b64_err (ln (/ 2 ^ n))) as (e & h & He & Hh & ->).
    replace (ln (/ 2 ^ n) * (1 + e) + h - ln (/ 2 ^ n)) with (e * ln (/ 2 ^ n) + h) by ring.
    apply Rle_trans with (1 := Rabs_triang _ _). rewrite Rabs_mult. pose proof (rc_ln n) as A. apply le_INR in Hn. rewrite !INR_IZR_INZ in Hn; cbn [Z.of_nat Pos.of_succ_nat Pos.succ] in Hn; rewrite <- INR_IZR_INZ in Hn.
    pose proof (pos_INR n). assert (Rabs (ln (/ 2 ^ n)) <= 20) by (apply Rabs_le; lra). pose proof u_small. pose proof (Rabs_pos e).
    assert (tiny <= 1). { unfold tiny. rewrite <- Rinv_1. apply Rinv_le_contravar; [lra|]. apply pow_R1_Rle. lra. }
    pose proof (Rabs_pos (ln (/ 2 ^ n))). nra. }
  split; [lra|]. split; [apply E; lia|]. split; [apply E; lia|]. split; [apply E; lia|].
  pose proof (rc_ln 20) as A. pose proof (rc_ln 5) as B. rewrite INR_IZR_INZ in A, B; cbn [Z.of_nat Pos.of_succ_nat Pos.succ] in A, B. lra.
Qed.

(** C162: a falling table gives values that never rise by more than twenty half-units, a
    rising one values that never fall by more. *)
Theorem C162_order : forall lg f c s s',
  float_log lg -> fraction_table lg c -> s <= s' ->
  exists r r', curve_call_r b64 lg f c s = Ok r /\ curve_call_r b64 lg f c s' = Ok r' /\
    (StronglySorted (fun v w => w <= v) (c_values c) -> r' <= r + 20 * u) /\
    (StronglySorted (fun v w => v <= w) (c_values c) -> r <= r' + 20 * u).
Proof. exact computed_almost_monotone. Qed.
Print Assumptions C162_order.
