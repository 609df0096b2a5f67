(** Orthogonality of the Fourier sums. *)
From Verif Require Import Common Model.Layer Model.Averages Model.Output Model.Motion Spec.MotionSpec Proof.CommonFacts.
From Coquelicot Require Import Complex.
Local Open Scope R_scope.

(** * Finite sums *)
Definition Sum (n : nat) (f : nat -> R) : R := Rsum (map f (seq 0 n)).
Definition Sum1 (n : nat) (f : nat -> R) : R := Rsum (map f (seq 1 n)).

Lemma Rsum_ext {A} (f g : A -> R) l : (forall x, In x l -> f x = g x) -> Rsum (map f l) = Rsum (map g l).
Proof. intros H. f_equal. now apply map_ext_in. Qed.
Lemma Rsum_plus {A} (f g : A -> R) l : Rsum (map (fun x => f x + g x) l) = Rsum (map f l) + Rsum (map g l).
Proof. induction l as [|x l IH]; [cbn; ring|]. cbn [map]. rewrite !Rsum_cons, IH. ring. Qed.
Lemma Rsum_scal {A} c (f : A -> R) l : Rsum (map (fun x => c * f x) l) = c * Rsum (map f l).
Proof. induction l as [|x l IH]; [cbn; ring|]. cbn [map]. rewrite !Rsum_cons, IH. ring. Qed.
Lemma Rsum_zero {A} (f : A -> R) l : (forall x, In x l -> f x = 0) -> Rsum (map f l) = 0.
Proof. intros H. rewrite (Rsum_ext f (fun _ => 0) l H). clear. induction l; [reflexivity|]. cbn [map]. rewrite Rsum_cons, IHl. ring. Qed.
Lemma Rsum_swap {A B} (f : A -> B -> R) la lb :
  Rsum (map (fun a => Rsum (map (f a) lb)) la) = Rsum (map (fun b => Rsum (map (fun a => f a b) la)) lb).
Proof.
  induction la as [|a la IH].
  - cbn. symmetry. apply Rsum_zero. reflexivity.
  - cbn [map]. rewrite Rsum_cons, IH, <- Rsum_plus. apply Rsum_ext. intros b _. now rewrite Rsum_cons.
Qed.
Lemma Rsum_pick (f : nat -> R) l j : NoDup l -> In j l ->
  Rsum (map (fun i => if Nat.eqb i j then f i else 0) l) = f j.
Proof.
  intros HN. induction HN as [|x l Hx HN IH]; intros Hj; [contradiction|]. cbn [map]. rewrite Rsum_cons.
  destruct Hj as [->|Hj].
  - rewrite Nat.eqb_refl, Rsum_zero; [ring|]. intros i Hi. destruct (Nat.eqb_spec i j); [subst; contradiction|reflexivity].
  - rewrite (IH Hj). destruct (Nat.eqb_spec x j); [subst; contradiction|ring].
Qed.
Lemma seq_snoc s n : seq s (Datatypes.S n) = seq s n ++ [s + n]%nat.
Proof. rewrite <- seq_app with (len2 := 1%nat) || idtac. replace (Datatypes.S n) with (n + 1)%nat by lia. now rewrite seq_app. Qed.

(** * Trigonometric sums *)
Lemma cos_diff a b : cos a * cos b + sin a * sin b = cos (a - b).
Proof. symmetry. apply cos_minus. Qed.

Lemma sin_pi_nat n : sin (PI * INR n) = 0.
Proof. induction n as [|n IH]; [cbn; rewrite Rmult_0_r; apply sin_0|]. rewrite S_INR. replace (PI * (INR n + 1)) with (PI * INR n + PI) by ring. rewrite neg_sin, IH. ring. Qed.
Lemma cos_pi_nat_sq n : cos (PI * INR n) * cos (PI * INR n) = 1.
Proof. pose proof (sin2_cos2 (PI * INR n)) as H. unfold Rsqr in H. rewrite sin_pi_nat in H. lra. Qed.
Lemma cos_2pi_nat n : cos (2 * PI * INR n) = 1.
Proof. replace (2 * PI * INR n) with (2 * (PI * INR n)) by ring. rewrite cos_2a, sin_pi_nat. rewrite cos_pi_nat_sq. ring. Qed.
Lemma sin_2pi_nat n : sin (2 * PI * INR n) = 0.
Proof. replace (2 * PI * INR n) with (PI * INR (2 * n)) by (rewrite mult_INR; cbn; ring). apply sin_pi_nat. Qed.

(** [sin (PI d / (2 h))] vanishes only at multiples of [2 h]. *)
Lemma sin_half_ne h d : 0 < h -> 0 < d < 2 * h -> sin (PI * d / h / 2) <> 0.
Proof.
  intros Hh Hd. assert (0 < sin (PI * d / h / 2)); [|lra]. pose proof PI_RGT_0.
  assert (0 < d / h < 2).
  { split; [apply Rdiv_lt_0_compat; lra|]. apply (Rmult_lt_reg_r h); [lra|]. unfold Rdiv. rewrite Rmult_assoc, Rinv_l by lra. lra. }
  replace (PI * d / h / 2) with (PI * (d / h) / 2) by (field; lra).
  apply sin_gt_0; nra.
Qed.

(** The sum of [cos (j x)] and [sin (j x)] over [j < n]. *)
Lemma cos_sum x n : 2 * sin (x / 2) * Sum n (fun j => cos (INR j * x)) = sin ((INR n - 1 / 2) * x) + sin (x / 2).
Proof.
  unfold Sum. induction n as [|n IH].
  - cbn. rewrite Rmult_0_r. replace ((0 - 1 / 2) * x) with (- (x / 2)) by field. rewrite sin_neg. ring.
  - rewrite seq_snoc, map_app, Rsum_app, Rmult_plus_distr_l, IH. cbn [map plus]. rewrite Rsum_cons. cbn [Rsum fold_right].
    rewrite S_INR. replace ((INR n + 1 - 1 / 2) * x) with (INR n * x + x / 2) by field.
    replace ((INR n - 1 / 2) * x) with (INR n * x - x / 2) by field. rewrite sin_plus, sin_minus. ring.
Qed.
Lemma sin_sum x n : 2 * sin (x / 2) * Sum n (fun j => sin (INR j * x)) = cos (x / 2) - cos ((INR n - 1 / 2) * x).
Proof.
  unfold Sum. induction n as [|n IH].
  - cbn. rewrite Rmult_0_r. replace ((0 - 1 / 2) * x) with (- (x / 2)) by field. rewrite cos_neg. ring.
  - rewrite seq_snoc, map_app, Rsum_app, Rmult_plus_distr_l, IH. cbn [map plus]. rewrite Rsum_cons. cbn [Rsum fold_right].
    rewrite S_INR. replace ((INR n + 1 - 1 / 2) * x) with (INR n * x + x / 2) by field.
    replace ((INR n - 1 / 2) * x) with (INR n * x - x / 2) by field. rewrite cos_plus, cos_minus. ring.
Qed.

Section Ortho.
Variable h : nat.
Hypothesis h_pos : (1 <= h)%nat.
Let H := INR h.
Lemma H_pos : 0 < H.
Proof. unfold H. apply lt_0_INR. lia. Qed.

Definition ang (d : R) : R := PI * d / H.
Lemma ang_turn n : ang (INR n) * (2 * H) = 2 * PI * INR n.
Proof. unfold ang. pose proof H_pos. field. lra. Qed.

(** Over a full period the cosines of a frequency [0 < d < 2 h] cancel. *)
Lemma full_cos d : (0 < d < 2 * h)%nat -> Sum (2 * h) (fun j => cos (INR j * ang (INR d))) = 0.
Proof.
  intros Hd. pose proof H_pos as Hp.
  assert (Hs : sin (ang (INR d) / 2) <> 0).
  { apply sin_half_ne; [exact Hp|]. split; [apply lt_0_INR; lia|]. unfold H. replace (2 * INR h) with (INR (2 * h)) by (rewrite mult_INR; cbn; ring). apply lt_INR; lia. }
  pose proof (cos_sum (ang (INR d)) (2 * h)) as E.
  replace ((INR (2 * h) - 1 / 2) * ang (INR d)) with (ang (INR d) * (2 * H) - ang (INR d) / 2) in E by (rewrite mult_INR; unfold H; cbn; field).
  rewrite ang_turn, sin_minus, sin_2pi_nat, cos_2pi_nat in E.
  assert (2 * sin (ang (INR d) / 2) * Sum (2 * h) (fun j => cos (INR j * ang (INR d))) = 0) by lra.
  destruct (Rmult_integral _ _ H0) as [G|G]; [lra|exact G].
Qed.
Lemma full_sin d : (d <= 2 * h)%nat -> Sum (2 * h) (fun j => sin (INR j * ang (INR d))) = 0.
Proof.
  intros Hd. pose proof H_pos as Hp.
  destruct (Nat.eq_dec d 0) as [->|N0].
  { apply Rsum_zero. intros j _. unfold ang. cbn. replace (INR j * (PI * 0 / H)) with 0 by (field; lra). apply sin_0. }
  destruct (Nat.eq_dec d (2 * h)) as [->|N2].
  { apply Rsum_zero. intros j _. unfold ang. replace (INR j * (PI * INR (2 * h) / H)) with (2 * PI * INR j); [apply sin_2pi_nat|].
    rewrite mult_INR. fold H. cbn. field. lra. }
  assert (Hs : sin (ang (INR d) / 2) <> 0).
  { apply sin_half_ne; [exact Hp|]. split; [apply lt_0_INR; lia|]. unfold H. replace (2 * INR h) with (INR (2 * h)) by (rewrite mult_INR; cbn; ring). apply lt_INR; lia. }
  pose proof (sin_sum (ang (INR d)) (2 * h)) as E.
  replace ((INR (2 * h) - 1 / 2) * ang (INR d)) with (ang (INR d) * (2 * H) - ang (INR d) / 2) in E by (rewrite mult_INR; unfold H; cbn; field).
  rewrite ang_turn, cos_minus, sin_2pi_nat, cos_2pi_nat in E.
  assert (E0 : 2 * sin (ang (INR d) / 2) * Sum (2 * h) (fun j => sin (INR j * ang (INR d))) = 0) by lra.
  destruct (Rmult_integral _ _ E0) as [G|G]; [lra|exact G].
Qed.
Lemma full_one d : d = 0%nat \/ d = (2 * h)%nat -> Sum (2 * h) (fun j => cos (INR j * ang (INR d))) = 2 * H.
Proof.
  intros Hd. pose proof H_pos. unfold Sum. rewrite (Rsum_ext _ (fun _ => 1)).
  - replace (2 * H) with (INR (2 * h)) by (rewrite mult_INR; unfold H; cbn; ring).
    generalize (2 * h)%nat at 1 2 as n. generalize 0%nat. intros s n. revert s. induction n as [|n IH]; intros s; [reflexivity|].
    cbn [seq map]. rewrite Rsum_cons, IH, S_INR. ring.
  - intros j _. destruct Hd as [->| ->].
    + unfold ang. cbn. replace (INR j * (PI * 0 / H)) with 0 by (field; lra). apply cos_0.
    + unfold ang. replace (INR j * (PI * INR (2 * h) / H)) with (2 * PI * INR j); [apply cos_2pi_nat|].
      rewrite mult_INR. fold H. cbn. field. lra.
Qed.

(** The half-spectrum weights: 1 at both ends, 2 inside. *)
Definition wt (k : nat) : R := if Nat.eqb k 0 || Nat.eqb k h then 1 else 2.

Lemma half_split f : Rsum (map (fun k => wt k * f k) (seq 0 (Datatypes.S h))) = f 0%nat + f h + 2 * Sum1 (h - 1) f.
Proof.
  unfold Sum1. replace (Datatypes.S h) with (1 + ((h - 1) + 1))%nat by lia. rewrite !seq_app, !map_app, !Rsum_app. cbn [seq map plus].
  rewrite !Rsum_cons. cbn [Rsum fold_right]. replace (Datatypes.S (h - 1)) with h by lia.
  assert (W0 : wt 0 = 1) by reflexivity. assert (Wh : wt h = 1) by (unfold wt; rewrite Nat.eqb_refl, orb_true_r; reflexivity).
  rewrite W0, Wh. rewrite <- Rsum_scal.
  rewrite (Rsum_ext (fun k => wt k * f k) (fun k => 2 * f k)); [ring|]. intros k Hk. apply in_seq in Hk. unfold wt.
  destruct (Nat.eqb_spec k 0); [lia|]. destruct (Nat.eqb_spec k h); [lia|]. reflexivity.
Qed.

(** The weighted cosines over the half spectrum. *)
Lemma half_cos d : (0 < d < 2 * h)%nat ->
  Rsum (map (fun k => wt k * cos (INR k * ang (INR d))) (seq 0 (Datatypes.S h))) = 0.
Proof.
  intros Hd. rewrite half_split. pose proof H_pos as Hp.
  assert (Hs : sin (ang (INR d) / 2) <> 0).
  { apply sin_half_ne; [exact Hp|]. split; [apply lt_0_INR; lia|]. unfold H. replace (2 * INR h) with (INR (2 * h)) by (rewrite mult_INR; cbn; ring). apply lt_INR; lia. }
  pose proof (cos_sum (ang (INR d)) h) as E. unfold Sum in E.
  replace h with (1 + (h - 1))%nat in E at 1 by lia. rewrite seq_app, map_app, Rsum_app in E. cbn [seq map plus] in E. rewrite Rsum_cons in E.
  cbn [Rsum fold_right] in E. fold (Sum1 (h - 1) (fun j => cos (INR j * ang (INR d)))) in E.
  replace ((INR h - 1 / 2) * ang (INR d)) with (PI * INR d - ang (INR d) / 2) in E by (unfold ang; fold H; field; lra).
  rewrite sin_minus, sin_pi_nat in E. replace (INR 0 * ang (INR d)) with 0 in * by (cbn; ring). rewrite cos_0 in *.
  replace (INR h * ang (INR d)) with (PI * INR d) by (unfold ang; fold H; field; lra).
  apply (Rmult_eq_reg_l (sin (ang (INR d) / 2))); [|exact Hs].
  set (X := Sum1 (h - 1) (fun k : nat => cos (INR k * ang (INR d)))) in *. lra.
Qed.
Lemma half_one : Rsum (map (fun k => wt k * cos (INR k * ang 0)) (seq 0 (Datatypes.S h))) = 2 * H.
Proof.
  rewrite half_split. pose proof H_pos. unfold Sum1, ang.
  rewrite (Rsum_ext _ (fun _ => 1)).
  2:{ intros k _. replace (INR k * (PI * 0 / H)) with 0 by (field; lra). apply cos_0. }
  assert (G : forall s n, Rsum (map (fun _ : nat => 1) (seq s n)) = INR n).
  { intros s n. revert s. induction n as [|n IH]; intros s; [reflexivity|]. cbn [seq map]. rewrite Rsum_cons, IH, S_INR. ring. }
  rewrite G, minus_INR by lia. fold H. cbn [INR].
  replace (0 * (PI * 0 / H)) with 0 by ring. replace (H * (PI * 0 / H)) with 0 by (field; lra).
  rewrite cos_0. ring.
Qed.

(** Both kernels at any difference of indices. *)
Lemma half_kernel l j : (l < 2 * h)%nat -> (j < 2 * h)%nat ->
  Rsum (map (fun k => wt k * cos (INR k * ang (INR l - INR j))) (seq 0 (Datatypes.S h))) = if Nat.eqb l j then 2 * H else 0.
Proof.
  intros Hl Hj. destruct (Nat.eqb_spec l j) as [->|N].
  - replace (INR j - INR j) with 0 by ring. apply half_one.
  - destruct (Nat.lt_ge_cases l j) as [L|L].
    + rewrite <- (half_cos (j - l)) by lia. apply Rsum_ext. intros k _. f_equal. rewrite <- cos_neg. f_equal.
      rewrite minus_INR by lia. unfold ang. field. pose proof H_pos; lra.
    + rewrite <- (half_cos (l - j)) by lia. apply Rsum_ext. intros k _. now rewrite minus_INR by lia.
Qed.

Lemma full_diff q k : (q <= h)%nat -> (k <= h)%nat ->
  Sum (2 * h) (fun j => cos (INR j * ang (INR q - INR k))) = if Nat.eqb q k then 2 * H else 0.
Proof.
  intros Hq Hk. destruct (Nat.eqb_spec q k) as [->|N].
  - replace (INR k - INR k) with (INR 0) by (cbn; ring). now apply full_one; left.
  - destruct (Nat.lt_ge_cases q k) as [L|L].
    + rewrite <- (full_cos (k - q)) by lia. apply Rsum_ext. intros j _. rewrite <- cos_neg. f_equal.
      rewrite minus_INR by lia. unfold ang. field. pose proof H_pos; lra.
    + rewrite <- (full_cos (q - k)) by lia. apply Rsum_ext. intros j _. now rewrite minus_INR by lia.
Qed.
Lemma full_sum q k : (q <= h)%nat -> (k <= h)%nat ->
  Sum (2 * h) (fun j => cos (INR j * ang (INR q + INR k))) =
  if (Nat.eqb q k && (Nat.eqb k 0 || Nat.eqb k h))%bool then 2 * H else 0.
Proof.
  intros Hq Hk. rewrite <- plus_INR.
  destruct (Nat.eqb_spec q k) as [->|N]; cbn [andb].
  - destruct (Nat.eqb_spec k 0) as [->|N0]; cbn [orb]; [now apply full_one; left|].
    destruct (Nat.eqb_spec k h) as [->|Nh]; [apply full_one; right; lia|]. apply full_cos. lia.
  - apply full_cos. lia.
Qed.
Lemma full_sin_sum q k : (q <= h)%nat -> (k <= h)%nat -> Sum (2 * h) (fun j => sin (INR j * ang (INR q + INR k))) = 0.
Proof. intros Hq Hk. rewrite <- plus_INR. apply full_sin. lia. Qed.
Lemma full_sin_diff q k : (q <= h)%nat -> (k <= h)%nat -> Sum (2 * h) (fun j => sin (INR j * ang (INR q - INR k))) = 0.
Proof.
  intros Hq Hk. destruct (Nat.lt_ge_cases q k) as [L|L].
  - replace (Sum (2 * h) (fun j => sin (INR j * ang (INR q - INR k)))) with (- Sum (2 * h) (fun j => sin (INR j * ang (INR (k - q))))).
    + rewrite full_sin by lia. ring.
    + unfold Sum. replace (- Rsum (map (fun j => sin (INR j * ang (INR (k - q)))) (seq 0 (2 * h))))
        with (-1 * Rsum (map (fun j => sin (INR j * ang (INR (k - q)))) (seq 0 (2 * h)))) by ring.
      rewrite <- Rsum_scal. apply Rsum_ext. intros j _. rewrite minus_INR by lia.
      replace (ang (INR q - INR k)) with (- ang (INR k - INR q)) by (unfold ang; field; pose proof H_pos; lra).
      replace (INR j * - ang (INR k - INR q)) with (- (INR j * ang (INR k - INR q))) by ring. rewrite sin_neg. ring.
  - rewrite <- minus_INR by lia. apply full_sin. lia.
Qed.

(** * The inverse transform, with uniform weights *)
Lemma inv_sample_eq A j : inv_sample h A j =
  Rsum (map (fun k => wt k * (Re (nth k A (RtoC 0)) * cos (INR k * ang (INR j)) -
                              Im (nth k A (RtoC 0)) * sin (INR k * ang (INR j)))) (seq 0 (Datatypes.S h))) / (2 * H).
Proof.
  unfold inv_sample. fold H. f_equal. rewrite half_split. pose proof H_pos as Hp.
  replace (INR h * ang (INR j)) with (PI * INR j) by (unfold ang; fold H; field; lra).
  rewrite sin_pi_nat. replace (INR 0 * ang (INR j)) with 0 by (cbn; ring). rewrite cos_0, sin_0.
  rewrite !Rmult_0_r, !Rmult_1_r, !Rminus_0_r. rewrite (Rmult_comm (cos (PI * INR j))). f_equal. f_equal.
  unfold Sum1. apply Rsum_ext. intros k _.
  replace (PI * INR j * INR k / H) with (INR k * ang (INR j)) by (unfold ang; field; lra). reflexivity.
Qed.

Lemma dft_eq xs k : dft (2 * h) xs k =
  (Sum (2 * h) (fun j => nth j xs 0 * cos (INR j * ang (INR k))), - Sum (2 * h) (fun j => nth j xs 0 * sin (INR j * ang (INR k)))).
Proof.
  pose proof H_pos. unfold dft, Sum.
  assert (E : forall j, 2 * PI * INR j * INR k / INR (2 * h) = INR j * ang (INR k)).
  { intros j. rewrite mult_INR. fold H. unfold ang. cbn. field. lra. }
  f_equal; [|f_equal]; apply Rsum_ext; intros j _; now rewrite E.
Qed.

Theorem inverse_of_transform xs j : (j < 2 * h)%nat ->
  inv_sample h (map (dft (2 * h) xs) (seq 0 (Datatypes.S h))) j = nth j xs 0.
Proof.
  intros Hj. rewrite inv_sample_eq. pose proof H_pos as Hp.
  assert (E : forall k, In k (seq 0 (Datatypes.S h)) ->
    wt k * (Re (nth k (map (dft (2 * h) xs) (seq 0 (Datatypes.S h))) (RtoC 0)) * cos (INR k * ang (INR j)) -
            Im (nth k (map (dft (2 * h) xs) (seq 0 (Datatypes.S h))) (RtoC 0)) * sin (INR k * ang (INR j))) =
    Rsum (map (fun l => nth l xs 0 * (wt k * cos (INR k * ang (INR l - INR j)))) (seq 0 (2 * h)))).
  { intros k Hk. apply in_seq in Hk.
    rewrite (nth_indep _ (RtoC 0) (dft (2 * h) xs 0)) by (rewrite map_length, seq_length; lia).
    rewrite map_nth, seq_nth by lia. cbn [plus]. rewrite dft_eq. cbn [Re Im fst snd].
    unfold Sum. 
    rewrite (Rsum_ext (fun l => nth l xs 0 * (wt k * cos (INR k * ang (INR l - INR j))))
      (fun l => wt k * (cos (INR k * ang (INR j)) * (nth l xs 0 * cos (INR l * ang (INR k))) +
                        sin (INR k * ang (INR j)) * (nth l xs 0 * sin (INR l * ang (INR k)))))).
    - rewrite Rsum_scal, Rsum_plus, !Rsum_scal. ring.
    - intros l _. replace (INR k * ang (INR l - INR j)) with (INR l * ang (INR k) - INR k * ang (INR j)) by (unfold ang; field; lra).
      rewrite cos_minus. ring. }
  rewrite (Rsum_ext _ _ _ E), Rsum_swap.
  rewrite (Rsum_ext _ (fun l => if Nat.eqb l j then nth l xs 0 * (2 * H) else 0)).
  - rewrite (Rsum_pick (fun l => nth l xs 0 * (2 * H))); [field; lra|apply seq_NoDup|apply in_seq; lia].
  - intros l Hl. apply in_seq in Hl. rewrite Rsum_scal, half_kernel by lia. destruct (Nat.eqb l j); ring.
Qed.

(** The transform of an inverse: everything but the imaginary parts at both ends. *)
Theorem transform_of_inverse A k : (k <= h)%nat ->
  dft (2 * h) (map (inv_sample h A) (seq 0 (2 * h))) k =
  (Re (nth k A (RtoC 0)), if Nat.eqb k 0 || Nat.eqb k h then 0 else Im (nth k A (RtoC 0))).
Proof.
  intros Hk. rewrite dft_eq. pose proof H_pos as Hp.
  set (a := fun q => Re (nth q A (RtoC 0))). set (b := fun q => Im (nth q A (RtoC 0))).
  assert (E : forall g : nat -> R, Sum (2 * h) (fun j => nth j (map (inv_sample h A) (seq 0 (2 * h))) 0 * g j) =
     Rsum (map (fun q => wt q / (2 * H) * (a q * Sum (2 * h) (fun j => cos (INR j * ang (INR q)) * g j) -
                                           b q * Sum (2 * h) (fun j => sin (INR j * ang (INR q)) * g j))) (seq 0 (Datatypes.S h)))).
  { intros g.
    rewrite (Rsum_ext (fun q => wt q / (2 * H) * (a q * Sum (2 * h) (fun j => cos (INR j * ang (INR q)) * g j) -
                                           b q * Sum (2 * h) (fun j => sin (INR j * ang (INR q)) * g j)))
      (fun q => Sum (2 * h) (fun j => wt q / (2 * H) * (a q * cos (INR j * ang (INR q)) - b q * sin (INR j * ang (INR q))) * g j))).
    - unfold Sum. rewrite Rsum_swap. apply Rsum_ext. intros j Hj. apply in_seq in Hj.
      rewrite (nth_indep _ 0 (inv_sample h A 0)) by (rewrite map_length, seq_length; lia).
      rewrite map_nth, seq_nth by lia. cbn [plus]. rewrite inv_sample_eq. unfold Rdiv. rewrite Rmult_assoc, (Rmult_comm _ (/ (2 * H) * g j)).
      rewrite <- Rsum_scal. apply Rsum_ext. intros q _. fold (a q) (b q).
      replace (INR q * ang (INR j)) with (INR j * ang (INR q)) by (unfold ang; field; lra). ring.
    - intros q _. unfold Sum. replace (a q * Rsum (map (fun j => cos (INR j * ang (INR q)) * g j) (seq 0 (2 * h))) -
        b q * Rsum (map (fun j => sin (INR j * ang (INR q)) * g j) (seq 0 (2 * h)))) with
        (a q * Rsum (map (fun j => cos (INR j * ang (INR q)) * g j) (seq 0 (2 * h))) +
        - b q * Rsum (map (fun j => sin (INR j * ang (INR q)) * g j) (seq 0 (2 * h)))) by ring.
      rewrite <- !Rsum_scal, <- Rsum_plus, <- Rsum_scal. apply Rsum_ext. intros j _. ring. }
  assert (CC : forall q, (q <= h)%nat -> Sum (2 * h) (fun j => cos (INR j * ang (INR q)) * cos (INR j * ang (INR k))) =
      ((if Nat.eqb q k then 2 * H else 0) + (if (Nat.eqb q k && (Nat.eqb k 0 || Nat.eqb k h))%bool then 2 * H else 0)) / 2).
  { intros q Hq. rewrite <- full_diff, <- full_sum by lia. unfold Sum. rewrite <- Rsum_plus. unfold Rdiv. rewrite Rmult_comm, <- Rsum_scal.
    apply Rsum_ext. intros j _. replace (INR j * ang (INR q - INR k)) with (INR j * ang (INR q) - INR j * ang (INR k)) by (unfold ang; field; lra).
    replace (INR j * ang (INR q + INR k)) with (INR j * ang (INR q) + INR j * ang (INR k)) by (unfold ang; field; lra).
    rewrite cos_minus, cos_plus. field. }
  assert (SS : forall q, (q <= h)%nat -> Sum (2 * h) (fun j => sin (INR j * ang (INR q)) * sin (INR j * ang (INR k))) =
      ((if Nat.eqb q k then 2 * H else 0) - (if (Nat.eqb q k && (Nat.eqb k 0 || Nat.eqb k h))%bool then 2 * H else 0)) / 2).
  { intros q Hq. rewrite <- full_diff, <- full_sum by lia. unfold Sum.
    replace (Rsum (map (fun j => cos (INR j * ang (INR q - INR k))) (seq 0 (2 * h))) - Rsum (map (fun j => cos (INR j * ang (INR q + INR k))) (seq 0 (2 * h))))
      with (Rsum (map (fun j => cos (INR j * ang (INR q - INR k))) (seq 0 (2 * h))) + -1 * Rsum (map (fun j => cos (INR j * ang (INR q + INR k))) (seq 0 (2 * h)))) by ring.
    rewrite <- Rsum_scal, <- Rsum_plus. unfold Rdiv. rewrite Rmult_comm, <- Rsum_scal.
    apply Rsum_ext. intros j _. replace (INR j * ang (INR q - INR k)) with (INR j * ang (INR q) - INR j * ang (INR k)) by (unfold ang; field; lra).
    replace (INR j * ang (INR q + INR k)) with (INR j * ang (INR q) + INR j * ang (INR k)) by (unfold ang; field; lra).
    rewrite cos_minus, cos_plus. field. }
  assert (SC : forall q, (q <= h)%nat -> Sum (2 * h) (fun j => sin (INR j * ang (INR q)) * cos (INR j * ang (INR k))) = 0).
  { intros q Hq. replace 0 with ((Sum (2 * h) (fun j => sin (INR j * ang (INR q + INR k))) + Sum (2 * h) (fun j => sin (INR j * ang (INR q - INR k)))) / 2)
      by (rewrite full_sin_sum, full_sin_diff by lia; field).
    unfold Sum. rewrite <- Rsum_plus. unfold Rdiv. rewrite Rmult_comm, <- Rsum_scal. apply Rsum_ext. intros j _.
    replace (INR j * ang (INR q - INR k)) with (INR j * ang (INR q) - INR j * ang (INR k)) by (unfold ang; field; lra).
    replace (INR j * ang (INR q + INR k)) with (INR j * ang (INR q) + INR j * ang (INR k)) by (unfold ang; field; lra).
    rewrite sin_minus, sin_plus. field. }
  assert (CS : forall q, (q <= h)%nat -> Sum (2 * h) (fun j => cos (INR j * ang (INR q)) * sin (INR j * ang (INR k))) = 0).
  { intros q Hq. replace 0 with ((Sum (2 * h) (fun j => sin (INR j * ang (INR q + INR k))) - Sum (2 * h) (fun j => sin (INR j * ang (INR q - INR k)))) / 2)
      by (rewrite full_sin_sum, full_sin_diff by lia; field).
    unfold Sum. replace (Rsum (map (fun j => sin (INR j * ang (INR q + INR k))) (seq 0 (2 * h))) - Rsum (map (fun j => sin (INR j * ang (INR q - INR k))) (seq 0 (2 * h))))
      with (Rsum (map (fun j => sin (INR j * ang (INR q + INR k))) (seq 0 (2 * h))) + -1 * Rsum (map (fun j => sin (INR j * ang (INR q - INR k))) (seq 0 (2 * h)))) by ring.
    rewrite <- Rsum_scal, <- Rsum_plus. unfold Rdiv. rewrite Rmult_comm, <- Rsum_scal. apply Rsum_ext. intros j _.
    replace (INR j * ang (INR q - INR k)) with (INR j * ang (INR q) - INR j * ang (INR k)) by (unfold ang; field; lra).
    replace (INR j * ang (INR q + INR k)) with (INR j * ang (INR q) + INR j * ang (INR k)) by (unfold ang; field; lra).
    rewrite sin_minus, sin_plus. field. }
  assert (Wk : wt k = if Nat.eqb k 0 || Nat.eqb k h then 1 else 2) by reflexivity.
  f_equal.
  - rewrite E. rewrite (Rsum_ext _ (fun q => if Nat.eqb q k then a q else 0)).
    + rewrite (Rsum_pick a); [reflexivity|apply seq_NoDup|apply in_seq; lia].
    + intros q Hq. apply in_seq in Hq. rewrite CC, SC by lia. destruct (Nat.eqb_spec q k) as [->|N]; cbn [andb]; [|field; lra].
      rewrite Wk. destruct (Nat.eqb k 0 || Nat.eqb k h)%bool; field; lra.
  - rewrite E. rewrite (Rsum_ext _ (fun q => if Nat.eqb q k then (if Nat.eqb q 0 || Nat.eqb q h then 0 else - b q) else 0)).
    + rewrite (Rsum_pick (fun q => if Nat.eqb q 0 || Nat.eqb q h then 0 else - b q)); [|apply seq_NoDup|apply in_seq; lia].
      destruct (Nat.eqb k 0 || Nat.eqb k h)%bool; unfold b; ring.
    + intros q Hq. apply in_seq in Hq. rewrite SS, CS by lia. destruct (Nat.eqb_spec q k) as [->|N]; cbn [andb]; [|field; lra].
      rewrite Wk. destruct (Nat.eqb k 0 || Nat.eqb k h)%bool; field; lra.
Qed.
End Ortho.
