(** Accuracy of branch weights computed in binary64: C152. *)
From Coq Require Import Qreals Permutation.
From Flocq Require Import Core.
From Verif Require Import Common Model.Curve Model.Layer Model.LogicTree Model.Rounded Model.RoundedTree Spec.LogicTreeSpec
  Spec.RoundSpec Spec.RoundTreeSpec Proof.CommonFacts Proof.RoundFacts Proof.RoundProfile Proof.RoundToro Proof.LogicTreeProps.
From Coq Require Import String List.
Import ListNotations.
Local Open Scope R_scope.

Notation u := half_ulp.
Lemma u_bounds : 0 < u <= 1 / 8.
Proof. split; [apply half_ulp_pos|apply half_ulp_small]. Qed.

(** [x] is [X] up to [n] roundings. *)
Definition near (n : nat) (x X : R) : Prop := X * (1 - u) ^ n <= x <= X * (1 + u) ^ n.

Lemma low_pos n : 0 < (1 - u) ^ n <= 1.
Proof.
  pose proof u_bounds. split; [apply pow_lt; lra|]. apply (Rle_trans _ (1 ^ n)); [apply pow_incr; lra|rewrite pow1; lra].
Qed.
Lemma high_pos n : 1 <= (1 + u) ^ n.
Proof. pose proof u_bounds. apply pow_R1_Rle. lra. Qed.
Lemma both_sides n : 2 <= (1 - u) ^ n + (1 + u) ^ n.
Proof.
  pose proof u_bounds. induction n as [|n IH]; [cbn; lra|]. cbn [pow].
  pose proof (low_pos n). pose proof (high_pos n). nra.
Qed.
Lemma near_within n x X : 0 <= X -> near n x X -> within_error n x X.
Proof.
  intros H [H1 H2]. unfold within_error, roundings. pose proof (both_sides n). apply Rabs_le. split; nra.
Qed.
Lemma near_more n m x X : 0 <= X -> (n <= m)%nat -> near n x X -> near m x X.
Proof.
  intros H L [H1 H2]. replace m with (n + (m - n))%nat by lia. unfold near. rewrite !pow_add.
  pose proof (low_pos n). pose proof (high_pos n). pose proof (low_pos (m - n)). pose proof (high_pos (m - n)).
  assert (0 <= X * (1 - u) ^ n) by (apply Rmult_le_pos; lra). assert (0 <= X * (1 + u) ^ n) by (apply Rmult_le_pos; lra).
  rewrite <- !Rmult_assoc. split; nra.
Qed.
Lemma near_mult n m x X y Y : 0 <= X -> 0 <= Y -> near n x X -> near m y Y -> near (n + m) (x * y) (X * Y).
Proof.
  intros HX HY [A1 A2] [B1 B2]. unfold near. rewrite !pow_add. pose proof (low_pos n). pose proof (low_pos m).
  assert (0 <= X * (1 - u) ^ n) by (apply Rmult_le_pos; lra). assert (0 <= Y * (1 - u) ^ m) by (apply Rmult_le_pos; lra).
  split.
  - replace (X * Y * ((1 - u) ^ n * (1 - u) ^ m)) with ((X * (1 - u) ^ n) * (Y * (1 - u) ^ m)) by ring. apply Rmult_le_compat; assumption.
  - replace (X * Y * ((1 + u) ^ n * (1 + u) ^ m)) with ((X * (1 + u) ^ n) * (Y * (1 + u) ^ m)) by ring. apply Rmult_le_compat; lra.
Qed.
Lemma near_add n x X y Y : near n x X -> near n y Y -> near n (x + y) (X + Y).
Proof. intros [A1 A2] [B1 B2]. unfold near. split; lra. Qed.
Lemma near_step n x X r : 0 <= X -> near n x X -> 0 <= x -> Rabs (r - x) <= u * Rabs x -> near (S n) r X.
Proof.
  intros HX [A1 A2] P H. rewrite (Rabs_pos_eq x) in H by exact P. apply Rabs_le_inv in H || apply Rcomplements.Rabs_le_between in H.
  pose proof u_bounds. unfold near. cbn [pow]. pose proof (low_pos n). split; nra.
Qed.

Definition Rprod (xs : list R) : R := fold_right Rmult 1 xs.
Lemma Rprod_app xs ys : Rprod (xs ++ ys) = Rprod xs * Rprod ys.
Proof. unfold Rprod. induction xs as [|x xs IH]; cbn; [ring|]. rewrite IH. ring. Qed.
Lemma Rprod_perm xs ys : Permutation xs ys -> Rprod xs = Rprod ys.
Proof. unfold Rprod. induction 1; cbn; try congruence; ring. Qed.
Lemma Rsum_perm xs ys : Permutation xs ys -> Rsum xs = Rsum ys.
Proof. induction 1; rewrite ?Rsum_cons in *; cbn in *; lra. Qed.
Lemma Rprod_unit xs : Forall (fun x => 0 < x <= 1) xs -> 0 < Rprod xs <= 1.
Proof. unfold Rprod. induction 1 as [|x xs Hx _ IH]; cbn; [lra|nra]. Qed.

Lemma many_roundings n : (n < 2 ^ 50)%nat -> / 2 <= (1 - u) ^ n.
Proof.
  intros H. assert (B : 1 - INR n * u <= (1 - u) ^ n).
  { clear H. pose proof u_bounds. induction n as [|n IH]; [cbn; lra|]. rewrite S_INR. cbn [pow].
    pose proof (low_pos n). pose proof (pos_INR n). nra. }
  assert (P : INR n <= 2 ^ 50).
  { apply lt_INR in H. rewrite pow_INR in H. cbn [INR] in H. replace (1 + 1) with 2 in H by ring. lra. }
  assert (Q : 2 ^ 50 * u <= / 2). { unfold half_ulp. replace (2 ^ 53) with (2 ^ 50 * 8) by (rewrite <- (Rmult_1_r (2 ^ 50)) at 1; change 53%nat with (50 + 3)%nat; rewrite pow_add; ring).
    assert (0 < 2 ^ 50) by (apply pow_lt; lra). rewrite Rinv_mult_distr by lra. rewrite <- Rmult_assoc, Rinv_r by lra. lra. }
  pose proof u_bounds. nra.
Qed.

Lemma two_1000 : 2 * / 2 ^ 1022 <= / 2 ^ 1000.
Proof.
  replace 1022%nat with (1000 + 22)%nat by reflexivity. rewrite pow_add. generalize (pow_lt 2 1000 ltac:(lra)). generalize (2 ^ 1000). intros t Ht.
  rewrite Rinv_mult_distr by (try lra; apply pow_nonzero; lra). assert (0 < / t) by now apply Rinv_0_lt_compat. assert (/ 2 ^ 22 <= / 2) by (apply Rinv_le_contravar; cbn; lra). nra.
Qed.

(** A product in any order. *)
Lemma product_near xs p : reduction (fun x y => b64 (x * y)) xs p ->
  Forall (fun x => is_b64 x /\ 0 < x <= 1) xs -> / 2 ^ 1000 <= Rprod xs -> (length xs < 2 ^ 50)%nat ->
  near (length xs - 1) p (Rprod xs) /\ is_b64 p /\ (1 <= length xs)%nat.
Proof.
  induction 1 as [x|xs ys zs x y HP _ IX _ IY]; intros HF HL HN.
  - split; [|split; [apply (Forall_inv HF)|cbn; lia]]. unfold near, Rprod. cbn. lra.
  - assert (HF' : Forall (fun x => is_b64 x /\ 0 < x <= 1) (xs ++ ys)) by (eapply Permutation_Forall; eauto).
    apply Forall_app in HF'. destruct HF' as [FX FY].
    assert (UX : Forall (fun x => 0 < x <= 1) xs) by (eapply Forall_impl; [|exact FX]; intros ? [_ K]; exact K).
    assert (UY : Forall (fun x => 0 < x <= 1) ys) by (eapply Forall_impl; [|exact FY]; intros ? [_ K]; exact K).
    pose proof (Rprod_unit xs UX) as PX. pose proof (Rprod_unit ys UY) as PY.
    pose proof (Permutation_length HP) as EL. rewrite app_length in EL.
    rewrite (Rprod_perm _ _ HP), Rprod_app in HL |- *.
    assert (LX : / 2 ^ 1000 <= Rprod xs) by nra. assert (LY : / 2 ^ 1000 <= Rprod ys) by nra.
    assert (BX : (length xs < 2 ^ 50)%nat) by (apply (Nat.le_lt_trans _ (length zs)); [lia|exact HN]).
    assert (BY : (length ys < 2 ^ 50)%nat) by (apply (Nat.le_lt_trans _ (length zs)); [lia|exact HN]).
    destruct (IX FX LX BX) as (NX & _ & CX). destruct (IY FY LY BY) as (NY & _ & CY).
    pose proof (near_mult _ _ _ _ _ _ (Rlt_le _ _ (proj1 PX)) (Rlt_le _ _ (proj1 PY)) NX NY) as NM.
    assert (PP : 0 <= Rprod xs * Rprod ys) by nra.
    assert (LM : / 2 ^ 1022 <= x * y).
    { destruct NM as [NM _]. assert (BM : (length xs - 1 + (length ys - 1) < 2 ^ 50)%nat) by (apply (Nat.le_lt_trans _ (length zs)); [lia|exact HN]). pose proof (many_roundings _ BM) as MR. pose proof two_1000. nra. }
    pose proof min_pos as MP.
    split; [|split; [apply b64_is|lia]]. replace (length zs - 1)%nat with (S (length xs - 1 + (length ys - 1))) by lia.
    apply (near_step _ (x * y)); [exact PP|exact NM|lra|]. apply b64_rel. right. rewrite Rabs_pos_eq; lra.
Qed.

(** A sum in any order. *)
Lemma sum_near m xs s : reduction (fun x y => b64 (x + y)) xs s -> forall XS,
  Forall2 (fun x X => near m x X /\ 0 <= X /\ is_b64 x) xs XS ->
  near (m + (length xs - 1)) s (Rsum XS) /\ is_b64 s /\ (1 <= length xs)%nat /\ 0 <= Rsum XS.
Proof.
  induction 1 as [x|xs ys zs x y HP _ IX _ IY]; intros XS HF.
  - inversion HF as [|? X ? ? (H1 & H2 & H3) HF']; subst. inversion HF'; subst.
    replace (Rsum [X]) with X by (unfold Rsum; cbn; ring). cbn [length]. replace (m + (1 - 1))%nat with m by lia. repeat (split; try assumption; try lia).
  - destruct (Permutation_Forall2 HP HF) as (XS' & HP' & HF'). apply Forall2_app_inv_l in HF'. destruct HF' as (XA & XB & FA & FB & ->).
    destruct (IX XA FA) as (N1 & B1 & L1 & P1). destruct (IY XB FB) as (N2 & B2 & L2 & P2).
    pose proof (Permutation_length HP) as EL. rewrite app_length in EL. rewrite (Rsum_perm _ _ HP'), Rsum_app.
    assert (NA : near (m + (length xs - 1 + (length ys - 1))) (x + y) (Rsum XA + Rsum XB)).
    { apply near_add; (eapply near_more; [| |eassumption]; [assumption|lia]). }
    assert (P : 0 <= x + y). { destruct NA as [NA _]. pose proof (low_pos (m + (length xs - 1 + (length ys - 1)))). nra. }
    split; [|split; [apply b64_is|split; [lia|lra]]]. replace (m + (length zs - 1))%nat with (S (m + (length xs - 1 + (length ys - 1)))) by lia.
    apply (near_step _ (x + y)); [lra|exact NA|exact P|]. now apply b64_add.
Qed.

Lemma Q2R_fold b : forall acc, Q2R (fold_left (fun acc p => Qmult acc (r_weight (snd p))) b acc)
  = Q2R acc * Rprod (map (fun p : string * realization => Q2R (r_weight (snd p))) b).
Proof.
  induction b as [|p b IH]; intros acc; cbn; [unfold Rprod; cbn; ring|]. rewrite IH, Q2R_mult. unfold Rprod. cbn. ring.
Qed.
Lemma Q2R_weight b : Q2R (branch_weight b) = Rprod (map (fun p : string * realization => Q2R (r_weight (snd p))) b).
Proof. unfold branch_weight. rewrite Q2R_fold. replace (Q2R 1) with 1 by (unfold Q2R; cbn; lra). ring. Qed.
Lemma Q2R_Qsum qs : Q2R (Qsum qs) = Rsum (map Q2R qs).
Proof. induction qs as [|q qs IH]; [unfold Q2R; cbn; lra|]. cbn [Qsum map]. rewrite Q2R_plus, IH, Rsum_cons. reflexivity. Qed.

Lemma branch_factors nodes b c : float_weights nodes -> shows b c -> choice_of nodes c ->
  length b = length nodes /\
  Forall (fun x => is_b64 x /\ 0 < x <= 1) (map (fun p : string * realization => Q2R (r_weight (snd p))) b).
Proof.
  intros HW HS HC. unfold shows in HS. unfold choice_of in HC. revert b HS.
  induction HC as [|n q nodes c (_ & HI & HP) _ IH]; intros b HS; inversion HS as [|p ? b' ? E HS']; subst; [split; [reflexivity|constructor]|].
  inversion HW as [|? ? HN HW']; subst. destruct (IH HW' b' HS') as [IL IF].
  split; [cbn; now rewrite IL|]. cbn [map]. constructor; [|exact IF].
  destruct E as (_ & _ & _ & -> & _). rewrite Forall_forall in HN. destruct (HN _ HI) as [HB HL].
  split; [exact HB|]. apply Qlt_Rlt in HP. apply Qle_Rle in HL. unfold Q2R in HP at 1. cbn in HP. replace (Q2R 1) with 1 in HL by (unfold Q2R; cbn; lra). lra.
Qed.

(** C152: one branch. *)
Lemma branch_weight_rounded nodes bs oe b w : NoDup (map n_name nodes) -> float_weights nodes -> (length nodes < 2 ^ 50)%nat ->
  tree_iter nodes = (bs, oe) -> In b bs -> / 2 ^ 1000 <= Q2R (branch_weight b) -> branch_weight_r b w ->
  near (length nodes - 1) w (Q2R (branch_weight b)) /\ is_b64 w /\ 0 < w.
Proof.
  intros ND HW HN HT HB HL HR. destruct (proj1 (tree_iteration_sound nodes bs oe ND HT) b HB) as (c & HS & HC & _).
  destruct (branch_factors nodes b c HW HS HC) as [EL HF]. rewrite Q2R_weight in HL |- *.
  destruct HR as [[E ->]|HR].
  - rewrite E in *. apply map_eq_nil in E. subst b. cbn in EL. rewrite <- EL. split; [unfold near, Rprod; cbn; lra|]. split; [|lra].
    replace 1 with (IZR 1 / 2 ^ 0) by (cbn; lra). apply is_b64_div; [reflexivity|lia].
  - assert (HN' : (length (map (fun p : string * realization => Q2R (r_weight (snd p))) b) < 2 ^ 50)%nat) by (rewrite map_length, EL; exact HN).
    destruct (product_near _ _ HR HF HL HN') as (H1 & H2 & _). rewrite map_length, EL in H1. split; [exact H1|]. split; [exact H2|].
    destruct H1 as [H1 _]. pose proof (low_pos (length nodes - 1)). assert (0 < / 2 ^ 1000) by (apply Rinv_0_lt_compat, pow_lt; lra). nra.
Qed.

Lemma branch_accurate nodes bs oe b w : NoDup (map n_name nodes) -> float_weights nodes -> (length nodes < 2 ^ 50)%nat ->
  tree_iter nodes = (bs, oe) -> In b bs -> ordinary_weight b -> branch_weight_r b w ->
  0 < w /\ within_error (length nodes - 1) w (Q2R (branch_weight b)).
Proof.
  intros ND HW HN HT HB HL HR. destruct (branch_weight_rounded nodes bs oe b w ND HW HN HT HB HL HR) as (H1 & _ & H3).
  split; [exact H3|]. apply near_within; [|exact H1]. unfold ordinary_weight in HL.
  assert (0 < / 2 ^ 1000) by (apply Rinv_0_lt_compat, pow_lt; lra). lra.
Qed.

(** C152: the sum over the branches. *)
Lemma total_accurate nodes bs oe ws s : NoDup (map n_name nodes) -> float_weights nodes -> (length nodes < 2 ^ 50)%nat ->
  tree_iter nodes = (bs, oe) -> Forall ordinary_weight bs -> Forall2 branch_weight_r bs ws -> float_sum ws s ->
  within_error (length nodes - 1 + (length bs - 1)) s (Q2R (Qsum (map branch_weight bs))).
Proof.
  intros ND HW HN HT HL H2 HS.
  assert (F : Forall2 (fun x X => near (length nodes - 1) x X /\ 0 <= X /\ is_b64 x) ws (map (fun b => Q2R (branch_weight b)) bs)).
  { assert (HI : forall b, In b bs -> In b bs) by auto. revert HI HL H2. generalize bs at 1 3 4 5 as cs. intros cs; revert ws HS.
    intros ws0 _; revert ws0. induction cs as [|b cs IH]; intros ws' HI HL H2; inversion H2; subst; cbn; constructor.
    - inversion HL; subst. destruct (branch_weight_rounded nodes bs oe b y ND HW HN HT (HI b (or_introl eq_refl)) ltac:(assumption) ltac:(assumption)) as (K1 & K2 & _).
      split; [exact K1|split; [|exact K2]]. unfold ordinary_weight in *. assert (0 < / 2 ^ 1000) by (apply Rinv_0_lt_compat, pow_lt; lra). lra.
    - inversion HL; subst. apply IH; try assumption. intros c Hc. apply HI. now right. }
  rewrite Q2R_Qsum, map_map. assert (EL : length bs = length ws) by (clear - H2; induction H2; cbn; congruence). destruct HS as [[-> ->]|HS].
  - inversion F as [E|]. cbn. unfold within_error. rewrite Rminus_0_r, Rabs_R0, Rmult_0_r. lra.
  - destruct (sum_near _ _ _ HS _ F) as (K1 & _ & _ & K4). rewrite EL. now apply near_within.
Qed.

(** The order that multiplies (or adds) from left to right is one of them. *)
Lemma left_to_right op x xs : reduction op (x :: xs) (fold_left op xs x).
Proof.
  induction xs as [|y xs IH] using rev_ind; [apply red_one|]. rewrite fold_left_app. cbn [fold_left].
  apply (red_join op (x :: xs) [y]); [apply Permutation_refl|exact IH|apply red_one].
Qed.

(** C152: a product far below the smallest number is zero. *)
Lemma b64_tiny : b64 (/ 2 ^ 600 * / 2 ^ 600) = 0.
Proof.
  rewrite <- Rinv_mult_distr by (apply pow_nonzero; lra). rewrite <- pow_add, <- bpow_neg.
  unfold b64. apply round_N_small_pos with (ex := (- Z.of_nat (600 + 600) + 1)%Z); [|unfold FLT_exp; lia].
  split; [replace (- Z.of_nat (600 + 600) + 1 - 1)%Z with (- Z.of_nat (600 + 600))%Z by lia; apply Rle_refl|apply bpow_lt; lia].
Qed.
Definition tiny : Q := Qmake 1 (2 ^ 600).
Lemma tiny_value : Q2R tiny = / 2 ^ 600.
Proof.
  unfold Q2R, tiny. cbn [Qnum Qden]. rewrite Rmult_1_l. f_equal. rewrite pow_IZR. apply f_equal. 
  rewrite Pos2Z.inj_pow. reflexivity.
Qed.
Lemma reduction_pair op x y w : reduction op [x; y] w -> (forall a b, op a b = op b a) -> w = op x y.
Proof.
  intros H C. inversion H as [|xs ys zs a b HP HX HY]; subst.
  assert (L1 : (1 <= length xs)%nat) by (clear - HX; induction HX; [cbn; lia|]; match goal with K : Permutation _ _ |- _ => apply Permutation_length in K; rewrite app_length in K end; lia).
  assert (L2 : (1 <= length ys)%nat) by (clear - HY; induction HY; [cbn; lia|]; match goal with K : Permutation _ _ |- _ => apply Permutation_length in K; rewrite app_length in K end; lia).
  pose proof (Permutation_length HP) as E. rewrite app_length in E. cbn in E.
  destruct xs as [|p [|]]; cbn in L1, E; try lia. destruct ys as [|q [|]]; cbn in L2, E; try lia.
  assert (single : forall p z, reduction op [p] z -> z = p).
  { clear. intros p z H. inversion H as [|xs ys zs a b HP HX HY]; subst; [reflexivity|]. exfalso.
    assert (L1 : (1 <= length xs)%nat) by (clear - HX; induction HX; [cbn; lia|]; match goal with K : Permutation _ _ |- _ => apply Permutation_length in K; rewrite app_length in K end; lia).
    assert (L2 : (1 <= length ys)%nat) by (clear - HY; induction HY; [cbn; lia|]; match goal with K : Permutation _ _ |- _ => apply Permutation_length in K; rewrite app_length in K end; lia).
    pose proof (Permutation_length HP) as E. rewrite app_length in E. cbn in E. lia. }
  rewrite (single _ _ HX), (single _ _ HY). apply Permutation_length_2_inv in HP. cbn in HP. destruct HP as [K|K]; injection K as -> ->; [reflexivity|apply C].
Qed.
Lemma weight_underflow : exists nodes b, tree_wf nodes /\ float_weights nodes /\ tree_iter nodes = ([b], None) /\
  Qlt 0 (branch_weight b) /\ forall w, branch_weight_r b w -> w = 0.
Proof.
  set (alt := mkAlt (VInt 1) tiny [] []).
  exists [mkNode "a" [alt]; mkNode "b" [alt]].
  exists [("a"%string, mkReal "a" (VInt 1) tiny [] []); ("b"%string, mkReal "b" (VInt 1) tiny [] [])].
  split; [|split; [|split; [|split]]].
  - split; [repeat constructor; cbn; intuition discriminate|]. split.
    + repeat constructor; intros a l [<-|[]]; discriminate.
    + intros n a [<-|[<-|[]]] [<-|[]] kr [[]|[]].
  - assert (K : is_b64 (Q2R tiny) /\ Qle tiny 1).
    { split; [|unfold Qle; cbn [Qnum Qden tiny]; lia]. rewrite tiny_value. replace (/ 2 ^ 600) with (IZR 1 / 2 ^ 600) by (unfold Rdiv; ring). apply is_b64_div; [reflexivity|lia]. }
    repeat constructor; exact (proj1 K) || exact (proj2 K).
  - vm_compute. reflexivity.
  - vm_compute. reflexivity.
  - intros w [[E _]|H]; [discriminate|]. cbn [map snd r_weight] in H. rewrite !tiny_value in H.
    rewrite (reduction_pair _ _ _ _ H); [apply b64_tiny|]. intros; f_equal; ring.
Qed.
