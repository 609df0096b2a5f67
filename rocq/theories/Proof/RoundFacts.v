(** Facts about binary64 rounding, and the link of the rounded model to the exact one. *)
From Flocq Require Import Core Relative Plus_error Sterbenz.
From Verif Require Import Common Model.Curve Model.Layer Model.Profile Model.Rounded Model.Variation
  Spec.ProfileSpec Spec.RoundSpec Proof.CommonFacts Proof.ProfileFacts.
Local Open Scope R_scope.

Local Instance prec53 : Prec_gt_0 53.
Proof. reflexivity. Qed.

Lemma bpow_nat n : bpow radix2 (Z.of_nat n) = 2 ^ n.
Proof.
  induction n as [|n IH]; [reflexivity|]. rewrite Nat2Z.inj_succ, <- Z.add_1_r, bpow_plus_1, IH. cbn [pow]. reflexivity.
Qed.
Lemma half_ulp_bpow : half_ulp = bpow radix2 (-53).
Proof. unfold half_ulp. change (-53)%Z with (- (Z.of_nat 53))%Z. now rewrite bpow_opp, bpow_nat. Qed.
Lemma half_ulp_u_ro : u_ro radix2 53 = half_ulp.
Proof.
  unfold u_ro. rewrite half_ulp_bpow, bpow_plus. change (- (53))%Z with (-53)%Z. generalize (bpow radix2 (-53)). intros r.
  replace (bpow radix2 1) with 2 by reflexivity. lra.
Qed.
Lemma half_ulp_pos : 0 < half_ulp.
Proof. rewrite half_ulp_bpow. apply bpow_gt_0. Qed.
Lemma half_ulp_small : half_ulp <= 1 / 8.
Proof.
  rewrite half_ulp_bpow. replace (1 / 8) with (bpow radix2 (-3)) by (cbn; lra). apply bpow_le. lia.
Qed.

Lemma b64_is x : is_b64 (b64 x).
Proof. apply generic_format_round; typeclasses eauto. Qed.
Lemma b64_id x : is_b64 x -> b64 x = x.
Proof. apply round_generic. typeclasses eauto. Qed.
Lemma b64_le x y : x <= y -> b64 x <= b64 y.
Proof. apply round_le; typeclasses eauto. Qed.
Lemma is_b64_0 : is_b64 0.
Proof. apply generic_format_0. Qed.
Lemma b64_0 : b64 0 = 0.
Proof. apply b64_id, is_b64_0. Qed.
Lemma is_b64_opp x : is_b64 x -> is_b64 (- x).
Proof. apply generic_format_opp. Qed.
Lemma b64_nearest x y : is_b64 y -> Rabs (b64 x - x) <= Rabs (y - x).
Proof. intros H. apply (round_N_pt radix2 (FLT_exp (-1074) 53) (fun z => negb (Z.even z)) x). exact H. Qed.
Lemma b64_ge0 x : 0 <= x -> 0 <= b64 x.
Proof. intros H. rewrite <- b64_0. now apply b64_le. Qed.
Lemma b64_le_b x y : is_b64 y -> x <= y -> b64 x <= y.
Proof. intros H L. rewrite <- (b64_id y H). now apply b64_le. Qed.
Lemma b64_ge_b x y : is_b64 y -> y <= x -> y <= b64 x.
Proof. intros H L. rewrite <- (b64_id y H). now apply b64_le. Qed.

Lemma b64_add x y : is_b64 x -> is_b64 y -> Rabs (b64 (x + y) - (x + y)) <= half_ulp * Rabs (x + y).
Proof.
  intros Hx Hy. destruct (FLT_plus_error_N_ex radix2 (-1074) 53 (fun z => negb (Z.even z)) x y Hx Hy) as (e & He & E).
  unfold b64. rewrite E. replace ((x + y) * (1 + e) - (x + y)) with (e * (x + y)) by ring.
  rewrite Rabs_mult. apply Rmult_le_compat_r; [apply Rabs_pos|]. rewrite half_ulp_u_ro in He.
  eapply Rle_trans; [exact He|]. pose proof half_ulp_pos.
  apply (Rmult_le_reg_r (1 + half_ulp)); [lra|]. field_simplify; [nra|lra].
Qed.
Lemma b64_sub x y : is_b64 x -> is_b64 y -> Rabs (b64 (x - y) - (x - y)) <= half_ulp * Rabs (x - y).
Proof. intros Hx Hy. apply (b64_add x (- y) Hx). now apply is_b64_opp. Qed.
Lemma b64_rel x : no_underflow x -> Rabs (b64 x - x) <= half_ulp * Rabs x.
Proof.
  intros [->|H]. { rewrite b64_0, Rminus_0_r, Rabs_R0. lra. }
  assert (E : / 2 ^ 1022 = bpow radix2 (-1074 + 53 - 1)).
  { change (-1074 + 53 - 1)%Z with (- (Z.of_nat 1022))%Z. now rewrite bpow_opp, bpow_nat. }
  rewrite E in H. pose proof (relative_error_N_FLT radix2 (-1074) 53 (eq_refl : (0 < 53)%Z) (fun z => negb (Z.even z)) x H) as R.
  fold (u_ro radix2 53) in R. rewrite half_ulp_u_ro in R. exact R.
Qed.
Lemma b64_sterbenz x y : is_b64 x -> is_b64 y -> y / 2 <= x <= 2 * y -> is_b64 (x - y).
Proof. intros Hx Hy H. apply sterbenz; try typeclasses eauto; assumption. Qed.
Lemma b64_sub_pos x y : is_b64 x -> is_b64 y -> y < x -> 0 < b64 (x - y).
Proof.
  intros Hx Hy H.
  assert (N : b64 (x - y) <> 0).
  { apply (round_plus_neq_0 radix2 (FLT_exp (-1074) 53) ZnearestE x (- y)); [exact Hx|now apply is_b64_opp|lra]. }
  assert (0 <= b64 (x - y)) by (apply b64_ge0; lra). lra.
Qed.

(** The exact model is the rounded one without rounding. *)
Lemma update_loop_exact h pid bot addrs d s :
  update_loop_r unrounded h pid bot addrs d s = update_loop h pid bot addrs d s.
Proof.
  revert h d s; induction addrs as [|a rest IH]; intros h d s; [reflexivity|].
  cbn [update_loop_r update_loop]. destruct (layer_eqb _ _); apply IH.
Qed.
Lemma lookup_from_exact ls d i : lookup_from_r unrounded ls d i = lookup_from ls d i.
Proof. revert i; induction ls as [|l rest IH]; intros i; [reflexivity|]. cbn. now rewrite IH. Qed.
Lemma update_layers_exact w p : update_layers_r unrounded w p = fst (update_layers w p 0).
Proof.
  assert (Z0 : forall n, py_slice_start 0 n = 0%nat).
  { intros n. unfold py_slice_start. change (0 <? 0)%Z with false. cbv iota.
    destruct (Z.ltb_spec (Z.of_nat n) 0); [lia|]. reflexivity. }
  unfold update_layers_r, update_layers. change (0 <? 1)%Z with true. cbv iota.
  destruct (last_opt _); [|reflexivity]. rewrite Z0. cbn [skipn fst]. now rewrite update_loop_exact.
Qed.
Lemma lookup_exact w p d : lookup_depth_r unrounded w p d = lookup_depth w p d.
Proof.
  unfold lookup_depth_r, lookup_depth. rewrite update_layers_exact. cbv zeta. apply f_equal.
  unfold lookup_view_r, lookup_view. destruct (last_opt _); [|reflexivity].
  now rewrite lookup_from_exact.
Qed.
Lemma stress_exact l u : stress_vert_r unrounded l u = stress_vert_total l u.
Proof. reflexivity. Qed.
Lemma sub_exact l f wf :
  split_layer l f wf =
  repeat (layer_make (l_soil l) (sub_thick_r unrounded (l_thick l) (opt_thickness_r unrounded (shear_vel l) f wf)) (shear_vel l) (l_dmin l))
    (sub_count_r unrounded (l_thick l) (opt_thickness_r unrounded (shear_vel l) f wf)).
Proof. reflexivity. Qed.

Lemma iter_from_exact m dt incs : forall raw total prev,
  raw_depths m incs total = map (fun d => Ok (Some d)) raw ->
  iter_from m dt incs total prev =
  (map Some (fst (iter_from_r unrounded dt raw prev)), if snd (iter_from_r unrounded dt raw prev) then Done else More).
Proof.
  induction incs as [|e rest IH]; intros [|d raw] total prev H; try discriminate; cbn [iter_from iter_from_r].
  - destruct (Rltb prev dt); reflexivity.
  - cbn [raw_depths map] in H. injection H as H1 H2. destruct (Rltb prev dt); [|reflexivity].
    rewrite H1. rewrite (IH raw _ _ H2). unfold unrounded.
    match goal with |- context [iter_from_r ?f dt raw ?p] => destruct (iter_from_r f dt raw p) as [ys o] end.
    reflexivity.
Qed.
