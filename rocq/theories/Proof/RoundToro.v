(** Toro layering computed with binary64 numbers. *)
From Flocq Require Import Core Mult_error.
From Verif Require Import Common Model.Curve Model.Layer Model.Profile Model.Variation Model.Rounded
  Spec.ProfileSpec Spec.RoundSpec Proof.CommonFacts Proof.ProfileFacts Proof.ProfileOps Proof.RoundFacts Proof.RoundProfile.
Local Open Scope R_scope.

Local Instance prec53' : Prec_gt_0 53.
Proof. reflexivity. Qed.

Lemma is_b64_double x : is_b64 x -> is_b64 (2 * x).
Proof.
  intros H. rewrite Rmult_comm. change 2 with (bpow radix2 1). apply mult_bpow_pos_exact_FLT; [exact H|lia].
Qed.
Lemma is_b64_min2 : is_b64 (/ 2 ^ 1022 / 2) /\ is_b64 (/ 2 ^ 1022).
Proof.
  replace (/ 2 ^ 1022) with (bpow radix2 (-1022)) by (change (-1022)%Z with (- Z.of_nat 1022)%Z; now rewrite bpow_opp, bpow_nat).
  replace (bpow radix2 (-1022) / 2) with (bpow radix2 (-1023)).
  - split; apply generic_format_bpow; unfold FLT_exp; cbn; lia.
  - change (-1022)%Z with (-1023 + 1)%Z. rewrite bpow_plus_1. cbn [radix_val radix2]. field.
Qed.
Lemma min_pos : 0 < / 2 ^ 1022.
Proof. apply Rinv_0_lt_compat, pow_lt. lra. Qed.

(** The truncated layer: its thickness and where it ends. *)
Lemma truncated total prev : is_b64 total -> is_b64 prev -> 0 <= prev < total ->
  let t := b64 (total - prev) in let e := b64 (prev + t) in
  0 < t /\ Rabs (t - (total - prev)) <= half_ulp * (total - prev) /\
  Rabs (e - total) <= 2 * half_ulp * (total - prev) /\ prev <= e /\
  (e < total -> b64 (total - e) = total - e /\ b64 (e + b64 (total - e)) = total).
Proof.
  intros Ht Hp [H0 H] t e. pose proof half_ulp_pos as U. pose proof half_ulp_small as U8.
  assert (T0 : 0 < t) by (now apply b64_sub_pos).
  assert (T1 : Rabs (t - (total - prev)) <= half_ulp * (total - prev)).
  { unfold t. rewrite <- (Rabs_right (total - prev)) at 3 by lra. now apply b64_sub. }
  assert (E1 : Rabs (e - total) <= 2 * half_ulp * (total - prev)).
  { pose proof (b64_nearest (prev + t) total Ht) as N. fold e in N.
    replace (total - (prev + t)) with (- (t - (total - prev))) in N by ring. rewrite Rabs_Ropp in N.
    replace (e - total) with ((e - (prev + t)) + (t - (total - prev))) by ring.
    pose proof (Rabs_triang (e - (prev + t)) (t - (total - prev))). lra. }
  split; [exact T0|]. split; [exact T1|]. split; [exact E1|].
  split; [unfold e; apply b64_ge_b; [exact Hp|lra]|].
  intros L.
  assert (S : is_b64 (total - e)).
  { apply b64_sterbenz; [exact Ht|apply b64_is|].
    assert (Q : Rabs (e - total) = total - e) by (rewrite Rabs_left; lra). rewrite Q in E1. nra. }
  assert (Q : b64 (total - e) = total - e) by (now apply b64_id). split; [exact Q|].
  rewrite Q. replace (e + (total - e)) with total by ring. now apply b64_id.
Qed.

Definition mids_ok (total : R) (ys : list (R * R)) : Prop :=
  Forall (fun y => 0 < fst y /\ 0 < snd y <= total) ys.

Lemma mid_ok total prev depth : is_b64 total -> 0 <= prev -> / 2 ^ 1022 <= prev + depth -> prev + depth <= 2 * total ->
  0 < b64 (b64 (prev + depth) / 2) <= total.
Proof.
  intros Ht Hp L H. destruct is_b64_min2 as [M2 M1]. pose proof min_pos as MP.
  assert (A : / 2 ^ 1022 <= b64 (prev + depth)) by (apply b64_ge_b; assumption).
  assert (B : b64 (prev + depth) <= 2 * total) by (apply b64_le_b; [now apply is_b64_double|exact H]).
  split.
  - apply Rlt_le_trans with (/ 2 ^ 1022 / 2); [lra|]. apply b64_ge_b; [exact M2|lra].
  - apply b64_le_b; [exact Ht|lra].
Qed.

Lemma increasing_cons d rest : increasing (d :: rest) -> increasing rest /\ Forall (fun x => d < x) rest.
Proof.
  intros H. assert (I : increasing rest) by (intros a x y b E; apply (H (d :: a) x y b); cbn; now rewrite E).
  split; [exact I|]. revert d H I. induction rest as [|x rest IH]; intros d H I; [constructor|].
  assert (L : d < x) by (apply (H [] d x rest eq_refl)). constructor; [exact L|].
  assert (I' : increasing rest) by (intros a u v b E; apply (I (x :: a) u v b); cbn; now rewrite E).
  eapply Forall_impl; [|apply (IH x I I')]. cbn. intros; lra.
Qed.

Lemma count_none total rest : Forall (fun x => total <= x) rest -> count_above total rest = 0%nat.
Proof.
  unfold count_above. induction 1 as [|x rest Hx _ IH]; [reflexivity|]. cbn [filter].
  unfold Rltb at 1. destruct (Rlt_dec x total); [lra|exact IH].
Qed.

Lemma Rltb_yes a b : a < b -> Rltb a b = true.
Proof. intros H. unfold Rltb. destruct (Rlt_dec a b); [reflexivity|lra]. Qed.
Lemma Rltb_no a b : b <= a -> Rltb a b = false.
Proof. intros H. unfold Rltb. destruct (Rlt_dec a b); [lra|reflexivity]. Qed.

Lemma toro_loop total : is_b64 total -> / 2 ^ 1022 <= total ->
  forall raw prev ys o, is_b64 prev -> (prev = 0 \/ / 2 ^ 1022 <= prev) -> prev < total ->
  increasing raw -> Forall (fun d => prev < d /\ is_b64 d /\ / 2 ^ 1022 <= d) raw ->
  iter_from_r b64 total raw prev = (ys, o) ->
  mids_ok total ys /\
  ((count_above total raw + 2 <= length raw)%nat -> o = true) /\
  (o = true ->
   Rabs (Rsum (map fst ys) - (total - prev)) <= 3 * half_ulp * (total - prev) /\
   (length ys = (count_above total raw + 1)%nat \/
    length ys = (count_above total raw + 2)%nat /\
    exists ys' t m, ys = ys' ++ [(t, m)] /\ t <= 2 * half_ulp * (total - prev))).
Proof.
  intros Ht Htm raw. pose proof half_ulp_pos as U. pose proof half_ulp_small as U8. pose proof min_pos as MP.
  induction raw as [|d rest IH]; intros prev ys o Hp Hpm L I F E.
  - cbn in E. rewrite (Rltb_yes _ _ L) in E. injection E as <- <-.
    split; [constructor|]. split; [cbn; lia|discriminate].
  - cbn [iter_from_r] in E. rewrite (Rltb_yes _ _ L) in E.
    destruct (increasing_cons d rest I) as [I' Fd]. inversion F as [|? ? (D1 & D2 & D3) F']; subst.
    assert (H0 : 0 <= prev) by (destruct Hpm; lra).
    assert (Cnt : count_above total (d :: rest) = ((if Rlt_dec d total then 1 else 0) + count_above total rest)%nat).
    { unfold count_above. cbn [filter]. unfold Rltb at 1. destruct (Rlt_dec d total); reflexivity. }
    destruct (Rlt_or_le total d) as [Q|Q].
    + rewrite (Rltb_yes _ _ Q) in E.
      assert (C0 : count_above total (d :: rest) = 0%nat).
      { rewrite Cnt. destruct (Rlt_dec d total); [lra|]. apply count_none. eapply Forall_impl; [|exact Fd]. cbn; intros; lra. }
      destruct (truncated total prev Ht Hp (conj H0 L)) as (T0 & T1 & E1 & E2 & E3).
      set (t := b64 (total - prev)) in *. set (e := b64 (prev + t)) in *.
      assert (Em : 0 < b64 (b64 (prev + e) / 2) <= total).
      { apply mid_ok; auto.
        - destruct Hpm as [->|Hpm]; [|lra]. unfold e, t. rewrite Rminus_0_r, !Rplus_0_l, !(b64_id total Ht). exact Htm.
        - assert (e - total <= 2 * half_ulp * (total - prev)) by (eapply Rle_trans; [apply Rle_abs|exact E1]). nra. }
      destruct (Rlt_or_le e total) as [Le|Le].
      * destruct (E3 Le) as [Q1 Q2].
        assert (Pe : prev <> 0). { intros ->. unfold e, t in Le. rewrite Rminus_0_r, Rplus_0_l, !(b64_id total Ht) in Le. lra. }
        assert (Et : total - e <= 2 * half_ulp * (total - prev)).
        { rewrite Rabs_left in E1 by lra. lra. }
        destruct rest as [|d2 rest].
        -- cbn [iter_from_r] in E. rewrite (Rltb_yes _ _ Le) in E. injection E as <- <-.
           split; [constructor; [cbn; auto|constructor]|]. split; [rewrite C0; cbn; lia|discriminate].
        -- inversion Fd as [|? ? Fd2 _]; subst. cbn [iter_from_r] in E. rewrite (Rltb_yes _ _ Le), (Rltb_yes total d2) in E by lra.
           rewrite Q2, Q1 in E.
           assert (St : iter_from_r b64 total rest total = ([], true)).
           { destruct rest; cbn; now rewrite (Rltb_no total total) by lra. }
           rewrite St in E. injection E as <- <-. split.
           { constructor; [cbn; auto|]. constructor; [|constructor]. cbn [fst snd]. split; [lra|].
             apply mid_ok; auto; lra. }
           split; [reflexivity|]. intros _. cbn [map fst Rsum fold_right length]. rewrite C0. split.
           { replace (t + (total - e + 0) - (total - prev)) with ((t - (total - prev)) + (total - e)) by ring.
             eapply Rle_trans; [apply Rabs_triang|]. rewrite (Rabs_right (total - e)) by lra. lra. }
           right. split; [reflexivity|]. eexists [_], _, _. split; [reflexivity|exact Et].
      * assert (St : iter_from_r b64 total rest e = ([], true)).
        { destruct rest; cbn; now rewrite (Rltb_no e total) by lra. }
        rewrite St in E. injection E as <- <-. split; [constructor; [cbn; auto|constructor]|].
        split; [reflexivity|]. intros _. cbn [map fst Rsum fold_right length]. rewrite C0. split; [|now left].
        rewrite Rplus_0_r. eapply Rle_trans; [exact T1|]. nra.
    + rewrite (Rltb_no total d) in E by lra.
      assert (T0 : 0 < b64 (d - prev)) by (apply b64_sub_pos; assumption).
      assert (T1 : Rabs (b64 (d - prev) - (d - prev)) <= half_ulp * (d - prev)).
      { rewrite <- (Rabs_right (d - prev)) at 3 by lra. now apply b64_sub. }
      assert (Em : 0 < b64 (b64 (prev + d) / 2) <= total) by (apply mid_ok; auto; lra).
      destruct (iter_from_r b64 total rest d) as [ys' o'] eqn:Er. injection E as <- <-.
      destruct (Rle_lt_or_eq_dec d total Q) as [Ld|Ed].
      * assert (F2 : Forall (fun x => d < x /\ is_b64 x /\ / 2 ^ 1022 <= x) rest).
        { clear - Fd F'. induction Fd; [constructor|]. inversion F' as [|? ? (_ & ? & ?) ?]; subst. constructor; auto. }
        destruct (IH d ys' o' D2 (or_intror D3) Ld I' F2 Er) as (A1 & A2 & A3).
        split; [constructor; [cbn; auto|exact A1]|]. rewrite Cnt. destruct (Rlt_dec d total) as [_|]; [|lra]. cbn [length].
        split; [intros; apply A2; lia|]. intros Ho. destruct (A3 Ho) as [B1 B2]. split.
        { cbn [map fst Rsum fold_right].
          change (fold_right Rplus 0 (map fst ys')) with (Rsum (map fst ys')).
          replace (b64 (d - prev) + Rsum (map fst ys') - (total - prev)) with ((b64 (d - prev) - (d - prev)) + (Rsum (map fst ys') - (total - d))) by ring.
          eapply Rle_trans; [apply Rabs_triang|]. nra. }
        destruct B2 as [B2|(B2 & zs & t & m & B3 & B4)]; [left; lia|right]. split; [lia|].
        eexists (_ :: zs), t, m. rewrite B3. split; [reflexivity|]. nra.
      * subst d. assert (St : iter_from_r b64 total rest total = ([], true)).
        { destruct rest; cbn; now rewrite (Rltb_no total total) by lra. }
        rewrite St in Er. injection Er as <- <-.
        split; [constructor; [cbn; auto|constructor]|]. split; [reflexivity|]. intros _.
        rewrite Cnt. destruct (Rlt_dec total total); [lra|]. rewrite count_none by (eapply Forall_impl; [|exact Fd]; cbn; intros; lra).
        cbn [map fst Rsum fold_right length]. split; [|now left]. rewrite Rplus_0_r. eapply Rle_trans; [exact T1|]. nra.
Qed.

Lemma toro_fill total raw ys o : is_b64 total -> / 2 ^ 1022 <= total ->
  increasing raw -> Forall (fun d => is_b64 d /\ / 2 ^ 1022 <= d) raw ->
  iter_thickness_r b64 total raw = (ys, o) ->
  Forall (fun y => 0 < fst y /\ 0 < snd y <= total) ys /\
  ((count_above total raw + 2 <= length raw)%nat -> o = true) /\
  (o = true ->
   Rabs (Rsum (map fst ys) - total) <= 3 * half_ulp * total /\
   (length ys = (count_above total raw + 1)%nat \/
    length ys = (count_above total raw + 2)%nat /\
    exists ys' t m, ys = ys' ++ [(t, m)] /\ t <= 2 * half_ulp * total)).
Proof.
  intros Ht Hm I F E. pose proof min_pos.
  destruct (toro_loop total Ht Hm raw 0 ys o is_b64_0 (or_introl eq_refl)) as (A & B & C); auto.
  - lra.
  - eapply Forall_impl; [|exact F]. cbn. intros d [D1 D2]. split; [lra|auto].
  - rewrite !Rminus_0_r in C. auto.
Qed.

(** The depth reached by the layers of the varied profile. *)
Lemma toro_reaches total raw ys ls' above hs : is_b64 total -> / 2 ^ 1022 <= total ->
  increasing raw -> Forall (fun d => is_b64 d /\ / 2 ^ 1022 <= d) raw ->
  iter_thickness_r b64 total raw = (ys, true) -> Forall (fun y => is_b64 (fst y)) ys ->
  stacked ls' -> is_b64 (l_thick hs) -> 0 <= l_thick hs -> ls' = above ++ [hs] -> map l_thick above = map fst ys ->
  within_error (length ys + 3) (l_depth hs) total.
Proof.
  intros Ht Hm I F E Fy S Hb Hh El Et.
  destruct (toro_fill total raw ys true Ht Hm I F E) as (A & _ & C). destruct (C eq_refl) as [C1 _].
  assert (T : Forall (fun l => 0 <= l_thick l /\ is_b64 (l_thick l)) ls').
  { rewrite El. apply Forall_app. split; [|constructor; auto].
    assert (G : Forall (fun t => 0 <= t /\ is_b64 t) (map l_thick above)).
    { rewrite Et. apply Forall_map. clear - A Fy. induction A as [|y ys [A _] _ IH]; [constructor|]. inversion Fy; subst. constructor; [split; [lra|auto]|auto]. }
    now apply (proj1 (Forall_map l_thick (fun t => 0 <= t /\ is_b64 t) above)). }
  pose proof (stacked_error ls' above hs [] S T El) as W.
  assert (Q : total_thick above = Rsum (map fst ys)).
  { rewrite <- Et. clear. induction above as [|x above IH]; [reflexivity|]. rewrite total_thick_cons, IH. reflexivity. }
  assert (Ln : length above = length ys) by (apply (f_equal (@length R)) in Et; now rewrite !map_length in Et).
  rewrite Q, Ln in W. unfold within_error in *. set (n := length ys) in *. set (sm := Rsum (map fst ys)) in *.
  assert (G : roundings (n + 3) >= roundings n * (1 + 3 * half_ulp) + 3 * half_ulp).
  { unfold roundings. rewrite pow_add. pose proof half_ulp_pos. pose proof (pow_R1_Rle (1 + half_ulp) n ltac:(lra)).
    assert ((1 + half_ulp) ^ 3 >= 1 + 3 * half_ulp) by (cbn [pow]; nra). nra. }
  pose proof (roundings_ge0 n) as G0. pose proof half_ulp_pos as U. pose proof min_pos as MP.
  assert (Sm : sm <= (1 + 3 * half_ulp) * total).
  { assert (sm - total <= 3 * half_ulp * total) by (eapply Rle_trans; [apply Rle_abs|exact C1]). lra. }
  replace (l_depth hs - total) with ((l_depth hs - sm) + (sm - total)) by ring.
  eapply Rle_trans; [apply Rabs_triang|].
  assert (roundings n * sm <= roundings n * ((1 + 3 * half_ulp) * total)) by (apply Rmult_le_compat_l; assumption).
  nra.
Qed.

(** Every mid-depth has its layer, so that no LookupError is raised. *)
Lemma host_chain : forall ls c m last, chain c ls -> c < m -> m <= b64 (l_depth last + l_thick last) ->
  In last ls -> exists l, host_r b64 ls m = Some l.
Proof.
  induction ls as [|x rest IH]; intros c m last C L M Hi; [destruct Hi|]. destruct C as [C1 C2].
  unfold host_r. cbn [find]. unfold depth_base_r at 1. rewrite C1. rewrite (Rltb_yes _ _ L). cbn [andb].
  unfold Rleb. destruct (Rle_dec m (b64 (c + l_thick x))) as [Q|Q]; [eauto|].
  apply (IH (b64 (c + l_thick x)) m last C2); [lra|exact M|].
  destruct Hi as [->|Hi]; [|exact Hi]. rewrite C1 in M. lra.
Qed.

Lemma toro_hosts ls above base hs raw ys o : stacked ls -> ls = above ++ [base; hs] ->
  / 2 ^ 1022 <= depth_base_r b64 base ->
  increasing raw -> Forall (fun d => is_b64 d /\ / 2 ^ 1022 <= d) raw ->
  iter_thickness_r b64 (depth_base_r b64 base) raw = (ys, o) ->
  Forall (fun y => exists l, host_r b64 ls (snd y) = Some l /\ In l ls /\ l_depth l < snd y <= depth_base_r b64 l) ys.
Proof.
  intros S El Hm I F E.
  destruct (toro_fill (depth_base_r b64 base) raw ys o (b64_is _) Hm I F E) as (A & _).
  eapply Forall_impl; [|exact A]. cbn. intros [t m] (_ & M1 & M2). cbn [fst snd] in *.
  destruct (host_chain ls 0 m base (stacked_chain _ S) M1 M2) as [l Hl].
  { rewrite El. apply in_or_app. right. now left. }
  exists l. split; [exact Hl|]. unfold host_r in Hl. apply find_some in Hl. destruct Hl as [Hi Hb]. split; [exact Hi|].
  apply andb_prop in Hb. destruct Hb as [B1 B2]. unfold Rltb, Rleb in *.
  destruct (Rlt_dec (l_depth l) m); [|discriminate]. destruct (Rle_dec m (depth_base_r b64 l)); [|discriminate]. auto.
Qed.

(** ** Evaluation of roundings *)
Lemma b64_eval x e z : (-1021 <= e)%Z -> bpow radix2 (e - 1) <= x < bpow radix2 e ->
  ZnearestE (x * bpow radix2 (53 - e)) = z -> b64 x = IZR z * bpow radix2 (e - 53).
Proof.
  intros He Hx Hz. unfold b64, round, scaled_mantissa, cexp.
  assert (M : (mag radix2 x : Z) = e).
  { apply mag_unique_pos. exact Hx. }
  rewrite M. unfold FLT_exp. rewrite Z.max_l by lia. unfold F2R. cbn [Fnum Fexp].
  replace (- (e - 53))%Z with (53 - e)%Z by ring. now rewrite Hz.
Qed.
Lemma nearest_tie k : ZnearestE (IZR k + / 2) = if Z.even k then k else (k + 1)%Z.
Proof.
  assert (Fl : Zfloor (IZR k + / 2) = k) by (apply Zfloor_imp; rewrite plus_IZR; lra).
  assert (Ce : Zceil (IZR k + / 2) = (k + 1)%Z) by (apply Zceil_imp; replace (k + 1 - 1)%Z with k by ring; rewrite plus_IZR; lra).
  unfold Znearest. rewrite Fl, Ce, Rcompare_Eq by ring. destruct (Z.even k); reflexivity.
Qed.
Lemma is_b64_of m e : (Z.abs m < 2 ^ 53)%Z -> (-1074 <= e)%Z -> is_b64 (IZR m * bpow radix2 e).
Proof.
  intros Hm He. apply generic_format_FLT. exists (Float radix2 m e); [reflexivity|exact Hm|exact He].
Qed.
Lemma bpow_neg n : bpow radix2 (- Z.of_nat n) = / 2 ^ n.
Proof. now rewrite bpow_opp, bpow_nat. Qed.
Lemma is_b64_div m n : (Z.abs m < 2 ^ 53)%Z -> (n <= 1074)%nat -> is_b64 (IZR m / 2 ^ n).
Proof. intros Hm Hn. unfold Rdiv. rewrite <- bpow_neg. apply is_b64_of; lia. Qed.
Lemma small_min x : 0.001 <= x -> / 2 ^ 1022 <= x.
Proof.
  intros H. apply Rle_trans with (/ 2 ^ 10); [|apply Rle_trans with 0.001; [cbn [pow]; lra|exact H]].
  apply Rinv_le_contravar; [cbn [pow]; lra|]. apply Rle_pow; [lra|lia].
Qed.
(** Numbers between 16 and 32 are rounded to multiples of 2^-48. *)
Lemma b64_16 x z : 16 <= x < 32 -> ZnearestE (x * 2 ^ 48) = z -> b64 x = IZR z / 2 ^ 48.
Proof.
  intros Hx Hz. unfold Rdiv. rewrite <- bpow_neg.
  apply (b64_eval x 5 z); [lia| |].
  - replace (bpow radix2 (5 - 1)) with 16 by (cbn; lra). replace (bpow radix2 5) with 32 by (cbn; lra). exact Hx.
  - change (53 - 5)%Z with (Z.of_nat 48). now rewrite bpow_nat.
Qed.

Definition deep : R := 4869517097094349 / 2 ^ 48.
Lemma deep_value : b64 17.3 = deep.
Proof.
  unfold deep. apply b64_16; [lra|]. apply Znearest_imp. cbn [pow]. apply Rabs_lt. lra.
Qed.

Lemma toro_extra_layer : exists raw ys t m, increasing raw /\
  Forall (fun d => is_b64 d /\ / 2 ^ 1022 <= d) raw /\
  iter_thickness_r b64 (b64 17.3) raw = (ys ++ [(t, m)], true) /\
  length ys = (count_above (b64 17.3) raw + 1)%nat /\ 0 < t < 0.00000000000001 /\
  length (fst (iter_thickness_r unrounded (b64 17.3) raw)) = length ys.
Proof.
  rewrite deep_value.
  set (a := 205015358396765 / 2 ^ 49). set (b := 3205615909868187 / 2 ^ 47). set (c := 4462628863485177 / 2 ^ 46).
  assert (Da : deep - a = 9534018835791933 / 2 ^ 49) by (unfold deep, a; cbn [pow]; lra).
  assert (Ta : b64 (deep - a) = 4767009417895966 / 2 ^ 48).
  { rewrite Da. apply b64_16; [cbn [pow]; lra|].
    replace (9534018835791933 / 2 ^ 49 * 2 ^ 48) with (4767009417895966 + / 2) by (cbn [pow]; lra).
    rewrite nearest_tie. reflexivity. }
  set (t := 4767009417895966 / 2 ^ 48) in *.
  assert (Te : b64 (a + t) = 4869517097094348 / 2 ^ 48).
  { apply b64_16; [unfold a, t; cbn [pow]; lra|].
    replace ((a + t) * 2 ^ 48) with (4869517097094348 + / 2) by (unfold a, t; cbn [pow]; lra).
    rewrite nearest_tie. reflexivity. }
  set (e := 4869517097094348 / 2 ^ 48) in *.
  assert (B : is_b64 deep /\ is_b64 a /\ is_b64 b /\ is_b64 c /\ is_b64 e) by (repeat split; apply is_b64_div; try lia; now apply Z.ltb_lt).
  destruct B as (Bd & Ba & Bb & Bc & Be).
  assert (V : 0.3 < a < 0.4 /\ deep < b /\ b < c /\ 17 < deep /\ e < deep /\ deep - e = / 2 ^ 48) by (unfold a, b, c, deep, e; cbn [pow]; lra).
  destruct V as (Va & Vb & Vc & Vd & Ve & Vt).
  assert (Tt : b64 (deep - e) = / 2 ^ 48).
  { rewrite Vt. replace (/ 2 ^ 48) with (1 / 2 ^ 48) by (unfold Rdiv; ring). apply b64_id, is_b64_div; [now apply Z.ltb_lt|lia]. }
  assert (Tl : b64 (e + / 2 ^ 48) = deep) by (rewrite <- Vt; replace (e + (deep - e)) with deep by ring; now apply b64_id).
  exists [a; b; c], [(a, b64 (b64 (0 + a) / 2)); (t, b64 (b64 (a + e) / 2))], (/ 2 ^ 48), (b64 (b64 (e + deep) / 2)).
  split; [|split; [|split; [|split; [|split]]]].
  - intros above x y below E.
    destruct above as [|? [|? [|? above]]]; cbn [app] in E; try (injection E as -> -> _; lra); try discriminate.
    + injection E as _ -> -> _. lra.
    + destruct above; discriminate.
  - repeat (apply Forall_cons; [split; [assumption|apply small_min; lra]|]). apply Forall_nil.
  - unfold iter_thickness_r. cbn [iter_from_r].
    rewrite (Rltb_yes 0 deep), (Rltb_no deep a) by lra. rewrite (Rltb_yes a deep), (Rltb_yes deep b) by lra. rewrite Rminus_0_r, (b64_id a Ba), Ta, Te.
    rewrite (Rltb_yes e deep), (Rltb_yes deep c) by lra. rewrite Tt, Tl, (Rltb_no deep deep) by lra. reflexivity.
  - unfold count_above. cbn [filter]. rewrite (Rltb_yes a deep), (Rltb_no b deep), (Rltb_no c deep) by lra. reflexivity.
  - cbn [pow]. lra.
  - unfold iter_thickness_r. cbn [iter_from_r]. unfold unrounded.
    rewrite (Rltb_yes 0 deep), (Rltb_no deep a) by lra. rewrite (Rltb_yes a deep), (Rltb_yes deep b) by lra.
    rewrite (Rltb_no (a + (deep - a)) deep) by lra. reflexivity.
Qed.

(** ** Sub-layers *)
Lemma sub_rounded thick opt : 0 < thick -> 0 < opt -> no_underflow (thick / opt) ->
  no_underflow (thick / INR (sub_count_r b64 thick opt)) ->
  let n := sub_count_r b64 thick opt in let t := sub_thick_r b64 thick opt in
  (1 <= n)%nat /\ Rabs (INR n * t - thick) <= half_ulp * thick /\ t <= (1 + 3 * half_ulp) * opt /\
  ((1 < n)%nat -> INR (n - 1) * opt < (1 + half_ulp) * thick).
Proof.
  intros Ht Ho N1 N2 n t. pose proof half_ulp_pos as U. pose proof half_ulp_small as U8.
  assert (Hn : (1 <= n)%nat) by (unfold n, sub_count_r; lia).
  assert (Hn0 : 1 <= INR n) by (apply (le_INR 1); exact Hn).
  assert (Hq0 : 0 < thick / opt) by (apply Rdiv_lt_0_compat; assumption).
  assert (Hs0 : 0 < thick / INR n) by (apply Rdiv_lt_0_compat; lra).
  set (q := b64 (thick / opt)).
  pose proof (b64_rel _ N1) as Q. fold q in Q. rewrite (Rabs_right (thick / opt)) in Q by lra.
  pose proof (b64_rel _ N2) as S. fold n in S. rewrite (Rabs_right (thick / INR n)) in S by lra.
  change (b64 (thick / INR n)) with t in S.
  assert (Qn : q <= INR n).
  { unfold n, sub_count_r. fold q. destruct (Rceil_spec q) as [_ C]. rewrite INR_IZR_INZ, Z2Nat.id by lia.
    eapply Rle_trans; [exact C|]. apply IZR_le. lia. }
  apply Rabs_le_inv in Q. apply Rabs_le_inv in S.
  assert (Ot : opt * (thick / opt) = thick) by (field; lra).
  assert (Nt : INR n * (thick / INR n) = thick) by (field; lra).
  split; [exact Hn|]. split; [|split].
  - replace (INR n * t - thick) with (INR n * (t - thick / INR n)) by (rewrite <- Nt at 2; ring).
    rewrite Rabs_mult, (Rabs_right (INR n)) by lra.
    replace (half_ulp * thick) with (INR n * (half_ulp * (thick / INR n))) by (rewrite <- Nt at 2; ring).
    apply Rmult_le_compat_l; [lra|]. now apply Rabs_le.
  - assert (A : thick * (1 - half_ulp) <= INR n * opt).
    { assert (thick / opt * (1 - half_ulp) <= INR n) by lra. rewrite <- Ot.
      replace (opt * (thick / opt) * (1 - half_ulp)) with (opt * (thick / opt * (1 - half_ulp))) by ring.
      rewrite (Rmult_comm (INR n)). apply Rmult_le_compat_l; lra. }
    assert (B : thick / INR n * (1 - half_ulp) <= opt).
    { apply (Rmult_le_reg_l (INR n)); [lra|]. rewrite <- Rmult_assoc, Nt. exact A. }
    assert (C : t <= thick / INR n * (1 + half_ulp)) by lra.
    assert (D : (1 + half_ulp) <= (1 - half_ulp) * (1 + 3 * half_ulp)) by nra.
    eapply Rle_trans; [exact C|]. eapply Rle_trans; [apply Rmult_le_compat_l; [lra|exact D]|].
    rewrite <- Rmult_assoc, (Rmult_comm (1 + 3 * half_ulp)). apply Rmult_le_compat_r; [lra|exact B].
  - intros Hn1. destruct (Rceil_spec q) as [C _].
    assert (Z1 : (1 < Rceil q)%Z) by (unfold n, sub_count_r in Hn1; fold q in Hn1; lia).
    assert (E : INR (n - 1) = IZR (Rceil q) - 1).
    { unfold n, sub_count_r. fold q. rewrite Z.max_l by lia. rewrite minus_INR by lia. rewrite INR_IZR_INZ, Z2Nat.id by lia. cbn. lra. }
    rewrite E. assert (F : IZR (Rceil q) - 1 < thick / opt * (1 + half_ulp)) by lra.
    apply Rlt_le_trans with (thick / opt * (1 + half_ulp) * opt); [apply Rmult_lt_compat_r; assumption|].
    apply Req_le. field. lra.
Qed.
