(** A site moves as a rigid body at low frequencies. *)
From Coq Require Import List.
From Verif Require Import Common Proof.CommonFacts Model.Curve Model.Layer Model.Profile Model.Cplx Model.Waves
  Spec.ProfileSpec Spec.WaveSpec Spec.LowSpec Proof.CplxFacts Proof.WaveFacts Proof.WaveSplit Proof.WaveEnergy Proof.WaveProps Proof.WaveBounds.
From Coquelicot Require Import Coquelicot.
Local Open Scope R_scope.

(** * Exponentials near one *)
Lemma exp_ge1 x : 0 <= x -> 1 <= exp x.
Proof. intros [H|<-]; [left; rewrite <- exp_0; now apply exp_increasing|rewrite exp_0; lra]. Qed.
Lemma exp_mono x y : x <= y -> exp x <= exp y.
Proof. intros [H|<-]; [left; now apply exp_increasing|lra]. Qed.
Lemma exp_low x : 1 + x <= exp x.
Proof. destruct (Req_dec x 0) as [->|H]; [rewrite exp_0; lra|left; now apply exp_ineq1]. Qed.
Lemma exp_near a : Rabs (exp a - 1) <= exp (Rabs a) - 1.
Proof.
  unfold Rabs at 2. destruct (Rcase_abs a) as [H|H].
  - assert (exp a < 1) by (rewrite <- exp_0; now apply exp_increasing). rewrite Rabs_left1 by lra.
    pose proof (exp_low a) as A. pose proof (exp_low (- a)) as B. lra.
  - pose proof (exp_ge1 a ltac:(lra)). rewrite Rabs_pos_eq by lra. lra.
Qed.
Lemma turn_near b : Cmod (Cminus (cos b, sin b) (RtoC 1)) <= Rabs b.
Proof.
  assert (E : Cmod (Cminus (cos b, sin b) (RtoC 1)) = Rabs (2 * sin (b / 2))).
  { unfold Cmod, Cminus, Cplus, Copp, RtoC. cbn [fst snd]. rewrite <- sqrt_Rsqr_abs. f_equal. unfold Rsqr.
    pose proof (sin2_cos2 b) as P. unfold Rsqr in P. replace b with (2 * (b / 2)) at 1 by field.
    pose proof (cos_2a_sin (b / 2)) as Q. replace (2 * (b / 2)) with b in * by field. nra. }
  rewrite E. assert (S : forall x, 0 <= x -> Rabs (sin x) <= x).
  { intros x Hx. destruct (Rle_dec x 1) as [L|L].
    - destruct Hx as [Hx|<-]; [|rewrite sin_0, Rabs_R0; lra]. assert (0 < sin x) by (apply sin_gt_0; [exact Hx|]; pose proof PI2_3_2; lra).
      rewrite Rabs_pos_eq by lra. left. now apply sin_lt_x.
    - pose proof (SIN_bound x). apply Rabs_le. lra. }
  rewrite Rabs_mult, (Rabs_pos_eq 2) by lra. unfold Rabs at 2. destruct (Rcase_abs b) as [H|H].
  - replace (b / 2) with (- (- b / 2)) by field. rewrite sin_neg, Rabs_Ropp. specialize (S (- b / 2) ltac:(lra)). lra.
  - specialize (S (b / 2) ltac:(lra)). lra.
Qed.
Lemma Cexp_near z : Cmod (Cminus (Cexp z) (RtoC 1)) <= exp (Rabs (Re z) + Rabs (Im z)) - 1.
Proof.
  replace (Cminus (Cexp z) (RtoC 1)) with
    (Cplus (Cmult (RtoC (exp (Re z) - 1)) (cos (Im z), sin (Im z))) (Cminus (cos (Im z), sin (Im z)) (RtoC 1))).
  2:{ apply C_ext; unfold Cexp, Cminus, Cplus, Cmult, Copp, RtoC, Re, Im; cbn [fst snd]; ring. }
  eapply Rle_trans; [apply Cmod_triangle|].
  rewrite Cmod_mult, Cmod_R. assert (U : Cmod (cos (Im z), sin (Im z)) = 1).
  { unfold Cmod. cbn [fst snd]. pose proof (sin2_cos2 (Im z)) as P. unfold Rsqr in P. replace (cos (Im z) ^ 2 + sin (Im z) ^ 2) with 1 by (rewrite <- P; ring). apply sqrt_1. }
  rewrite U, Rmult_1_r. pose proof (exp_near (Re z)). pose proof (turn_near (Im z)). rewrite exp_plus.
  pose proof (exp_low (Rabs (Im z))). pose proof (exp_ge1 (Rabs (Re z)) (Rabs_pos _)). pose proof (Rabs_pos (Im z)). nra.
Qed.
Lemma bernoulli p x : 1 <= p -> 0 <= x -> 1 + p * (exp x - 1) <= exp (p * x).
Proof.
  intros Hp Hx. replace (p * x) with (x + (p - 1) * x) by ring. rewrite exp_plus.
  pose proof (exp_low ((p - 1) * x)) as A. pose proof (exp_low (- x)) as B. rewrite exp_Ropp in B. pose proof (exp_pos x) as P.
  assert (D : exp x - x * exp x <= 1).
  { apply (Rmult_le_compat_l (exp x)) in B; [|lra]. rewrite Rinv_r in B by lra. nra. }
  apply Rle_trans with (exp x * (1 + (p - 1) * x)); [nra|]. apply Rmult_le_compat_l; lra.
Qed.

Lemma two : RtoC 2 = Cplus (RtoC 1) (RtoC 1).
Proof. rewrite <- RtoC_plus. apply f_equal. lra. Qed.

(** * One layer: the sum and the weighted difference of the two waves *)
Definition sum_at (k : C) (ab : C * C) (z : R) : C := Cplus (Cmult (fst ab) (Cexp (cterm k z))) (Cmult (snd ab) (Cexp (Copp (cterm k z)))).
Definition diff_at (k : C) (ab : C * C) (z : R) : C := Cminus (Cmult (fst ab) (Cexp (cterm k z))) (Cmult (snd ab) (Cexp (Copp (cterm k z)))).

(** Departure from the sum 2 and the difference 0; [D] is measured by [s]. *)
Definition away (s : R) (S D : C) : R := Cmod (Cminus S (RtoC 2)) + s * Cmod D.

Lemma deeper k ab z x r s : 0 < s -> 1 <= r -> / r <= s <= r -> 0 <= x ->
  Rabs (Re (cterm k z)) + Rabs (Im (cterm k z)) <= x ->
  away s (sum_at k ab z) (diff_at k ab z) + 2 <= (away s (Cplus (fst ab) (snd ab)) (Cminus (fst ab) (snd ab)) + 2) * exp ((1 + r) * x).
Proof.
  intros Hs Hr Hb Hx Hct. set (ct := cterm k z) in *. set (S := Cplus (fst ab) (snd ab)). set (D := Cminus (fst ab) (snd ab)).
  set (q := exp x - 1). assert (Q0 : 0 <= q) by (pose proof (exp_ge1 x Hx); unfold q; lra).
  set (e1 := Cminus (Cexp ct) (RtoC 1)). set (e2 := Cminus (Cexp (Copp ct)) (RtoC 1)).
  assert (M1 : Cmod e1 <= q).
  { unfold e1, q. eapply Rle_trans; [apply Cexp_near|]. pose proof (exp_mono _ _ Hct). lra. }
  assert (M2 : Cmod e2 <= q).
  { unfold e2, q. eapply Rle_trans; [apply Cexp_near|]. unfold Copp, Re, Im. cbn [fst snd]. rewrite !Rabs_Ropp. fold (Re ct) (Im ct). pose proof (exp_mono _ _ Hct). lra. }
  set (c := Cmult c_half (Cplus e1 e2)). set (n := Cmult c_half (Cminus e1 e2)).
  assert (Mc : Cmod c <= q).
  { unfold c. rewrite Cmod_half. pose proof (Cmod_triangle e1 e2). lra. }
  assert (Mn : Cmod n <= q).
  { unfold n, Cminus. rewrite Cmod_half. pose proof (Cmod_triangle e1 (Copp e2)). rewrite Cmod_opp in *. lra. }
  assert (H2 : Cmult c_half (RtoC 2) = RtoC 1) by (unfold c_half; rewrite <- RtoC_mult; apply f_equal; lra).
  assert (N2 : RtoC 2 <> RtoC 0) by (apply RtoC_neq_0; lra).
  assert (EH : c_half = Cinv (RtoC 2)) by (unfold c_half; rewrite RtoC_div by lra; unfold Cdiv; ring).
  assert (ES : Cminus (sum_at k ab z) (RtoC 2) = Cplus (Cplus (Cminus S (RtoC 2)) (Cmult (Cminus S (RtoC 2)) c)) (Cplus (Cmult (RtoC 2) c) (Cmult D n))).
  { unfold sum_at, c, n, S, D, e1, e2. fold ct. rewrite EH. rewrite two in *. field. exact N2. }
  assert (ED : diff_at k ab z = Cplus (Cplus D (Cmult D c)) (Cplus (Cmult (Cminus S (RtoC 2)) n) (Cmult (RtoC 2) n))).
  { unfold diff_at, c, n, S, D, e1, e2. fold ct. rewrite EH. rewrite two in *. field. exact N2. }
  unfold away. rewrite ES, ED. set (P := Cmod (Cminus S (RtoC 2))). set (T := Cmod D).
  assert (P0 : 0 <= P) by apply Cmod_ge_0. assert (T0 : 0 <= T) by apply Cmod_ge_0.
  assert (C2 : Cmod (RtoC 2) = 2) by (rewrite Cmod_R, Rabs_pos_eq; lra).
  assert (B1 : Cmod (Cplus (Cplus (Cminus S (RtoC 2)) (Cmult (Cminus S (RtoC 2)) c)) (Cplus (Cmult (RtoC 2) c) (Cmult D n))) <= P + P * q + (2 * q + T * q)).
  { eapply Rle_trans; [apply Cmod_triangle|]. apply Rplus_le_compat.
    - eapply Rle_trans; [apply Cmod_triangle|]. rewrite Cmod_mult. fold P. apply Rplus_le_compat_l. now apply Rmult_le_compat_l.
    - eapply Rle_trans; [apply Cmod_triangle|]. rewrite !Cmod_mult, C2. fold T. apply Rplus_le_compat; apply Rmult_le_compat_l; try assumption; lra. }
  assert (B2 : Cmod (Cplus (Cplus D (Cmult D c)) (Cplus (Cmult (Cminus S (RtoC 2)) n) (Cmult (RtoC 2) n))) <= T + T * q + (P * q + 2 * q)).
  { eapply Rle_trans; [apply Cmod_triangle|]. apply Rplus_le_compat.
    - eapply Rle_trans; [apply Cmod_triangle|]. rewrite Cmod_mult. fold T. apply Rplus_le_compat_l. now apply Rmult_le_compat_l.
    - eapply Rle_trans; [apply Cmod_triangle|]. rewrite !Cmod_mult, C2. fold P. apply Rplus_le_compat; apply Rmult_le_compat_l; try assumption; lra. }
  apply Rle_trans with ((P + s * T + 2) * (1 + (1 + r) * q)).
  - assert (T1 : T <= r * (s * T)).
    { assert (1 <= r * s) by (destruct Hb as [Hb _]; apply (Rmult_le_compat_l r) in Hb; [|lra]; rewrite Rinv_r in Hb by lra; exact Hb). nra. }
    apply (Rmult_le_compat_l s) in B2; [|lra].
    assert (F1 : T * q <= r * (s * T) * q) by (now apply Rmult_le_compat_r).
    assert (F2 : s * (P * q + 2 * q) <= r * (P * q + 2 * q)) by (apply Rmult_le_compat_r; [nra|lra]).
    assert (F3 : 0 <= r * (s * T) * q) by (apply Rmult_le_pos; [apply Rmult_le_pos; [lra|nra]|exact Q0]).
    nra.
  - apply Rmult_le_compat_l; [nra|]. apply bernoulli; lra.
Qed.

(** * The whole column *)
Section column.
Variables (w r z0 : R).
Hypothesis (Hw : w <> 0) (Hr : 1 <= r) (Hz0 : 0 < z0).
Definition fits (l : wlayer) : Prop := carries l /\ 0 <= wl_thick l /\ Cmod (cimpedance l) <= r * z0 /\ z0 <= r * Cmod (cimpedance l).
Definition gauge (l : wlayer) : R := Cmod (cimpedance l) / z0.

Lemma gauge_pos l : fits l -> 0 < gauge l /\ / r <= gauge l <= r.
Proof.
  intros (_ & _ & A & B). assert (0 < Cmod (cimpedance l)) by (apply (Rmult_lt_reg_l r); nra).
  unfold gauge. split; [apply Rdiv_lt_0_compat; assumption|]. split.
  - apply (Rmult_le_reg_l (r * z0)); [nra|]. replace (r * z0 * / r) with z0 by (field; lra).
    replace (r * z0 * (Cmod (cimpedance l) / z0)) with (r * Cmod (cimpedance l)) by (field; lra). exact B.
  - apply (Rmult_le_reg_r z0); [exact Hz0|]. unfold Rdiv. rewrite Rmult_assoc, Rinv_l by lra. lra.
Qed.
Lemma cterm_size l z : 0 <= z ->
  Rabs (Re (cterm (Cdiv (RtoC w) (wl_vel l)) z)) + Rabs (Im (cterm (Cdiv (RtoC w) (wl_vel l)) z)) = Rabs w * (slowness l * z).
Proof.
  intros Hz. unfold slowness, Cdiv. set (v := Cinv (wl_vel l)).
  assert (ER : Re (cterm (Cmult (RtoC w) v) z) = - (w * Im v * z)) by (unfold cterm, Cmult, Ci, RtoC, Re, Im; cbn; ring).
  assert (EI : Im (cterm (Cmult (RtoC w) v) z) = w * Re v * z) by (unfold cterm, Cmult, Ci, RtoC, Re, Im; cbn; ring).
  rewrite ER, EI, Rabs_Ropp, !Rabs_mult, (Rabs_pos_eq z) by exact Hz. ring.
Qed.
Lemma slowness_pos l : 0 <= slowness l.
Proof. unfold slowness. apply Rplus_le_le_0_compat; apply Rabs_pos. Qed.

Lemma column_away ls : List.Forall fits ls -> forall i l ab, nth_error ls i = Some l ->
  nth_error (waves_from w ls (c_one, c_one)) i = Some ab ->
  away (gauge l) (Cplus (fst ab) (snd ab)) (Cminus (fst ab) (snd ab)) + 2 <=
  2 * exp ((1 + r) * (Rabs w * Rsum (map (fun l => slowness l * wl_thick l) (firstn i ls)))).
Proof.
  intros HF. induction i as [|i IH]; intros l ab Hl Hab.
  - destruct ls as [|l0 ls]; [discriminate|]. cbn in Hl. injection Hl as ->. cbn [waves_from nth_error] in Hab. injection Hab as <-.
    cbn [fst snd firstn map]. change (Rsum []) with 0. rewrite !Rmult_0_r, exp_0. unfold away, c_one.
    replace (Cminus (Cplus (RtoC 1) (RtoC 1)) (RtoC 2)) with (RtoC 0) by (rewrite <- RtoC_plus, <- RtoC_minus; apply f_equal; lra).
    replace (Cminus (RtoC 1) (RtoC 1)) with (RtoC 0) by ring. rewrite !Cmod_0. lra.
  - assert (Hi : (S i < length ls)%nat) by (apply nth_error_Some; congruence).
    destruct (nth_error ls i) as [l0|] eqn:El; [|apply nth_error_None in El; lia].
    destruct (nth_error (waves_from w ls (c_one, c_one)) i) as [x|] eqn:Ex.
    2:{ apply nth_error_None in Ex. rewrite waves_from_length in Ex. lia. }
    rewrite Forall_forall in HF. pose proof (HF l0 (nth_error_In _ _ El)) as F0. pose proof (HF l (nth_error_In _ _ Hl)) as F1.
    pose proof F0 as (C0 & T0 & _). pose proof F1 as (C1 & _).
    rewrite (waves_from_next w ls _ i l0 l x El Hl Ex) in Hab. injection Hab as <-.
    rewrite step_carry by assumption. rewrite contrast_impedance by assumption.
    set (k := Cdiv (RtoC w) (wl_vel l0)). set (ct := cterm k (wl_thick l0)).
    rewrite transmit_sum, transmit_diff.
    change (Cplus (Cmult (fst x) (Cexp ct)) (Cmult (snd x) (Cexp (Copp ct)))) with (sum_at k x (wl_thick l0)).
    change (Cminus (Cmult (fst x) (Cexp ct)) (Cmult (snd x) (Cexp (Copp ct)))) with (diff_at k x (wl_thick l0)).
    destruct (gauge_pos l0 F0) as [G0 G1].
    assert (NI : cimpedance l <> RtoC 0) by (apply Cdiv_neq_0; apply C1).
    assert (EA : forall S D, away (gauge l) S (Cmult (Cdiv (cimpedance l0) (cimpedance l)) D) = away (gauge l0) S D).
    { intros S D. unfold away. rewrite Cmod_mult, Cmod_div by exact NI. unfold gauge. f_equal. field. assert (Cmod (cimpedance l) <> 0) by (intros E; apply NI; now apply Cmod_eq_0). split; [lra|assumption] || (split; [assumption|lra]). }
    rewrite EA.
    pose proof (deeper k x (wl_thick l0) (Rabs w * (slowness l0 * wl_thick l0)) r (gauge l0) G0 Hr G1) as P.
    assert (X0 : 0 <= Rabs w * (slowness l0 * wl_thick l0)).
    { apply Rmult_le_pos; [apply Rabs_pos|]. apply Rmult_le_pos; [apply slowness_pos|exact T0]. }
    specialize (P X0 (Req_le _ _ (cterm_size l0 (wl_thick l0) T0))).
    eapply Rle_trans; [exact P|]. specialize (IH l0 x eq_refl eq_refl).
    assert (EF : firstn (S i) ls = (firstn i ls ++ l0 :: nil)%list).
    { clear -El. revert i El. induction ls as [|y ls IH]; intros [|i] El; try discriminate.
      - cbn in El. injection El as ->. reflexivity.
      - cbn [firstn app]. f_equal. now apply IH. }
    rewrite EF, map_app, Rsum_app. cbn [map]. rewrite Rsum_cons. change (Rsum []) with 0.
    replace ((1 + r) * (Rabs w * (Rsum (map (fun l => slowness l * wl_thick l) (firstn i ls)) + (slowness l0 * wl_thick l0 + 0))))
      with ((1 + r) * (Rabs w * Rsum (map (fun l => slowness l * wl_thick l) (firstn i ls))) + (1 + r) * (Rabs w * (slowness l0 * wl_thick l0))) by ring.
    rewrite exp_plus. match goal with |- _ <= ?a * (?b * ?c) => replace (a * (b * c)) with (a * b * c) by ring end. apply Rmult_le_compat_r; [left; apply exp_pos|exact IH].
Qed.

Lemma location_near ls rs i z f : List.Forall fits ls -> 1e-8 < Rabs w -> calc_waves_python w ls = Ok rs -> (i < length ls)%nat -> 0 <= z ->
  f <> IncomingOnly ->
  exists u, wave_at_location rs (mkLoc i z f) = Ok (Some (Cmult (RtoC 2) u)) /\ Cmod (Cminus u (RtoC 1)) <= r * departure r w (lag ls i z).
Proof.
  intros HF Hw8 H Hi Hz Hf. destruct (nth_error ls i) as [l|] eqn:El; [|apply nth_error_None in El; lia].
  pose proof HF as HF'. rewrite Forall_forall in HF'. pose proof (HF' l (nth_error_In _ _ El)) as Fl. pose proof Fl as (Cl & Tl & _).
  destruct (field_plane w ls rs i l Hw8 H El (proj1 Cl)) as (ab & E1 & E2 & _).
  pose proof (column_away ls HF i l ab El E1) as P. destruct (gauge_pos l Fl) as [G0 G1].
  set (k := Cdiv (RtoC w) (wl_vel l)) in *.
  assert (X0 : 0 <= Rabs w * (slowness l * z)).
  { apply Rmult_le_pos; [apply Rabs_pos|]. apply Rmult_le_pos; [apply slowness_pos|exact Hz]. }
  pose proof (deeper k ab z (Rabs w * (slowness l * z)) r (gauge l) G0 Hr G1 X0 (Req_le _ _ (cterm_size l z Hz))) as Q.
  set (d := departure r w (lag ls i z)).
  assert (A : away (gauge l) (sum_at k ab z) (diff_at k ab z) <= 2 * d).
  { unfold d, departure, lag. rewrite El.
    replace ((1 + r) * (Rabs w * (Rsum (map (fun l0 => slowness l0 * wl_thick l0) (firstn i ls)) + slowness l * z))) with
      ((1 + r) * (Rabs w * Rsum (map (fun l0 => slowness l0 * wl_thick l0) (firstn i ls))) + (1 + r) * (Rabs w * (slowness l * z))) by ring.
    rewrite exp_plus. apply (Rmult_le_compat_r (exp ((1 + r) * (Rabs w * (slowness l * z))))) in P; [|left; apply exp_pos]. lra. }
  unfold away in A. pose proof (Cmod_ge_0 (Cminus (sum_at k ab z) (RtoC 2))) as A1. pose proof (Cmod_ge_0 (diff_at k ab z)) as A2.
  assert (D0 : 0 <= d) by nra.
  assert (N2 : RtoC 2 <> RtoC 0) by (apply RtoC_neq_0; lra).
  assert (EH : c_half = Cinv (RtoC 2)) by (unfold c_half; rewrite RtoC_div by lra; unfold Cdiv; ring).
  assert (T1 : Cmod (diff_at k ab z) <= r * (gauge l * Cmod (diff_at k ab z))).
  { assert (1 <= r * gauge l) by (destruct G1 as [G1 _]; apply (Rmult_le_compat_l r) in G1; [|lra]; rewrite Rinv_r in G1 by lra; exact G1). nra. }
  unfold wave_at_location. cbn [loc_index loc_within loc_field]. rewrite E2. cbn [wave_at r_k r_a r_b].
  destruct f; [| |contradiction].
  - exists (Cmult (fst ab) (Cexp (cterm k z))). split; [do 2 f_equal; rewrite two; ring|].
    replace (Cminus (Cmult (fst ab) (Cexp (cterm k z))) (RtoC 1)) with (Cmult c_half (Cplus (Cminus (sum_at k ab z) (RtoC 2)) (diff_at k ab z))).
    2:{ unfold sum_at, diff_at. rewrite EH. rewrite two in *. field. exact N2. }
    rewrite Cmod_half. pose proof (Cmod_triangle (Cminus (sum_at k ab z) (RtoC 2)) (diff_at k ab z)). nra.
  - exists (Cmult c_half (sum_at k ab z)). split.
    + do 2 f_equal. unfold sum_at. rewrite EH. rewrite two in *. field. exact N2.
    + replace (Cminus (Cmult c_half (sum_at k ab z)) (RtoC 1)) with (Cmult c_half (Cminus (sum_at k ab z) (RtoC 2))).
      2:{ rewrite EH. rewrite two in *. field. exact N2. }
      rewrite Cmod_half. nra.
Qed.
End column.

Lemma departure_mono r w s t : 0 <= r -> s <= t -> departure r w s <= departure r w t.
Proof.
  intros Hr H. unfold departure. pose proof (Rabs_pos w). assert (exp ((1 + r) * (Rabs w * s)) <= exp ((1 + r) * (Rabs w * t))); [|lra].
  apply exp_mono. apply Rmult_le_compat_l; [lra|]. now apply Rmult_le_compat_l.
Qed.

Theorem rigid_motion w r ls rs time : 1e-8 < Rabs w -> 1 <= r -> List.Forall (fun l => carries l /\ 0 <= wl_thick l) ls -> contrasts_within r ls ->
  calc_waves_python w ls = Ok rs -> r * departure r w time < 1 ->
  forall i z f j y g, (i < length ls)%nat -> (j < length ls)%nat -> 0 <= z -> 0 <= y -> f <> IncomingOnly -> g <> IncomingOnly ->
  lag ls i z <= time -> lag ls j y <= time ->
  exists tf, calc_accel_tf rs (mkLoc i z f) (mkLoc j y g) = Ok (Some tf) /\
    Cmod (Cminus tf (RtoC 1)) <= 2 * (r * departure r w time) / (1 - r * departure r w time).
Proof.
  intros Hw Hr HF (z0 & Hz0 & HC) H HT i z f j y g Hi Hj Hz Hy Hf Hg Ti Tj.
  assert (HL : List.Forall (fits r z0) ls).
  { rewrite Forall_forall in *. intros l Hl. destruct (HF l Hl), (HC l Hl). repeat split; try assumption; apply H0. }
  pose proof (awake_neq w Hw) as Nw.
  destruct (location_near w r z0 Nw Hr Hz0 ls rs i z f HL Hw H Hi Hz Hf) as (u & Eu & Bu).
  destruct (location_near w r z0 Nw Hr Hz0 ls rs j y g HL Hw H Hj Hy Hg) as (v & Ev & Bv).
  pose proof (departure_mono r w _ _ ltac:(lra) Ti) as Mi. pose proof (departure_mono r w _ _ ltac:(lra) Tj) as Mj.
  set (d := r * departure r w time) in *.
  assert (Du : Cmod (Cminus u (RtoC 1)) <= d) by (unfold d; eapply Rle_trans; [exact Bu|apply Rmult_le_compat_l; lra]).
  assert (Dv : Cmod (Cminus v (RtoC 1)) <= d) by (unfold d; eapply Rle_trans; [exact Bv|apply Rmult_le_compat_l; lra]).
  assert (LU : 1 - d <= Cmod u).
  { pose proof (Cmod_triangle u (Copp (Cminus u (RtoC 1)))) as T. replace (Cplus u (Copp (Cminus u (RtoC 1)))) with (RtoC 1) in T by ring.
    rewrite Cmod_opp, Cmod_1 in T. lra. }
  assert (Nu : u <> RtoC 0) by (apply Cmod_gt_0; lra). assert (N2 : RtoC 2 <> RtoC 0) by (apply RtoC_neq_0; lra).
  exists (Cdiv v u). split.
  - rewrite (tf_some rs (mkLoc i z f) (mkLoc j y g) _ _ Ev Eu) by (now apply Cmult_neq_0). do 2 f_equal. rewrite two in *. field. now split.
  - replace (Cminus (Cdiv v u) (RtoC 1)) with (Cdiv (Cplus (Cminus v (RtoC 1)) (Copp (Cminus u (RtoC 1)))) u) by (field; exact Nu).
    rewrite Cmod_div by exact Nu. pose proof (Cmod_triangle (Cminus v (RtoC 1)) (Copp (Cminus u (RtoC 1)))) as T. rewrite Cmod_opp in T.
    pose proof (Cmod_ge_0 (Cminus u (RtoC 1))). unfold Rdiv.
    apply Rmult_le_compat; [apply Cmod_ge_0|left; apply Rinv_0_lt_compat; lra|lra|apply Rinv_le_contravar; lra].
Qed.
