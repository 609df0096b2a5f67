(** Energy argument: the up-going amplitude never vanishes. *)
From Coq Require Import List.
From Verif Require Import Common Proof.CommonFacts Model.Curve Model.Layer Model.Cplx Model.Waves
  Spec.WaveSpec Proof.CplxFacts Proof.WaveFacts.
From Coquelicot Require Import Complex.
Local Open Scope R_scope.

Lemma sinh_gt x : 0 < x -> 2 * x < exp x - exp (- x).
Proof.
  intros Hx.
  set (f := fun x => exp x - exp (- x) - 2 * x).
  assert (D : forall c, derivable_pt_lim f c (exp c + exp (- c) - 2)).
  { intros c. unfold f.
    replace (exp c + exp (- c) - 2) with (exp c - exp (- c) * (- 1) - 2 * 1) by ring.
    apply derivable_pt_lim_minus.
    - apply derivable_pt_lim_minus; [apply derivable_pt_lim_exp|].
      apply (derivable_pt_lim_comp (fun y => - y) exp).
      + apply (derivable_pt_lim_opp id). apply derivable_pt_lim_id.
      + apply derivable_pt_lim_exp.
    - apply (derivable_pt_lim_scal id). apply derivable_pt_lim_id. }
  destruct (MVT_cor2 f (fun c => exp c + exp (- c) - 2) 0 x Hx) as (c & E & Hc).
  { intros c _. apply D. }
  unfold f in E. rewrite Ropp_0, exp_0 in E.
  assert (P : 0 < exp c + exp (- c) - 2).
  { pose proof (exp_pos c) as Pc. pose proof (exp_pos (- c)) as Pc'.
    assert (M : exp c * exp (- c) = 1) by (rewrite <- exp_plus, Rplus_opp_r; apply exp_0).
    assert (G : 1 < exp c) by (rewrite <- exp_0; apply exp_increasing; lra).
    assert (Q : 0 < (exp c - 1) * (exp c - 1)) by nra.
    assert (Q2 : (exp c - 1) * (exp c - 1) * exp (- c) = exp c + exp (- c) - 2).
    { transitivity (exp c * (exp c * exp (- c)) - 2 * (exp c * exp (- c)) + exp (- c)); [ring|].
      rewrite M. ring. }
    rewrite <- Q2. now apply Rmult_lt_0_compat. }
  nra.
Qed.

Lemma sinh_ge x : 0 <= x -> 2 * x <= exp x - exp (- x).
Proof.
  intros [H| <-]; [left; now apply sinh_gt|]. rewrite Ropp_0. lra.
Qed.

Lemma abs_sin_le x : 0 <= x -> Rabs (sin x) <= x.
Proof.
  intros Hx. destruct (Rle_lt_dec x 1) as [H|H].
  - rewrite Rabs_pos_eq.
    + destruct (Req_dec x 0) as [->|N]; [rewrite sin_0; lra|]. left. apply sin_lt_x. lra.
    + apply sin_ge_0; [assumption|]. pose proof PI_RGT_0. pose proof PI2_1. unfold PI2 in *. lra.
  - pose proof (SIN_bound x). apply Rle_trans with 1; [apply Rabs_le; lra|lra].
Qed.

(** Energy flux into the column above, for impedance [kappa]. *)
Definition flux (kappa a b : C) : R :=
  Re kappa * (Cnorm2 a - Cnorm2 b) - 2 * Im kappa * Im (Cmult a (Cconj b)).

Lemma flux_fields kappa a b :
  flux kappa a b =
  Im (Cmult (Cconj (Cplus a b)) (Cmult (Cmult Ci kappa) (Cminus a b))).
Proof.
  destruct kappa, a, b. unfold flux, Cnorm2, Cmult, Cconj, Cplus, Cminus, Copp, Ci, Re, Im; cbn. ring.
Qed.

Lemma flux_interface kappa kappa' a b a' b' :
  Cplus a' b' = Cplus a b -> Cmult kappa' (Cminus a' b') = Cmult kappa (Cminus a b) ->
  flux kappa' a' b' = flux kappa a b.
Proof.
  intros H1 H2. rewrite !flux_fields, H1. f_equal. f_equal.
  rewrite <- !Cmult_assoc. now rewrite H2.
Qed.

Lemma Cnorm2_nonneg z : 0 <= Cnorm2 z.
Proof. unfold Cnorm2. pose proof (pow2_ge_0 (Re z)). pose proof (pow2_ge_0 (Im z)). lra. Qed.

Lemma Cnorm2_zero z : Cnorm2 z = 0 -> z = RtoC 0.
Proof.
  unfold Cnorm2. intros H. pose proof (pow2_ge_0 (Re z)). pose proof (pow2_ge_0 (Im z)).
  apply C_ext; unfold RtoC, Re, Im in *; cbn [fst snd] in *; apply Rsqr_0_uniq; unfold Rsqr; nra.
Qed.

Lemma flux_bound (s kr q a1 a2 b1 b2 z : R) : 0 < s -> 0 < kr -> 0 <= q -> 0 <= z ->
  let kappa := (s * kr, s * q) in
  let X := Cmult (a1, a2) (Cexp (cterm (kr, - q) z)) in
  let Y := Cmult (b1, b2) (Cexp (Copp (cterm (kr, - q) z))) in
  flux kappa (a1, a2) (b1, b2) <= flux kappa X Y /\
  (0 < q -> 0 < z -> (a1, a2) <> RtoC 0 \/ (b1, b2) <> RtoC 0 ->
   flux kappa (a1, a2) (b1, b2) < flux kappa X Y).
Proof.
  intros Hs Hkr Hq Hz kappa X Y.
  set (p := exp (q * z)). set (p' := exp (- (q * z))).
  set (c := cos (kr * z)). set (t := sin (kr * z)).
  assert (EX : X = (p * (a1 * c - a2 * t), p * (a1 * t + a2 * c))).
  { unfold X, Cexp, cterm, Ci, RtoC, Cmult, Re, Im; cbn [fst snd].
    replace ((0 * kr - 1 * - q) * z - (0 * - q + 1 * kr) * 0) with (q * z) by ring.
    replace ((0 * kr - 1 * - q) * 0 + (0 * - q + 1 * kr) * z) with (kr * z) by ring.
    fold p c t. f_equal; ring. }
  assert (EY : Y = (p' * (b1 * c + b2 * t), p' * (b2 * c - b1 * t))).
  { unfold Y, Cexp, cterm, Ci, RtoC, Cmult, Copp, Re, Im; cbn [fst snd].
    replace (- ((0 * kr - 1 * - q) * z - (0 * - q + 1 * kr) * 0)) with (- (q * z)) by ring.
    replace (- ((0 * kr - 1 * - q) * 0 + (0 * - q + 1 * kr) * z)) with (- (kr * z)) by ring.
    rewrite cos_neg, sin_neg. fold p' c t. f_equal; ring. }
  assert (CT : c * c + t * t = 1).
  { unfold c, t. pose proof (sin2_cos2 (kr * z)) as H. unfold Rsqr in H. lra. }
  assert (PP : p * p' = 1).
  { unfold p, p'. rewrite <- exp_plus, Rplus_opp_r. apply exp_0. }
  assert (Hp : 0 < p) by apply exp_pos. assert (Hp' : 0 < p') by apply exp_pos.
  set (NA := a1 * a1 + a2 * a2). set (NB := b1 * b1 + b2 * b2).
  set (A := sqrt NA). set (B := sqrt NB).
  assert (HNA : 0 <= NA) by (unfold NA; nra). assert (HNB : 0 <= NB) by (unfold NB; nra).
  assert (HA : A * A = NA) by (apply sqrt_sqrt; assumption).
  assert (HB : B * B = NB) by (apply sqrt_sqrt; assumption).
  assert (PA : 0 <= A) by apply sqrt_pos. assert (PB : 0 <= B) by apply sqrt_pos.
  set (m1 := a1 * b1 + a2 * b2). set (m2 := a2 * b1 - a1 * b2).
  (* the difference of the fluxes *)
  set (E1 := NA * (p * p - 1) + NB * (1 - p' * p')).
  set (E2 := 2 * t * (m1 * c - m2 * t)).
  assert (Diff : flux kappa X Y - flux kappa (a1, a2) (b1, b2) = s * (kr * E1 - 2 * q * E2)).
  { rewrite EX, EY. unfold flux, Cnorm2, kappa, Cmult, Cconj, Re, Im; cbn [fst snd].
    assert (I1 : p * (a1 * c - a2 * t) * - (p' * (b2 * c - b1 * t)) +
                 p * (a1 * t + a2 * c) * (p' * (b1 * c + b2 * t)) =
                 m2 * (c * c - t * t) + 2 * m1 * (c * t)).
    { transitivity ((p * p') * ((a1 * t + a2 * c) * (b1 * c + b2 * t) - (a1 * c - a2 * t) * (b2 * c - b1 * t))); [ring|].
      rewrite PP. unfold m1, m2. ring. }
    rewrite I1.
    assert (N1 : (p * (a1 * c - a2 * t)) ^ 2 + (p * (a1 * t + a2 * c)) ^ 2 = p * p * NA).
    { transitivity (p * p * NA * (c * c + t * t)); [unfold NA; ring|]. rewrite CT. ring. }
    assert (N2 : (p' * (b1 * c + b2 * t)) ^ 2 + (p' * (b2 * c - b1 * t)) ^ 2 = p' * p' * NB).
    { transitivity (p' * p' * NB * (c * c + t * t)); [unfold NB; ring|]. rewrite CT. ring. }
    rewrite N1, N2. unfold E1, E2, NA, NB.
    assert (C2 : c * c = 1 - t * t) by lra. rewrite C2. unfold m2. ring. }
  (* bounds *)
  assert (HE2 : E2 <= 2 * (kr * z) * (A * B)).
  { assert (St : Rabs t <= kr * z) by (apply abs_sin_le; nra).
    assert (M : (m1 * c - m2 * t) * (m1 * c - m2 * t) <= (A * B) * (A * B)).
    { replace (A * B * (A * B)) with (NA * NB) by (rewrite <- HA, <- HB; ring).
      assert (m1 * m1 + m2 * m2 = NA * NB) by (unfold m1, m2, NA, NB; ring).
      assert ((m1 * c - m2 * t) * (m1 * c - m2 * t) + (m1 * t + m2 * c) * (m1 * t + m2 * c)
              = m1 * m1 + m2 * m2).
      { transitivity ((m1 * m1 + m2 * m2) * (c * c + t * t)); [ring|]. rewrite CT. ring. }
      pose proof (Rle_0_sqr (m1 * t + m2 * c)) as Q. unfold Rsqr in Q. lra. }
    assert (AB : 0 <= A * B) by (now apply Rmult_le_pos).
    assert (MA : Rabs (m1 * c - m2 * t) <= A * B).
    { rewrite <- (Rabs_pos_eq (A * B)) by assumption. apply Rsqr_le_abs_0. unfold Rsqr. exact M. }
    unfold E2. apply Rle_trans with (2 * (Rabs t * Rabs (m1 * c - m2 * t))).
    - rewrite <- Rabs_mult. pose proof (Rle_abs (t * (m1 * c - m2 * t))). lra.
    - assert (Rabs t * Rabs (m1 * c - m2 * t) <= kr * z * (A * B)).
      { apply Rmult_le_compat; try apply Rabs_pos; assumption. }
      lra. }
  assert (FE1 : E1 = (p - p') * (NA * p + NB * p')).
  { unfold E1. transitivity (NA * (p * p - p * p') + NB * (p * p' - p' * p')); [rewrite PP; ring|ring]. }
  assert (AG : 2 * (A * B) <= NA * p + NB * p').
  { rewrite <- HA, <- HB.
    assert (Q : 0 <= (A * p - B) * (A * p - B)) by apply Rle_0_sqr.
    assert (Q2 : (A * p - B) * (A * p - B) * p' = A * A * p + B * B * p' - 2 * (A * B)).
    { transitivity (A * A * p * (p * p') - 2 * (A * B) * (p * p') + B * B * p'); [ring|].
      rewrite PP. ring. }
    assert (0 <= (A * p - B) * (A * p - B) * p') by (apply Rmult_le_pos; lra). lra. }
  assert (AB : 0 <= A * B) by (now apply Rmult_le_pos).
  assert (Qz : 0 <= q * z) by (now apply Rmult_le_pos).
  assert (SH : 2 * (q * z) <= p - p') by (apply sinh_ge; assumption).
  assert (HE1 : 4 * (q * z) * (A * B) <= E1).
  { rewrite FE1. replace (4 * (q * z) * (A * B)) with ((2 * (q * z)) * (2 * (A * B))) by ring.
    apply Rmult_le_compat; try assumption; lra. }
  split.
  - assert (0 <= kr * E1 - 2 * q * E2).
    { assert (kr * (4 * (q * z) * (A * B)) <= kr * E1) by (apply Rmult_le_compat_l; lra).
      assert (2 * q * E2 <= 2 * q * (2 * (kr * z) * (A * B))) by (apply Rmult_le_compat_l; lra).
      lra. }
    assert (0 <= s * (kr * E1 - 2 * q * E2)) by (apply Rmult_le_pos; lra). lra.
  - intros Hq0 Hz0 Hne.
    assert (Qz0 : 0 < q * z) by (now apply Rmult_lt_0_compat).
    assert (SH' : 2 * (q * z) < p - p') by (now apply sinh_gt).
    assert (HN : 0 < NA * p + NB * p').
    { assert (0 < NA \/ 0 < NB).
      { destruct Hne as [H|H].
        - left. destruct (Rle_lt_or_eq_dec 0 NA HNA) as [G|G]; [exact G|]. exfalso. apply H.
          apply Cnorm2_zero. unfold Cnorm2, Re, Im; cbn [fst snd]. unfold NA in G. lra.
        - right. destruct (Rle_lt_or_eq_dec 0 NB HNB) as [G|G]; [exact G|]. exfalso. apply H.
          apply Cnorm2_zero. unfold Cnorm2, Re, Im; cbn [fst snd]. unfold NB in G. lra. }
      assert (0 <= NA * p) by (apply Rmult_le_pos; lra).
      assert (0 <= NB * p') by (apply Rmult_le_pos; lra).
      destruct H as [H|H].
      - assert (0 < NA * p) by (apply Rmult_lt_0_compat; lra). lra.
      - assert (0 < NB * p') by (apply Rmult_lt_0_compat; lra). lra. }
    assert (HE1' : 4 * (q * z) * (A * B) < E1).
    { rewrite FE1. apply Rle_lt_trans with (2 * (q * z) * (NA * p + NB * p')).
      - replace (4 * (q * z) * (A * B)) with (2 * (q * z) * (2 * (A * B))) by ring.
        apply Rmult_le_compat_l; lra.
      - apply Rmult_lt_compat_r; assumption. }
    assert (0 < kr * E1 - 2 * q * E2).
    { assert (kr * (4 * (q * z) * (A * B)) < kr * E1) by (apply Rmult_lt_compat_l; lra).
      assert (2 * q * E2 <= 2 * q * (2 * (kr * z) * (A * B))) by (apply Rmult_le_compat_l; lra).
      lra. }
    assert (0 < s * (kr * E1 - 2 * q * E2)) by (apply Rmult_lt_0_compat; lra). lra.
Qed.

(** A layer with modulus [rho c^2], [Re c > 0], [Im c >= 0]. *)
Definition phys (l : wlayer) : Prop :=
  exists rho, 0 < rho /\ wl_mod l = Cmult (RtoC rho) (Cmult (wl_vel l) (wl_vel l)) /\
    0 < Re (wl_vel l) /\ 0 <= Im (wl_vel l) /\ 0 <= wl_thick l.

Lemma phys_carries l : phys l -> carries l.
Proof.
  intros (rho & Hr & Hm & Hc & _). assert (V : wl_vel l <> RtoC 0).
  { intros E. rewrite E in Hc. cbn in Hc. lra. }
  split; [exact V|]. rewrite Hm. apply Cmult_neq_0; [apply RtoC_neq_0; lra|now apply Cmult_neq_0].
Qed.

(** Wave number and impedance of such a layer. *)
Definition kappa_of (w : R) (l : wlayer) : C := Cmult (Cdiv (RtoC w) (wl_vel l)) (wl_mod l).

Lemma phys_wave w l : 0 < w -> phys l ->
  exists s kr q, 0 < s /\ 0 < kr /\ 0 <= q /\
    (0 < Im (wl_vel l) -> 0 < q) /\
    Cdiv (RtoC w) (wl_vel l) = (kr, - q) /\ kappa_of w l = (s * kr, s * q).
Proof.
  intros Hw (rho & Hr & Hm & Hc & Hi & _).
  destruct (wl_vel l) as [cr ci] eqn:EV. unfold Re, Im in Hc, Hi; cbn [fst snd] in Hc, Hi.
  set (n := cr * cr + ci * ci). assert (Hn : 0 < n) by (unfold n; nra).
  exists (rho * n), (w * cr / n), (w * ci / n).
  split; [apply Rmult_lt_0_compat; lra|].
  split; [apply Rdiv_lt_0_compat; nra|].
  split; [unfold Rdiv; apply Rmult_le_pos; [nra|left; now apply Rinv_0_lt_compat]|].
  split; [intros Hi'; unfold Im in Hi'; cbn in Hi'; apply Rdiv_lt_0_compat; nra|].
  assert (E : Cdiv (RtoC w) (cr, ci) = (w * cr / n, - (w * ci / n))).
  { unfold Cdiv, Cinv, Cmult, RtoC; cbn [fst snd].
    replace (cr ^ 2 + ci ^ 2) with n by (unfold n; ring). f_equal; field; lra. }
  split; [exact E|]. unfold kappa_of. rewrite Hm, EV.
  replace (Cmult (Cdiv (RtoC w) (cr, ci)) (Cmult (RtoC rho) (Cmult (cr, ci) (cr, ci))))
    with (Cmult (Cmult (RtoC w) (RtoC rho)) (cr, ci)).
  - unfold Cmult, RtoC; cbn [fst snd]. f_equal; field; lra.
  - field. intros E0. apply (f_equal fst) in E0. cbn in E0. lra.
Qed.

(** Invariant at the top of each layer. *)
Definition lively (w : R) (l : wlayer) (ab : C * C) : Prop :=
  0 <= flux (kappa_of w l) (fst ab) (snd ab) /\
  (fst ab <> RtoC 0 \/ snd ab <> RtoC 0).

Lemma lively_step w l l' ab : 0 < w -> phys l -> phys l' ->
  lively w l ab -> lively w l' (step_py w l l' ab).
Proof.
  intros Hw Pl Pl' [HF HN].
  pose proof (phys_carries l Pl) as Cl. pose proof (phys_carries l' Pl') as Cl'.
  rewrite step_carry by (try assumption; lra).
  set (k := Cdiv (RtoC w) (wl_vel l)) in *. set (k' := Cdiv (RtoC w) (wl_vel l')) in *.
  set (c := Cdiv (Cmult k (wl_mod l)) (Cmult k' (wl_mod l'))).
  set (ct := cterm k (wl_thick l)).
  pose proof (transmit_sum c ct (fst ab) (snd ab)) as S1.
  pose proof (transmit_diff c ct (fst ab) (snd ab)) as S2.
  set (ab' := transmit c ct (fst ab) (snd ab)) in *.
  set (X := Cmult (fst ab) (Cexp ct)) in *. set (Y := Cmult (snd ab) (Cexp (Copp ct))) in *.
  assert (K1 : kappa_of w l = Cmult k (wl_mod l)) by reflexivity.
  assert (K2 : kappa_of w l' = Cmult k' (wl_mod l')) by reflexivity.
  assert (NK' : k' <> RtoC 0) by (apply Cdiv_neq_0; [apply RtoC_neq_0; lra|apply Cl']).
  assert (NK : k <> RtoC 0) by (apply Cdiv_neq_0; [apply RtoC_neq_0; lra|apply Cl]).
  assert (S3 : Cmult (kappa_of w l') (Cminus (fst ab') (snd ab')) =
               Cmult (kappa_of w l) (Cminus X Y)).
  { rewrite S2, K1, K2. unfold c. field. split; [apply Cl'|exact NK']. }
  split.
  - rewrite (flux_interface (kappa_of w l) (kappa_of w l') X Y); [|exact S1|exact S3].
    destruct (phys_wave w l Hw Pl) as (s & kr & q & Hs & Hkr & Hq & _ & Ek & EK).
    destruct ab as [[a1 a2] [b1 b2]]. cbn [fst snd] in *.
    destruct Pl as (rho & _ & _ & _ & _ & Hth).
    pose proof (flux_bound s kr q a1 a2 b1 b2 (wl_thick l) Hs Hkr Hq Hth) as [HB _].
    rewrite <- EK in HB. rewrite <- Ek in HB. fold k in HB. fold ct in HB. fold X in HB. fold Y in HB.
    lra.
  - destruct (Ceq_dec (fst ab') (RtoC 0)) as [E1|N1]; [|now left].
    destruct (Ceq_dec (snd ab') (RtoC 0)) as [E2|N2]; [|now right].
    exfalso. rewrite E1, E2 in S1, S3.
    assert (D : Cminus X Y = RtoC 0).
    { assert (NKK : kappa_of w l <> RtoC 0) by (rewrite K1; apply Cmult_neq_0; [exact NK|apply Cl]).
      destruct (Ceq_dec (Cminus X Y) (RtoC 0)) as [Z|Z]; [exact Z|].
      exfalso. apply (Cmult_neq_0 _ _ NKK Z). rewrite <- S3. ring. }
    assert (X0 : X = RtoC 0).
    { transitivity (Cmult c_half (Cplus (Cplus X Y) (Cminus X Y))).
      - transitivity (Cmult (Cplus c_half c_half) X); [rewrite half_double; unfold c_one; ring|ring].
      - rewrite <- S1, D. ring. }
    assert (Y0 : Y = RtoC 0).
    { transitivity (Cminus X (Cminus X Y)); [ring|]. rewrite D, X0. ring. }
    destruct HN as [H|H].
    + apply (Cmult_neq_0 _ _ H (Cexp_neq_0 ct)). exact X0.
    + apply (Cmult_neq_0 _ _ H (Cexp_neq_0 (Copp ct))). exact Y0.
Qed.

Lemma lively_up w l ab : 0 < w -> phys l -> lively w l ab -> fst ab <> RtoC 0.
Proof.
  intros Hw Pl [HF HN] E. destruct HN as [H|H]; [contradiction|].
  destruct (phys_wave w l Hw Pl) as (s & kr & q & Hs & Hkr & Hq & _ & Ek & EK).
  rewrite E, EK in HF. unfold flux in HF.
  assert (0 < Cnorm2 (snd ab)).
  { destruct (Rle_lt_or_eq_dec 0 _ (Cnorm2_nonneg (snd ab))) as [G|G]; [exact G|].
    exfalso. apply H. now apply Cnorm2_zero. }
  assert (Z : Cnorm2 (RtoC 0) = 0) by (unfold Cnorm2, RtoC, Re, Im; cbn; ring).
  rewrite Cmult_0_l, Z in HF. unfold RtoC, Re, Im in HF; cbn [fst snd] in HF.
  assert (0 < s * kr * Cnorm2 (snd ab)) by (repeat apply Rmult_lt_0_compat; assumption).
  lra.
Qed.

Lemma lively_first w l : lively w l (c_one, c_one).
Proof.
  split; cbn [fst snd]; [|left; apply C1_neq_0].
  unfold flux, c_one, Cnorm2, Cmult, Cconj, RtoC, Re, Im; cbn. lra.
Qed.

Lemma lively_all w ls : 0 < w -> List.Forall phys ls -> forall i l ab,
  nth_error ls i = Some l -> nth_error (waves_from w ls (c_one, c_one)) i = Some ab ->
  lively w l ab.
Proof.
  intros Hw HF. rewrite Forall_forall in HF.
  induction i as [|i IH]; intros l ab Hl Hab.
  - destruct ls as [|l0 ls]; [discriminate|]. cbn in Hl, Hab.
    injection Hl as <-. injection Hab as <-. apply lively_first.
  - destruct (nth_error ls i) as [l0|] eqn:E0.
    2:{ apply nth_error_None in E0. assert (S i < length ls)%nat by (apply nth_error_Some; congruence). lia. }
    destruct (nth_error (waves_from w ls (c_one, c_one)) i) as [ab0|] eqn:Eab.
    2:{ apply nth_error_None in Eab. rewrite waves_from_length in Eab.
        assert (i < length ls)%nat by (apply nth_error_Some; congruence). lia. }
    rewrite (waves_from_next w ls _ i l0 l ab0 E0 Hl Eab) in Hab. injection Hab as <-.
    apply lively_step; auto.
    + apply HF. eapply nth_error_In; eauto.
    + apply HF. eapply nth_error_In; eauto.
Qed.

(** Layers of a profile. *)
Lemma clip_damping D : 0 <= clip D 0 0.49 <= 0.49.
Proof.
  unfold clip. split.
  - apply Rmin_glb; [apply Rmax_r|lra].
  - apply Rmin_r.
Qed.

Lemma comp_mod_parts G D :
  let d := clip D 0 0.49 in
  comp_shear_mod_of Dormieux G D = (G * sqrt (1 - 4 * d ^ 2), G * (2 * d)).
Proof.
  intros d. unfold comp_shear_mod_of, comp_factor, Cmult, RtoC; cbn [fst snd].
  fold d. f_equal; ring.
Qed.

Lemma factor_pos D : 0 < sqrt (1 - 4 * clip D 0 0.49 ^ 2).
Proof. apply sqrt_lt_R0. pose proof (clip_damping D). nra. Qed.

Lemma density_pos l : 0 < s_unit_wt (l_soil l) -> 0 < density (l_soil l).
Proof. intros H. unfold density, GRAVITY. apply Rdiv_lt_0_compat; lra. Qed.

Lemma vel_arg l : 0 < s_unit_wt (l_soil l) ->
  Cdiv (comp_shear_mod l) (RtoC (density (l_soil l))) =
  (shear_mod l * sqrt (1 - 4 * clip (damping l) 0 0.49 ^ 2) / density (l_soil l),
   shear_mod l * (2 * clip (damping l) 0 0.49) / density (l_soil l)).
Proof.
  intros H. pose proof (density_pos l H) as Hd.
  unfold comp_shear_mod, COMP_MODULUS_MODEL. rewrite comp_mod_parts.
  unfold Cdiv, Cinv, Cmult, RtoC; cbn [fst snd]. f_equal; field; lra.
Qed.

Lemma vel_sqr l : 0 < s_unit_wt (l_soil l) ->
  Cmult (RtoC (density (l_soil l))) (Cmult (comp_shear_vel l) (comp_shear_vel l)) = comp_shear_mod l.
Proof.
  intros H. unfold comp_shear_vel. rewrite Csqrt_sqr. field.
  apply RtoC_neq_0. pose proof (density_pos l H). lra.
Qed.

Lemma sound_phys l : sound l -> phys (wlayer_of l).
Proof.
  intros (HG & Hu & Ht). exists (density (l_soil l)). cbn [wlayer_of wl_vel wl_mod wl_thick].
  pose proof (density_pos l Hu) as Hd.
  split; [exact Hd|]. split; [symmetry; now apply vel_sqr|].
  unfold comp_shear_vel. rewrite vel_arg by assumption. split; [|split; [|exact Ht]].
  - apply Csqrt_Re_pos. unfold Re; cbn [fst]. apply Rdiv_lt_0_compat; [|exact Hd].
    apply Rmult_lt_0_compat; [exact HG|apply factor_pos].
  - apply Csqrt_Im_nonneg. unfold Im; cbn [snd].
    pose proof (clip_damping (damping l)). unfold Rdiv. apply Rmult_le_pos; [nra|].
    left. now apply Rinv_0_lt_compat.
Qed.

(** C25 *)
Theorem upgoing_nonzero w ls rs : 1e-8 < w -> List.Forall sound ls ->
  calc_waves_python w (map wlayer_of ls) = Ok rs ->
  List.Forall (fun r => r_a r <> RtoC 0 /\ r_k r <> None) rs /\
  forall lin lout, (loc_index lin < length ls)%nat -> (loc_index lout < length ls)%nat ->
    loc_field lin <> Within -> exists tf, calc_accel_tf rs lin lout = Ok (Some tf).
Proof.
  intros Hw HF H.
  assert (Hw' : 1e-8 < Rabs w) by (rewrite Rabs_pos_eq; lra).
  assert (HP : List.Forall phys (map wlayer_of ls)).
  { apply Forall_forall. intros x Hx. apply in_map_iff in Hx. destruct Hx as (l & <- & Hl).
    rewrite Forall_forall in HF. now apply sound_phys, HF. }
  assert (Hrow : forall i r, nth_error rs i = Some r -> r_a r <> RtoC 0 /\ exists k, r_k r = Some k).
  { intros i r Hr.
    assert (HL : length rs = length (map wlayer_of ls)).
    { destruct (map wlayer_of ls) as [|x xs]; [discriminate|]. apply Ok_inj in H. subst rs.
      unfold rows. rewrite map_length, combine_length.
      destruct (isclose w 0); [rewrite set_last_ones_length|]; rewrite waves_from_length; lia. }
    destruct (nth_error (map wlayer_of ls) i) as [l|] eqn:El.
    2:{ apply nth_error_None in El. assert (i < length rs)%nat by (apply nth_error_Some; congruence). lia. }
    pose proof HP as HP'. rewrite Forall_forall in HP'.
    pose proof (HP' l (nth_error_In _ _ El)) as Pl.
    destruct (field_plane w _ rs i l Hw' H El (proj1 (phys_carries l Pl))) as (ab & E1 & E2 & _).
    rewrite Hr in E2. injection E2 as ->. cbn [r_a r_k]. split; [|now eexists].
    apply (lively_up w l ab); [lra|exact Pl|]. eapply lively_all; eauto. lra. }
  assert (HL : length rs = length ls).
  { destruct ls as [|x xs]; [discriminate|]. apply Ok_inj in H. subst rs.
    unfold rows. rewrite map_length, combine_length.
    destruct (isclose w 0); [rewrite set_last_ones_length|]; rewrite waves_from_length;
      cbn [map length]; rewrite map_length; lia. }
  split.
  - apply Forall_forall. intros r Hr. apply In_nth_error in Hr. destruct Hr as [i Hi].
    destruct (Hrow i r Hi) as [Ha [k Hk]]. split; [exact Ha|]. rewrite Hk. discriminate.
  - intros lin lout Hi Ho Hf.
    destruct (nth_error rs (loc_index lin)) as [ri|] eqn:Ei.
    2:{ apply nth_error_None in Ei. lia. }
    destruct (nth_error rs (loc_index lout)) as [ro|] eqn:Eo.
    2:{ apply nth_error_None in Eo. lia. }
    destruct (Hrow _ _ Ei) as [Hai [ki Hki]]. destruct (Hrow _ _ Eo) as [_ [ko Hko]].
    unfold calc_accel_tf, wave_at_location. rewrite Ei, Eo. cbn [bind].
    unfold wave_at. rewrite Hki, Hko.
    eexists. f_equal. apply cdivx_some.
    destruct (loc_field lin); [|contradiction|].
    + apply Cmult_neq_0; [|apply Cexp_neq_0]. apply Cmult_neq_0; [|exact Hai].
      apply RtoC_neq_0. lra.
    + apply Cmult_neq_0; [exact Hai|apply Cexp_neq_0].
Qed.

(** With damping, the motion vanishes nowhere: below any depth energy flows. *)
Definition driven (w : R) (l : wlayer) (ab : C * C) : Prop :=
  0 < flux (kappa_of w l) (fst ab) (snd ab) \/ (fst ab = snd ab /\ fst ab <> RtoC 0).

Lemma driven_down w l ab z : 0 < w -> phys l -> 0 < Im (wl_vel l) -> 0 <= z ->
  driven w l ab ->
  let X := Cmult (fst ab) (Cexp (cterm (Cdiv (RtoC w) (wl_vel l)) z)) in
  let Y := Cmult (snd ab) (Cexp (Copp (cterm (Cdiv (RtoC w) (wl_vel l)) z))) in
  driven w l (X, Y).
Proof.
  intros Hw Pl Hi Hz HD X Y.
  destruct (phys_wave w l Hw Pl) as (s & kr & q & Hs & Hkr & Hq & Hq' & Ek & EK).
  specialize (Hq' Hi).
  destruct (Rle_lt_or_eq_dec 0 z Hz) as [Hz0|Hz0].
  - left. cbn [fst snd]. destruct ab as [[a1 a2] [b1 b2]]. unfold driven in HD. cbn [fst snd] in *.
    pose proof (flux_bound s kr q a1 a2 b1 b2 z Hs Hkr Hq Hz) as [HB1 HB2].
    rewrite <- EK, <- Ek in HB1, HB2. fold X Y in HB1, HB2.
    destruct HD as [HD|[HD1 HD2]]; [lra|].
    specialize (HB2 Hq' Hz0 (or_introl HD2)).
    assert (F0 : flux (kappa_of w l) (a1, a2) (b1, b2) = 0).
    { rewrite flux_fields, <- HD1. unfold Cmult, Cminus, Cplus, Copp, Im; cbn. ring. }
    lra.
  - subst z. unfold X, Y. rewrite cterm_0.
    replace (Copp (RtoC 0)) with (RtoC 0) by ring. rewrite Cexp_0, !Cmult_1_r.
    destruct ab; exact HD.
Qed.

Lemma driven_motion w l ab : driven w l ab -> Cplus (fst ab) (snd ab) <> RtoC 0.
Proof.
  intros [H|[H1 H2]] E.
  - rewrite flux_fields, E in H. revert H.
    replace (Cconj (RtoC 0)) with (RtoC 0) by (unfold Cconj, RtoC; cbn; f_equal; ring).
    rewrite Cmult_0_l. change (Im (RtoC 0)) with 0. lra.
  - apply H2. rewrite <- H1 in E.
    transitivity (Cmult c_half (Cplus (fst ab) (fst ab))).
    + transitivity (Cmult (Cplus c_half c_half) (fst ab)); [rewrite half_double; unfold c_one; ring|ring].
    + rewrite E. ring.
Qed.

Lemma driven_step w l l' ab : 0 < w -> phys l -> phys l' -> 0 < Im (wl_vel l) ->
  driven w l ab -> driven w l' (step_py w l l' ab).
Proof.
  intros Hw Pl Pl' Hi HD.
  pose proof (phys_carries l Pl) as Cl. pose proof (phys_carries l' Pl') as Cl'.
  rewrite step_carry by (try assumption; lra).
  assert (Hth : 0 <= wl_thick l) by (destruct Pl as (rho & _ & _ & _ & _ & Hth); exact Hth).
  pose proof (driven_down w l ab (wl_thick l) Hw Pl Hi Hth HD) as HXY. cbn zeta in HXY.
  set (k := Cdiv (RtoC w) (wl_vel l)) in *. set (k' := Cdiv (RtoC w) (wl_vel l')) in *.
  set (c := Cdiv (Cmult k (wl_mod l)) (Cmult k' (wl_mod l'))).
  set (ct := cterm k (wl_thick l)) in *.
  pose proof (transmit_sum c ct (fst ab) (snd ab)) as S1.
  pose proof (transmit_diff c ct (fst ab) (snd ab)) as S2.
  set (ab' := transmit c ct (fst ab) (snd ab)) in *.
  set (X := Cmult (fst ab) (Cexp ct)) in *. set (Y := Cmult (snd ab) (Cexp (Copp ct))) in *.
  assert (NK' : k' <> RtoC 0) by (apply Cdiv_neq_0; [apply RtoC_neq_0; lra|apply Cl']).
  assert (NK : k <> RtoC 0) by (apply Cdiv_neq_0; [apply RtoC_neq_0; lra|apply Cl]).
  assert (S3 : Cmult (kappa_of w l') (Cminus (fst ab') (snd ab')) =
               Cmult (kappa_of w l) (Cminus X Y)).
  { rewrite S2. unfold kappa_of. fold k k'. unfold c. field. split; [apply Cl'|exact NK']. }
  pose proof (driven_motion w l _ HXY) as HM. cbn [fst snd] in HM.
  destruct HXY as [H|[H1 H2]]; cbn [fst snd] in *.
  - left. rewrite (flux_interface (kappa_of w l) (kappa_of w l') X Y); assumption.
  - right. assert (E : fst ab' = snd ab').
    { assert (Z : Cminus (fst ab') (snd ab') = RtoC 0) by (rewrite S2, H1; ring).
      transitivity (Cplus (Cminus (fst ab') (snd ab')) (snd ab')); [ring|]. rewrite Z. ring. }
    split; [exact E|]. intros Z. apply HM. rewrite <- S1, <- E, Z. ring.
Qed.

Lemma driven_all w ls : 0 < w -> List.Forall (fun l => phys l /\ 0 < Im (wl_vel l)) ls -> forall i l ab,
  nth_error ls i = Some l -> nth_error (waves_from w ls (c_one, c_one)) i = Some ab ->
  driven w l ab.
Proof.
  intros Hw HF. rewrite Forall_forall in HF.
  induction i as [|i IH]; intros l ab Hl Hab.
  - destruct ls as [|l0 ls]; [discriminate|]. cbn in Hl, Hab.
    injection Hl as <-. injection Hab as <-. right. split; [reflexivity|apply C1_neq_0].
  - destruct (nth_error ls i) as [l0|] eqn:E0.
    2:{ apply nth_error_None in E0. assert (S i < length ls)%nat by (apply nth_error_Some; congruence). lia. }
    destruct (nth_error (waves_from w ls (c_one, c_one)) i) as [ab0|] eqn:Eab.
    2:{ apply nth_error_None in Eab. rewrite waves_from_length in Eab.
        assert (i < length ls)%nat by (apply nth_error_Some; congruence). lia. }
    rewrite (waves_from_next w ls _ i l0 l ab0 E0 Hl Eab) in Hab. injection Hab as <-.
    pose proof (HF l0 (nth_error_In _ _ E0)) as [P1 P2].
    pose proof (HF l (nth_error_In _ _ Hl)) as [P3 P4].
    apply driven_step; auto.
Qed.

Lemma damped_vel l : sound l -> 0 < damping l -> 0 < Im (comp_shear_vel l).
Proof.
  intros (HG & Hu & _) Dp.
  pose proof (density_pos l Hu) as Hd.
  assert (Ic : 0 < Im (Cdiv (comp_shear_mod l) (RtoC (density (l_soil l))))).
  { rewrite vel_arg by assumption. unfold Im; cbn [snd]. apply Rdiv_lt_0_compat; [|exact Hd].
    assert (0 < clip (damping l) 0 0.49).
    { unfold clip. apply Rmin_glb_lt; [|lra]. apply Rlt_le_trans with (damping l); [lra|apply Rmax_l]. }
    apply Rmult_lt_0_compat; lra. }
  set (y := Cdiv (comp_shear_mod l) (RtoC (density (l_soil l)))) in *.
  unfold comp_shear_vel. fold y.
  destruct (Rle_lt_or_eq_dec 0 _ (Csqrt_Im_nonneg y ltac:(lra))) as [G|G]; [exact G|].
  exfalso. pose proof (Csqrt_sqr y) as S. apply (f_equal Im) in S.
  unfold Im at 1, Cmult in S; cbn [snd] in S.
  change (snd (Csqrt y)) with (Im (Csqrt y)) in S. rewrite <- G in S. lra.
Qed.

Theorem damped_motion_nonzero w ls rs : 1e-8 < w -> List.Forall sound ls ->
  List.Forall (fun l => 0 < damping l) ls ->
  calc_waves_python w (map wlayer_of ls) = Ok rs ->
  forall i l z, nth_error ls i = Some l -> 0 <= z ->
  exists v, wave_at_location rs (mkLoc i z Within) = Ok (Some v) /\ v <> RtoC 0.
Proof.
  intros Hw HF HD H i l z Hl Hz.
  assert (Hw' : 1e-8 < Rabs w) by (rewrite Rabs_pos_eq; lra).
  rewrite Forall_forall in HF, HD.
  assert (HP : List.Forall (fun l => phys l /\ 0 < Im (wl_vel l)) (map wlayer_of ls)).
  { apply Forall_forall. intros x Hx. apply in_map_iff in Hx. destruct Hx as (m & <- & Hm).
    split; [now apply sound_phys, HF|]. cbn [wlayer_of wl_vel]. apply damped_vel; auto. }
  assert (El : nth_error (map wlayer_of ls) i = Some (wlayer_of l)) by (now apply map_nth_error).
  pose proof (sound_phys l (HF l (nth_error_In _ _ Hl))) as Pl.
  destruct (field_plane w _ rs i _ Hw' H El (proj1 (phys_carries _ Pl))) as (ab & E1 & E2 & F).
  pose proof (driven_all w _ ltac:(lra) HP i _ ab El E1) as Dv.
  eexists. split; [apply F|].
  assert (Hi : 0 < Im (wl_vel (wlayer_of l))).
  { cbn [wlayer_of wl_vel]. apply damped_vel; [apply HF|apply HD]; eapply nth_error_In; eauto. }
  pose proof (driven_down w _ ab z ltac:(lra) Pl Hi Hz Dv) as HXY.
  exact (driven_motion _ _ _ HXY).
Qed.
