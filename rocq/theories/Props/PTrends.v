(** Property C128: the direction in which the curves of the soil types move. *)
From Coq Require Import String.
From Verif Require Import Common Model.Curve Model.Layer Model.SoilModels Spec.SoilModelSpec Proof.CommonFacts Proof.CurveFacts Proof.HyperbolicFacts Proof.HyperbolicProps Proof.ModelTrend.
Local Open Scope R_scope.

Local Open Scope R_scope.
Definition tr_strains : option (list R) := Some [0.0001; 0.001; 0.01].
Lemma tr_strains_pos : List.Forall (fun s => 0 < s) (strains_or_default tr_strains).
Proof. cbn. repeat (apply Forall_cons; [lra|]). apply Forall_nil. Qed.
Lemma tr_cycles n : n <= 90 -> n <= exp 90.
Proof. intros H. pose proof (exp_ineq1_le 90). lra. Qed.
Lemma tr_darendeli d : 0 <= da_pi d -> 0 < da_ocr d -> 0 < da_stress d -> 0 < da_freq d -> 0 < da_cycles d <= 90 ->
  exists s, darendeli_soil 0 "" 18 d None tr_strains = Some s.
Proof.
  intros H1 H2 H3 H4 H5. destruct (darendeli_shape 0 "" 18 d None tr_strains H1 H2 H3 H4) as (dm & s & _ & E & _).
  - split; [lra|]. apply tr_cycles. lra.
  - exact tr_strains_pos.
  - now exists s.
Qed.
Lemma tr_atm x : 101.325 <= x <= 200 -> Rpower 10 (-8) <= x * KPA_TO_ATM <= Rpower 10 6 /\ exp (-8) <= x * KPA_TO_ATM /\
  0 < 0.86 + 0.1 * (ln (x * KPA_TO_ATM) / ln 10) <= 3 / 2.
Proof.
  intros H. assert (B : 1 <= x * KPA_TO_ATM <= 2) by (unfold KPA_TO_ATM; lra).
  assert (L10 : 1 < ln 10). { rewrite <- (ln_exp 1). apply ln_increasing; [apply exp_pos|]. pose proof exp_le_3. lra. }
  assert (E8 : forall y, y <= 0 -> exp y <= 1) by (intros y [Hy| ->]; [left; rewrite <- exp_0; now apply exp_increasing|rewrite exp_0; lra]).
  split; [split|split].
  - unfold Rpower. assert (exp (-8 * ln 10) <= 1) by (apply E8; lra). lra.
  - unfold Rpower. pose proof (exp_ineq1_le (6 * ln 10)). lra.
  - assert (exp (-8) <= 1) by (apply E8; lra). lra.
  - assert (0 <= ln (x * KPA_TO_ATM)) by (rewrite <- ln_1; apply ln_le; lra).
    assert (ln (x * KPA_TO_ATM) <= ln 10) by (apply ln_le; lra).
    assert (I : 0 < / ln 10) by (apply Rinv_0_lt_compat; lra).
    assert (0 <= ln (x * KPA_TO_ATM) / ln 10) by (unfold Rdiv; apply Rmult_le_pos; lra).
    assert (ln (x * KPA_TO_ATM) / ln 10 <= 1).
    { unfold Rdiv. rewrite <- (Rinv_r (ln 10)) by lra. apply Rmult_le_compat_r; lra. }
    lra.
Qed.
Lemma tr_menq m : 0 < mq_cu m -> 0 < mq_d50 m -> 101.325 <= mq_stress m <= 200 -> 0 < mq_cycles m <= 90 ->
  exists s, menq_soil 0 "" 18 m None tr_strains = Some s.
Proof.
  intros H1 H2 H3 H4. destruct (menq_shape 0 "" 18 m None tr_strains H1 H2 (proj1 (tr_atm _ H3))) as (dm & s & _ & E & _).
  - split; [lra|]. apply tr_cycles. lra.
  - exact tr_strains_pos.
  - now exists s.
Qed.
Lemma tr_rollins r g : (forall cu, ro_cu r = Some cu -> 0 < cu) -> 0 < ro_stress r -> 0 < ro_cycles r <= 90 ->
  exists s, rollins_soil 0 "" 18 r g tr_strains = Some s.
Proof.
  intros H1 H2 H3. destruct (rollins_shape 0 "" 18 r g tr_strains H1 H2) as (dm & s & _ & E & _).
  - split; [lra|]. apply tr_cycles. lra.
  - exact tr_strains_pos.
  - now exists s.
Qed.

(** C128: a higher plasticity index, overconsolidation ratio or stress never lowers the
    modulus reduction of a Darendeli soil at any strain. *)
Theorem C128_darendeli_modulus : forall id id' n n' uw uw' d d' given given' ss s s',
  0 <= da_pi d <= da_pi d' -> 0 < da_ocr d <= da_ocr d' -> 0 < da_stress d <= da_stress d' ->
  List.Forall (fun s => 0 < s) (strains_or_default ss) -> strains_or_default ss <> [] ->
  darendeli_soil id n uw d given ss = Some s -> darendeli_soil id' n' uw' d' given' ss = Some s' -> stiffer s s'.
Proof. exact darendeli_stiffer. Qed.
Print Assumptions C128_darendeli_modulus.
Example C128_darendeli_modulus_ex : exists s s', darendeli_soil 0 "" 18 (mkDarendeli 10 1 100 1 10) None tr_strains = Some s /\
  darendeli_soil 0 "" 18 (mkDarendeli 30 2 200 1 10) None tr_strains = Some s'.
Proof.
  destruct (tr_darendeli (mkDarendeli 10 1 100 1 10)) as [s E]; cbn; try lra.
  destruct (tr_darendeli (mkDarendeli 30 2 200 1 10)) as [s' E']; cbn; try lra. now exists s, s'.
Qed.

(** C128: the minimum damping of a Darendeli soil grows with the plasticity index and
    the frequency and falls with the overconsolidation ratio and the stress, from 1 Hz
    on. *)
Theorem C128_darendeli_minimum : forall d d' dm dm',
  0 <= da_pi d <= da_pi d' -> 0 < da_ocr d' <= da_ocr d -> 0 < da_stress d' <= da_stress d ->
  1 <= da_freq d <= da_freq d' -> darendeli_damping_min d = Some dm -> darendeli_damping_min d' = Some dm' -> 0 < dm <= dm'.
Proof. exact darendeli_minimum_trend. Qed.
Print Assumptions C128_darendeli_minimum.
Example C128_darendeli_minimum_ex : (exists dm, darendeli_damping_min (mkDarendeli 10 2 200 1 10) = Some dm) /\ exists dm, darendeli_damping_min (mkDarendeli 30 1 100 5 10) = Some dm.
Proof.
  split; [destruct (darendeli_shape 0 "" 18 (mkDarendeli 10 2 200 1 10) None tr_strains) as (dm & s & E & _)
         |destruct (darendeli_shape 0 "" 18 (mkDarendeli 30 1 100 5 10) None tr_strains) as (dm & s & E & _)];
    cbn; try lra; try (split; [lra|apply tr_cycles; lra]); try exact tr_strains_pos; now exists dm.
Qed.

(** C128: more cycles or a lower frequency never raise the damping at any strain. *)
Theorem C128_darendeli_damping : forall id id' n n' uw uw' d d' ss s s',
  da_pi d = da_pi d' -> da_ocr d = da_ocr d' -> da_stress d = da_stress d' ->
  0 <= da_pi d -> 0 < da_ocr d -> 0 < da_stress d -> 1 <= da_freq d <= da_freq d' -> 0 < da_cycles d' <= da_cycles d ->
  List.Forall (fun s => 0 < s) (strains_or_default ss) -> strains_or_default ss <> [] ->
  darendeli_soil id n uw d None ss = Some s -> darendeli_soil id' n' uw' d' None ss = Some s' -> more_damped s s'.
Proof. exact darendeli_damped. Qed.
Print Assumptions C128_darendeli_damping.
Example C128_darendeli_damping_ex : exists s s', darendeli_soil 0 "" 18 (mkDarendeli 10 1 100 1 10) None tr_strains = Some s /\
  darendeli_soil 0 "" 18 (mkDarendeli 10 1 100 5 2) None tr_strains = Some s'.
Proof.
  destruct (tr_darendeli (mkDarendeli 10 1 100 1 10)) as [s E]; cbn; try lra.
  destruct (tr_darendeli (mkDarendeli 10 1 100 5 2)) as [s' E']; cbn; try lra. now exists s, s'.
Qed.

(** C128: a more uniform soil (lower coefficient of uniformity, at least one) has a Menq
    modulus reduction at least as high at every strain. *)
Theorem C128_menq_modulus : forall id id' n n' uw uw' m m' given given' ss s s',
  1 <= mq_cu m' <= mq_cu m -> mq_stress m = mq_stress m' -> exp (-8) <= mq_stress m * KPA_TO_ATM ->
  0 < 0.86 + 0.1 * (ln (mq_stress m * KPA_TO_ATM) / ln 10) ->
  List.Forall (fun s => 0 < s) (strains_or_default ss) -> strains_or_default ss <> [] ->
  menq_soil id n uw m given ss = Some s -> menq_soil id' n' uw' m' given' ss = Some s' -> stiffer s s'.
Proof. exact menq_stiffer. Qed.
Print Assumptions C128_menq_modulus.
Example C128_menq_modulus_ex : (exp (-8) <= 150 * KPA_TO_ATM /\ 0 < 0.86 + 0.1 * (ln (150 * KPA_TO_ATM) / ln 10)) /\
  exists s s', menq_soil 0 "" 18 (mkMenq 20 5 150 10) None tr_strains = Some s /\ menq_soil 0 "" 18 (mkMenq 2 5 150 10) None tr_strains = Some s'.
Proof.
  destruct (tr_atm 150) as (_ & A & B & _); [lra|]. split; [split; assumption|].
  destruct (tr_menq (mkMenq 20 5 150 10)) as [s E]; cbn; try lra.
  destruct (tr_menq (mkMenq 2 5 150 10)) as [s' E']; cbn; try lra. now exists s, s'.
Qed.

(** C128: the Menq minimum damping grows with the coefficient of uniformity and falls
    with the grain size and the stress. *)
Theorem C128_menq_minimum : forall m m' dm dm',
  0 < mq_cu m <= mq_cu m' -> 0 < mq_d50 m' <= mq_d50 m -> 0 < mq_stress m' <= mq_stress m ->
  menq_damping_min m = Some dm -> menq_damping_min m' = Some dm' -> 0 < dm <= dm'.
Proof. exact menq_minimum_trend. Qed.
Print Assumptions C128_menq_minimum.
Example C128_menq_minimum_ex : exists dm, menq_damping_min (mkMenq 2 5 150 10) = Some dm.
Proof. destruct (menq_shape 0 "" 18 (mkMenq 2 5 150 10) None tr_strains) as (dm & s & E & _); cbn; try lra; [apply tr_atm; lra|split; [lra|apply tr_cycles; lra]|exact tr_strains_pos|]. now exists dm. Qed.

(** C128: more cycles or larger grains never raise the Menq damping at any strain. *)
Theorem C128_menq_damping : forall id id' n n' uw uw' m m' ss s s',
  mq_cu m = mq_cu m' -> mq_stress m = mq_stress m' -> 0 < mq_cu m -> 0 < mq_stress m ->
  0 < 0.86 + 0.1 * (ln (mq_stress m * KPA_TO_ATM) / ln 10) <= 3 / 2 ->
  0 < mq_d50 m' <= mq_d50 m -> 0 < mq_cycles m' <= mq_cycles m ->
  List.Forall (fun s => 0 < s) (strains_or_default ss) -> strains_or_default ss <> [] ->
  menq_soil id n uw m None ss = Some s -> menq_soil id' n' uw' m' None ss = Some s' -> more_damped s s'.
Proof. exact menq_damped. Qed.
Print Assumptions C128_menq_damping.
Example C128_menq_damping_ex : 0 < 0.86 + 0.1 * (ln (150 * KPA_TO_ATM) / ln 10) <= 3 / 2 /\
  exists s s', menq_soil 0 "" 18 (mkMenq 2 5 150 10) None tr_strains = Some s /\ menq_soil 0 "" 18 (mkMenq 2 1 150 5) None tr_strains = Some s'.
Proof.
  split; [apply tr_atm; lra|]. destruct (tr_menq (mkMenq 2 5 150 10)) as [s E]; cbn; try lra.
  destruct (tr_menq (mkMenq 2 1 150 5)) as [s' E']; cbn; try lra. now exists s, s'.
Qed.

(** C128: with and without a coefficient of uniformity, a lower one or a higher stress
    never lowers the Rollins modulus reduction at any strain. *)
Theorem C128_rollins_modulus : forall id id' n n' uw uw' r r' given given' ss s s',
  (ro_cu r = None /\ ro_cu r' = None \/ exists a b, ro_cu r = Some a /\ ro_cu r' = Some b /\ 0 < b <= a) ->
  0 < ro_stress r <= ro_stress r' ->
  List.Forall (fun s => 0 < s) (strains_or_default ss) -> strains_or_default ss <> [] ->
  rollins_soil id n uw r given ss = Some s -> rollins_soil id' n' uw' r' given' ss = Some s' -> stiffer s s'.
Proof. exact rollins_stiffer. Qed.
Print Assumptions C128_rollins_modulus.
Example C128_rollins_modulus_ex : exists s s', rollins_soil 0 "" 18 (mkRollins 100 (Some 20) 10) None tr_strains = Some s /\
  rollins_soil 0 "" 18 (mkRollins 200 (Some 5) 10) None tr_strains = Some s'.
Proof.
  destruct (tr_rollins (mkRollins 100 (Some 20) 10) None) as [s E]; cbn; try lra; [intros cu [= <-]; lra|].
  destruct (tr_rollins (mkRollins 200 (Some 5) 10) None) as [s' E']; cbn; try lra; [intros cu [= <-]; lra|]. now exists s, s'.
Qed.

(** C128: more cycles or a lower minimum damping never raise the Rollins damping at any
    strain. *)
Theorem C128_rollins_damping : forall id id' n n' uw uw' r r' dm dm' ss s s',
  ro_cu r = ro_cu r' -> ro_stress r = ro_stress r' -> (forall a, ro_cu r = Some a -> 0 < a) -> 0 < ro_stress r ->
  0 < ro_cycles r' <= ro_cycles r -> dm <= dm' ->
  List.Forall (fun s => 0 < s) (strains_or_default ss) -> strains_or_default ss <> [] ->
  rollins_soil id n uw r (Some dm) ss = Some s -> rollins_soil id' n' uw' r' (Some dm') ss = Some s' -> more_damped s s'.
Proof. exact rollins_damped. Qed.
Print Assumptions C128_rollins_damping.
Example C128_rollins_damping_ex : exists s s', rollins_soil 0 "" 18 (mkRollins 100 None 10) (Some 0.01) tr_strains = Some s /\
  rollins_soil 0 "" 18 (mkRollins 100 None 5) (Some 0.02) tr_strains = Some s'.
Proof.
  destruct (tr_rollins (mkRollins 100 None 10) (Some 0.01)) as [s E]; cbn; try lra; [intros cu [=]|].
  destruct (tr_rollins (mkRollins 100 None 5) (Some 0.02)) as [s' E']; cbn; try lra; [intros cu [=]|]. now exists s, s'.
Qed.
