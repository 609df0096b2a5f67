(** Properties C35 and C38 (parameters and constructor) and C119 to C121: spread and order of varied soil types. *)
From Coq Require Import String.
From Verif Require Import Common Model.Curve Model.Layer Model.Profile Model.Gauss Model.Variation
  Spec.ProfileSpec Spec.VariationSpec Proof.CommonFacts Proof.VariationEx
  Proof.GaussFacts Proof.SoilVarProps Proof.SpreadProps.
Local Open Scope R_scope.

(** C35: every class of the parameter table has correlations of at most one, positive
    scales and a positive standard deviation. *)
Theorem C35_parameters : forall site_class m,
  toro_lookup site_class = Ok m -> toro_vel_ok m /\ 0 < tv_ln_std m.
Proof. exact toro_params_ok. Qed.
Print Assumptions C35_parameters.
Example C35_parameters_ex : exists m, toro_lookup "Geomatrix AB" = Ok m /\ tv_rho_0 m = 0.96.
Proof. eexists. split; reflexivity. Qed.

(** C38: construction succeeds exactly for random draws or for at least one percentile,
    all strictly between 0 and 1; otherwise ValueError. *)
Theorem C38_constructor : forall k corr lm ld bedrock mode,
  ((exists v, soil_var_new k corr lm ld bedrock mode = Ok v) <->
   match mode with Random => True | FixedPercentiles ps => ps <> [] /\ List.Forall (fun p => 0 < p < 1) ps end) /\
  (forall v, soil_var_new k corr lm ld bedrock mode = Ok v -> v = mkSoilVar k corr lm ld bedrock mode) /\
  (forall e, soil_var_new k corr lm ld bedrock mode = Err e -> e = ValueError).
Proof. exact soil_var_new_checks. Qed.
Print Assumptions C38_constructor.
Example C38_constructor_ex : exists v, soil_var_new Darendeli (-0.5) (0.05, 1) (0, 0.15) false (FixedPercentiles [0.2; 0.8]) = Ok v.
Proof. apply soil_var_new_checks. split; [discriminate|]. repeat (apply Forall_cons; [lra|]). apply Forall_nil. Qed.

(** C38: a random variation uses the drawn pair whatever the index; fixed percentiles
    without an index raise ValueError. *)
Theorem C38_modes : forall ppf v si id draw s,
  (sv_mode v = Random -> soil_call ppf v si id draw s = Ok (vary_soil (sv_kind v) (sv_lim_mod v) (sv_lim_damp v) id draw s)) /\
  (forall ps, sv_mode v = FixedPercentiles ps -> soil_call ppf v None id draw s = Err ValueError).
Proof. exact soil_call_modes. Qed.
Print Assumptions C38_modes.

(** C119: with the default correlation of -0.5 both deviations are positive at every
    percentile above the median. *)
Theorem C119_refuted : forall ppf p,
  is_ppf ppf -> 1 / 2 < p < 1 ->
  let z := correlated_at_percentile ppf rand_limit (-0.5) p in 0 < fst z /\ 0 < snd z.
Proof. exact percentile_sign_refuted. Qed.
Print Assumptions C119_refuted.

(** C119: above the median the second deviation is negative only if the correlation is
    below minus the square root of one half. *)
Theorem C119_signs : forall ppf limit correl p,
  is_ppf ppf -> 0 < limit -> 1 / 2 < p < 1 -> -1 <= correl <= 1 ->
  let z := correlated_at_percentile ppf limit correl p in
  0 < fst z /\ (0 < snd z <-> 0 <= correl \/ 2 * correl ^ 2 < 1) /\ (snd z < 0 <-> correl < 0 /\ 1 < 2 * correl ^ 2).
Proof. exact percentile_signs. Qed.
Print Assumptions C119_signs.
Example C119_signs_ex : 1 / 2 < 0.84 < 1 /\ -1 <= -0.8 <= 1 /\ -0.8 < 0 /\ 1 < 2 * (-0.8) ^ 2.
Proof. lra. Qed.

(** C119: at the median both deviations are zero. *)
Theorem C119_median : forall ppf limit correl,
  is_ppf ppf -> 0 < limit ->
  correlated_at_percentile ppf limit correl (1 / 2) = (0, 0).
Proof. exact percentile_median. Qed.
Print Assumptions C119_median.

(** C119: the second deviation is the first times the documented factor, cut to the
    limits. *)
Theorem C119_factor : forall ppf limit correl p,
  is_ppf ppf -> 0 < p < 1 -> 0 < limit ->
  let z := correlated_at_percentile ppf limit correl p in
  snd z = clip (second_factor correl * fst z) (- limit) limit.
Proof. exact percentile_second. Qed.
Print Assumptions C119_factor.

(** C120: the first deviation increases with the percentile. *)
Theorem C120_first : forall ppf limit correl p p',
  is_ppf ppf -> 0 < limit -> 0 < p -> p < p' -> p' < 1 ->
  fst (correlated_at_percentile ppf limit correl p) < fst (correlated_at_percentile ppf limit correl p').
Proof. exact percentile_increases. Qed.
Print Assumptions C120_first.

(** C120: of two percentiles the higher has a modulus reduction at least as high at
    every strain; its damping is at least as high if the factor is positive, and at most
    as high if it is negative. *)
Theorem C120_order_partial : forall k lm ld ppf correl p p' id id' s,
  spread_ok k -> is_ppf ppf -> 0 < p -> p <= p' -> p' < 1 ->
  fst lm <= snd lm -> fst ld <= snd ld ->
  List.Forall (fun m => 0 <= m <= 1) (mod_values s) -> List.Forall (fun d => 0 <= d) (damping_values (s_damp s)) ->
  exists s1 s2, vary_soil k lm ld id (correlated_at_percentile ppf rand_limit correl p) s = Some s1 /\
    vary_soil k lm ld id' (correlated_at_percentile ppf rand_limit correl p') s = Some s2 /\
    Forall2 Rle (mod_values s1) (mod_values s2) /\
    (0 <= second_factor correl -> Forall2 Rle (damping_values (s_damp s1)) (damping_values (s_damp s2))) /\
    (second_factor correl <= 0 -> Forall2 Rle (damping_values (s_damp s2)) (damping_values (s_damp s1))).
Proof. exact percentiles_order. Qed.
Print Assumptions C120_order_partial.
Example C120_order_ex : spread_ok Darendeli /\ spread_ok (Spid 0.2 0.1) /\
  List.Forall (fun m => 0 <= m <= 1) (mod_values ex_sand) /\ List.Forall (fun d => 0 <= d) (damping_values (s_damp ex_sand)).
Proof. split; [exact I|]. split; [cbn; lra|]. split; cbn; repeat (apply Forall_cons; [lra|]); apply Forall_nil. Qed.

(** C120: with the default correlation of -0.5 the realisation of every percentile above
    the median has at every strain a higher damping than the median one. *)
Theorem C120_refuted : forall lm ld ppf p id id' s,
  is_ppf ppf -> 1 / 2 < p < 1 ->
  fst lm <= snd lm -> fst ld <= snd ld ->
  List.Forall (fun m => 0 <= m <= 1) (mod_values s) -> List.Forall (fun d => 0 <= d /\ fst ld <= d < snd ld) (damping_values (s_damp s)) ->
  exists s1 s2, vary_soil Darendeli lm ld id (correlated_at_percentile ppf rand_limit (-0.5) (1 / 2)) s = Some s1 /\
    vary_soil Darendeli lm ld id' (correlated_at_percentile ppf rand_limit (-0.5) p) s = Some s2 /\
    Forall2 Rle (mod_values s1) (mod_values s2) /\ Forall2 Rlt (damping_values (s_damp s1)) (damping_values (s_damp s2)).
Proof. exact percentiles_damping_refuted. Qed.
Print Assumptions C120_refuted.
Example C120_refuted_ex : List.Forall (fun d => 0 <= d /\ fst (0, 0.3) <= d < snd (0, 0.3)) (damping_values (s_damp ex_sand)).
Proof. cbn; repeat (apply Forall_cons; [lra|]); apply Forall_nil. Qed.

(** C121: the standard deviation of the modulus reduction in the model of Darendeli is
    smallest at 0 and 1 and largest at one half. *)
Theorem C121_darendeli_mod : forall m,
  0 <= m <= 1 -> exists s,
  (forall z, vary_mod Darendeli z m = Some (m + z * s)) /\
  s = exp (-4.23) + sqrt (m * (1 - m) / exp 3.62) /\
  exp (-4.23) <= s <= exp (-4.23) + exp (-1.81) / 2 /\
  (m = 0 \/ m = 1 -> s = exp (-4.23)) /\ (m = 0.5 -> s = exp (-4.23) + exp (-1.81) / 2).
Proof. exact darendeli_mod_spread. Qed.
Print Assumptions C121_darendeli_mod.
Example C121_darendeli_mod_ex : exists s, (forall z, vary_mod Darendeli z 0.3 = Some (0.3 + z * s)) /\ 0 < s.
Proof. destruct (darendeli_mod_spread 0.3 ltac:(lra)) as (s & E & _ & H & _). exists s. split; [exact E|]. pose proof (exp_pos (-4.23)). lra. Qed.

(** C121: the damping, in percent, deviates by exp(-5) plus exp(-0.25) times the square
    root of the percentage. *)
Theorem C121_darendeli_damp : forall d z,
  0 <= d -> exists x, vary_damp Darendeli z d = Some x /\
  100 * x = 100 * d + z * (exp (-5) + exp (-0.25) * sqrt (100 * d)).
Proof. exact darendeli_damp_spread. Qed.
Print Assumptions C121_darendeli_damp.
Example C121_darendeli_damp_ex : exists x, vary_damp Darendeli 1 0.04 = Some x /\ 100 * x = 4 + (exp (-5) + exp (-0.25) * 2).
Proof.
  destruct (darendeli_damp_spread 0.04 1 ltac:(lra)) as (x & E & H). exists x. split; [exact E|]. rewrite H.
  replace (100 * 0.04) with (2 * 2) by lra. rewrite sqrt_square by lra. lra.
Qed.

(** C121: the modulus reduction of the SPID model is in [0, 1) and its odds are those of
    the seed times exp(2 z s). *)
Theorem C121_spid_mod : forall sm sd z m,
  0 <= m <= 1 -> exists x, vary_mod (Spid sm sd) z m = Some x /\ 0 <= x < 1 /\
  x / (1 - x) = exp (2 * sm * z) * (m / (1 - m + feps)).
Proof. exact spid_spread. Qed.
Print Assumptions C121_spid_mod.
Example C121_spid_mod_ex : 0 <= 0.5 <= 1.
Proof. lra. Qed.

(** C121: the logarithm of the damping of the SPID model deviates by z times its
    standard deviation. *)
Theorem C121_spid_damp : forall sm sd z d,
  0 < d -> exists x, vary_damp (Spid sm sd) z d = Some x /\ 0 < x /\ ln x = ln d + z * sd.
Proof. exact spid_damp_spread. Qed.
Print Assumptions C121_spid_damp.
