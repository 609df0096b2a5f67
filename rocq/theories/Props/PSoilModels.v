(** Properties C52, C53, C85 and C86: modified hyperbolic, two-parameter and Alemu soil types. *)
From Coq Require Import String.
From Verif Require Import Common Model.Curve Model.Layer Model.SoilModels Spec.SoilModelSpec Proof.CommonFacts
  Proof.HyperbolicFacts Proof.HyperbolicProps Proof.TwoParamProps.
Local Open Scope R_scope.

Lemma three_halves_pos : List.Forall (fun s : R => 0 < s) [0.0001; 0.001; 0.01].
Proof. repeat (apply List.Forall_cons; [lra|]). apply List.Forall_nil. Qed.
Lemma strains_from_zero : List.Forall (fun s : R => 0 <= s) [0; 0.001; 0.01].
Proof. repeat (apply List.Forall_cons; [lra|]). apply List.Forall_nil. Qed.
Lemma one_cycle : 0 < 10 <= exp 90.
Proof. split; [lra|]. pose proof (exp_ineq1 90 ltac:(lra)). lra. Qed.

(** C52: for every positive scaling coefficient and reference strain, curvature up to
    3/2 and table of positive strains the curves exist; the modulus reduction lies
    strictly between 0 and 1, falls with strain and is one half at the reference strain;
    the damping is always above the minimum and never drops. *)
Theorem C52_shape : forall sc sr c dm ss,
  0 < sc -> 0 < sr -> 0 < c <= 3 / 2 -> List.Forall (fun s => 0 < s) ss ->
  exists ms ds, modified_hyperbolic sc sr c dm ss = Some (ms, ds) /\
    length ms = length ss /\ length ds = length ss /\
    List.Forall (fun m => 0 < m < 1) ms /\ falls ss ms /\
    (forall i m, nth_error ss i = Some sr -> nth_error ms i = Some m -> m = 1 / 2) /\
    List.Forall (fun d => dm < d) ds /\ never_drops ds.
Proof. exact hyperbolic_shape. Qed.
Print Assumptions C52_shape.
Example C52_ex : 0 < 0.6 /\ 0 < 0.001 /\ 0 < 0.919 <= 3 / 2 /\ List.Forall (fun s => 0 < s) [0.0001; 0.001; 0.01].
Proof. split; [lra|]. split; [lra|]. split; [lra|]. exact three_halves_pos. Qed.

(** C52: each tabulated damping is the largest of the formula values of the strains up
    to its own, plus the minimum damping. *)
Theorem C52_running_maximum : forall sc sr c dm ss ms ds,
  0 < sr -> List.Forall (fun s => 0 < s) ss ->
  modified_hyperbolic sc sr c dm ss = Some (ms, ds) ->
  forall i d, nth_error ds i = Some d ->
  (exists s a, In s (firstn (S i) ss) /\ masing_a1 sr s = Some a /\
     d = sc * damping_masing c a * Rpower (1 / (1 + Rpower (s / sr) c)) 0.1 / 100 + dm) /\
  (forall s a, In s (firstn (S i) ss) -> masing_a1 sr s = Some a ->
     sc * damping_masing c a * Rpower (1 / (1 + Rpower (s / sr) c)) 0.1 / 100 + dm <= d).
Proof. exact hyperbolic_damping. Qed.
Print Assumptions C52_running_maximum.

(** C52: with a curvature of 2 the damping at small strains is below the minimum
    damping: the bound on the curvature is needed. *)
Theorem C52_bound_needed : forall sc sr dm s,
  0 < sc -> 0 < sr -> 0 < s <= sr / 25 ->
  exists m d, modified_hyperbolic sc sr 2 dm [s] = Some ([m], [d]) /\ d < dm.
Proof. exact hyperbolic_below_minimum. Qed.
Print Assumptions C52_bound_needed.

(** C52: every Darendeli soil type has such curves, with the given minimum damping or
    its own. *)
Theorem C52_darendeli : forall id name uw d given ss,
  0 <= da_pi d -> 0 < da_ocr d -> 0 < da_stress d -> 0 < da_freq d ->
  0 < da_cycles d <= exp 90 -> List.Forall (fun s => 0 < s) (strains_or_default ss) ->
  exists dm s, or_else given (darendeli_damping_min d) = Some dm /\
    darendeli_soil id name uw d given ss = Some s /\ shaped dm (strains_or_default ss) s.
Proof. exact darendeli_shape. Qed.
Print Assumptions C52_darendeli.
Example C52_darendeli_ex : 0 <= 20 /\ 0 < 1 /\ 0 < 100 /\ 0 < 10 <= exp 90.
Proof. split; [lra|]. split; [lra|]. split; [lra|]. exact one_cycle. Qed.

(** C52: every Menq soil type has such curves for mean stresses from 1e-8 to 1e6
    atmospheres. *)
Theorem C52_menq : forall id name uw m given ss,
  0 < mq_cu m -> 0 < mq_d50 m ->
  Rpower 10 (-8) <= mq_stress m * KPA_TO_ATM <= Rpower 10 6 ->
  0 < mq_cycles m <= exp 90 -> List.Forall (fun s => 0 < s) (strains_or_default ss) ->
  exists dm s, or_else given (menq_damping_min m) = Some dm /\
    menq_soil id name uw m given ss = Some s /\ shaped dm (strains_or_default ss) s.
Proof. exact menq_shape. Qed.
Print Assumptions C52_menq.

(** C52: every Rollins soil type has such curves. *)
Theorem C52_rollins : forall id name uw r given ss,
  (forall cu, ro_cu r = Some cu -> 0 < cu) -> 0 < ro_stress r ->
  0 < ro_cycles r <= exp 90 -> List.Forall (fun s => 0 < s) (strains_or_default ss) ->
  exists dm s, or_else given (Some 0.01) = Some dm /\
    rollins_soil id name uw r given ss = Some s /\ shaped dm (strains_or_default ss) s.
Proof. exact rollins_shape. Qed.
Print Assumptions C52_rollins.

(** C53: for positive coefficients and a positive exponent b at the given stress: the
    modulus reduction lies in (0, 1], is 1 at zero strain and falls; the damping lies
    between the minimum and the asymptotic damping, starts at the minimum and rises when
    the minimum is below the asymptotic damping, and falls when it is above. *)
Theorem C53_two_param : forall k p ss,
  0 < tp_a k -> 0 < tp_g1 k -> 0 < tp_c k -> 0 < tp_gd1 k -> 0 < p ->
  0 < tp_b k (p * KPA_TO_ATM) -> List.Forall (fun s => 0 <= s) ss ->
  exists ms ds dm, two_param_values k p ss = Some (ms, ds) /\ tp_d_min k (p * KPA_TO_ATM) = Some dm /\
    length ms = length ss /\ length ds = length ss /\
    List.Forall (fun m => 0 < m <= 1) ms /\ falls ss ms /\
    (forall i m, nth_error ss i = Some 0 -> nth_error ms i = Some m -> m = 1) /\
    List.Forall (fun d => Rmin (tp_d k) dm / 100 <= d <= Rmax (tp_d k) dm / 100) ds /\
    (dm < tp_d k -> rises ss ds) /\ (tp_d k < dm -> falls ss ds) /\
    (forall i d, nth_error ss i = Some 0 -> nth_error ds i = Some d -> d = dm / 100).
Proof. exact two_param_shape. Qed.
Print Assumptions C53_two_param.
Example C53_ex : 0 < tp_a two_param_default /\ 0 < tp_g1 two_param_default /\ 0 < tp_c two_param_default /\
  0 < tp_gd1 two_param_default /\ 0 < tp_b two_param_default (100 * KPA_TO_ATM) /\
  List.Forall (fun s : R => 0 <= s) [0; 0.001; 0.01].
Proof.
  destruct (two_param_default_range 100) as (A & B & C & D & E); [lra|unfold KPA_TO_ATM; lra|].
  repeat (split; [assumption|]). exact strains_from_zero.
Qed.

(** C53: the default coefficients meet these conditions up to 62 atmospheres. *)
Theorem C53_default_coefficients : forall p,
  0 < p -> p * KPA_TO_ATM <= 62 ->
  0 < tp_a two_param_default /\ 0 < tp_g1 two_param_default /\ 0 < tp_c two_param_default /\ 0 < tp_gd1 two_param_default /\
  0 < tp_b two_param_default (p * KPA_TO_ATM).
Proof. exact two_param_default_range. Qed.
Print Assumptions C53_default_coefficients.

(** C53: from 63 atmospheres on, the default coefficients give a modulus reduction above
    1. *)
Theorem C53_default_limit : forall p s,
  63 <= p * KPA_TO_ATM -> 0 < s ->
  exists m d, two_param_values two_param_default p [s] = Some ([m], [d]) /\ 1 < m.
Proof. exact two_param_default_grows. Qed.
Print Assumptions C53_default_limit.

(** C85: the minimum damping is positive exactly for frequencies above exp(-1/0.2919)
    Hz, about 0.03 Hz, and negative below. *)
Theorem C85_refuted : forall d,
  0 <= da_pi d -> 0 < da_ocr d -> 0 < da_stress d -> 0 < da_freq d ->
  exists dm, darendeli_damping_min d = Some dm /\ (0 < dm <-> exp (- (1 / 0.2919)) < da_freq d) /\
    (da_freq d < exp (- (1 / 0.2919)) -> dm < 0).
Proof. exact darendeli_minimum. Qed.
Print Assumptions C85_refuted.
Example C85_refuted_ex : 0 < exp (-4) < exp (- (1 / 0.2919)).
Proof. split; [apply exp_pos|]. apply exp_increasing. lra. Qed.

(** C86: for every non-negative plasticity index and fines content and positive OCR and
    stress: both curves exist and have the stated shape. *)
Theorem C86_shape : forall m ss,
  0 <= al_pi m -> 0 < al_ocr m -> 0 < al_stress m -> 0 <= al_fines m ->
  List.Forall (fun s => 0 <= s) ss ->
  exists ms ds dm, alemu_values m ss = Some (ms, ds) /\ alemu_d_min m = Some dm /\ 0 < dm /\
    length ms = length ss /\ length ds = length ss /\
    List.Forall (fun v => 0 < v <= 1) ms /\ falls ss ms /\
    List.Forall (fun d => dm <= d) ds /\ rises ss ds /\
    (forall i v, nth_error ss i = Some 0 -> nth_error ms i = Some v -> v = 1) /\
    (forall i d, nth_error ss i = Some 0 -> nth_error ds i = Some d -> d = dm).
Proof. exact alemu_shape. Qed.
Print Assumptions C86_shape.
Example C86_ex : List.Forall (fun s : R => 0 <= s) [0; 0.001; 0.01].
Proof. exact strains_from_zero. Qed.
