(** Properties C01-C04 and C65: nonlinear curves. *)
From Coq Require Import String Sorted Permutation.
From Verif Require Import Common Model.Curve Model.Layer Spec.CurveSpec Spec.LayerSpec
  Proof.CommonFacts Proof.CurveFacts Proof.LayerFacts Proof.CurveProps Proof.ProfileRefute.
Local Open Scope R_scope.

(** C01: whatever the strain, a value returned by a curve is inside its limits. *)
Theorem C01_limits : forall c s v,
  c_lo c <= c_hi c -> curve_call c s = Ok v -> c_lo c <= v <= c_hi c.
Proof. exact curve_call_bounds. Qed.
Print Assumptions C01_limits.
Example C01_limits_ex : c_lo (modulus_curve 1 [1e-4; 1e-2] [1; 0.25]) <= c_hi (modulus_curve 1 [1e-4; 1e-2] [1; 0.25]) /\
  curve_call (modulus_curve 1 [1e-4; 1e-2] [1; 0.25]) 0.02 = Ok 0.25.
Proof. split; [cbn; lra|exact soft_curve]. Qed.

(** C01: with the default limits G/Gmax is in [0.001, 1]. *)
Theorem C01_modulus_default : forall id ss vs s v,
  curve_call (modulus_curve id ss vs) s = Ok v -> 0.001 <= v <= 1.
Proof. exact modulus_default_limits. Qed.
Print Assumptions C01_modulus_default.

(** C01: with the default limits damping is in [0, 0.49]. *)
Theorem C01_damping_default : forall id ss vs s v,
  curve_call (damping_curve id ss vs) s = Ok v -> 0 <= v <= 0.49.
Proof. exact damping_default_limits. Qed.
Print Assumptions C01_damping_default.

(** C01: a usable table can be evaluated at every strain. *)
Theorem C01_defined : forall c s,
  good_table (c_strains c) (c_values c) -> exists v, curve_call c s = Ok v.
Proof. exact curve_defined. Qed.
Print Assumptions C01_defined.
Example C01_defined_ex : good_table [1e-4; 1e-2] [1; 0.25].
Proof. exact soft_table. Qed.

(** C02: between two neighbouring points the curve is the chord in (ln strain, value),
    limited; the chord lies between the two values. Strains below 1e-9 are treated as
    1e-9 by the code. *)
Theorem C02_between : forall c i s0 v0 s1 v1 s,
  c_lo c <= c_hi c -> good_table (c_strains c) (c_values c) ->
  point (c_strains c) (c_values c) i s0 v0 ->
  point (c_strains c) (c_values c) (S i) s1 v1 -> 1e-9 <= s -> s0 <= s <= s1 ->
  exists v, curve_call c s = Ok v /\ limited (c_lo c) (c_hi c) (chord s0 v0 s1 v1 s) v /\
    Rmin v0 v1 <= chord s0 v0 s1 v1 s <= Rmax v0 v1.
Proof. exact curve_interpolates. Qed.
Print Assumptions C02_between.
Example C02_between_ex : point [1e-4; 1e-2] [1; 0.25] 0 1e-4 1 /\ point [1e-4; 1e-2] [1; 0.25] 1 1e-2 0.25 /\
  1e-9 <= 1e-3 /\ 1e-4 <= 1e-3 <= 1e-2.
Proof. repeat split; lra. Qed.

(** C02: at a tabulated strain the tabulated value is returned. *)
Theorem C02_at_point : forall c i s v,
  c_lo c <= c_hi c -> good_table (c_strains c) (c_values c) ->
  point (c_strains c) (c_values c) i s v -> 1e-9 <= s ->
  exists r, curve_call c s = Ok r /\ limited (c_lo c) (c_hi c) v r.
Proof. exact curve_at_point. Qed.
Print Assumptions C02_at_point.
Example C02_at_point_ex : point [1e-4; 1e-2] [1; 0.25] 1 1e-2 0.25 /\ 1e-9 <= 1e-2.
Proof. repeat split; lra. Qed.

(** C02: below the first strain the first value is returned, for zero and negative
    strains too. *)
Theorem C02_below : forall c s0 v0 s,
  c_lo c <= c_hi c -> good_table (c_strains c) (c_values c) ->
  point (c_strains c) (c_values c) 0 s0 v0 -> 1e-9 <= s0 -> s <= s0 ->
  exists r, curve_call c s = Ok r /\ limited (c_lo c) (c_hi c) v0 r.
Proof. exact curve_below. Qed.
Print Assumptions C02_below.

(** C02: above the last strain the last value is returned. *)
Theorem C02_above : forall c sl vl s,
  c_lo c <= c_hi c -> good_table (c_strains c) (c_values c) ->
  point (c_strains c) (c_values c) (length (c_strains c) - 1) sl vl -> 1e-9 <= s -> sl <= s ->
  exists r, curve_call c s = Ok r /\ limited (c_lo c) (c_hi c) vl r.
Proof. exact curve_above. Qed.
Print Assumptions C02_above.
Example C02_above_ex : point [1e-4; 1e-2] [1; 0.25] (length [1e-4; 1e-2] - 1) 1e-2 0.25 /\ 1e-2 <= 0.5.
Proof. repeat split; lra. Qed.

(** C03: non-increasing tables give non-increasing curves. *)
Theorem C03_antitone : forall c s t,
  good_table (c_strains c) (c_values c) ->
  StronglySorted (fun a b => b <= a) (c_values c) -> s <= t ->
  exists a b, curve_call c s = Ok a /\ curve_call c t = Ok b /\ b <= a.
Proof. exact curve_antitone. Qed.
Print Assumptions C03_antitone.
Example C03_antitone_ex : StronglySorted (fun a b => b <= a) [1; 0.25] /\ 1e-3 <= 2e-3.
Proof. split; [repeat constructor; lra|lra]. Qed.

(** C03: non-decreasing tables give non-decreasing curves. *)
Theorem C03_monotone : forall c s t,
  good_table (c_strains c) (c_values c) ->
  StronglySorted Rle (c_values c) -> s <= t ->
  exists a b, curve_call c s = Ok a /\ curve_call c t = Ok b /\ a <= b.
Proof. exact curve_monotone. Qed.
Print Assumptions C03_monotone.
Example C03_monotone_ex : StronglySorted Rle [0.01; 0.2] /\ good_table [1e-4; 1e-2] [0.01; 0.2].
Proof. split; [repeat constructor; lra|]. unfold good_table. split; [reflexivity|]. split; [discriminate|].
  split; repeat constructor; lra. Qed.

(** C04: inside the range of the table the order of the points does not matter. Missing:
    outside the range, where it does (see C04_refuted). *)
Theorem C04_inside_partial : forall c c' s,
  length (c_strains c) = length (c_values c) ->
  length (c_strains c') = length (c_values c') ->
  Forall (fun s => 0 < s) (c_strains c) -> NoDup (c_strains c) ->
  Permutation (combine (c_strains c) (c_values c)) (combine (c_strains c') (c_values c')) ->
  c_lo c = c_lo c' -> c_hi c = c_hi c' ->
  (exists a, In a (c_strains c) /\ a <= Rmax 1e-9 s) ->
  (exists b, In b (c_strains c) /\ Rmax 1e-9 s <= b) ->
  curve_call c s = curve_call c' s.
Proof. exact curve_order_inside. Qed.
Print Assumptions C04_inside_partial.
Example C04_inside_ex :
  Permutation (combine [1e-4; 1e-2] [1; 0.25]) (combine [1e-2; 1e-4] [0.25; 1]) /\ NoDup [1e-4; 1e-2] /\
  (exists a, In a [1e-4; 1e-2] /\ a <= Rmax 1e-9 1e-3).
Proof.
  split; [apply perm_swap|]. split.
  - constructor; [intros [H|[]]; lra|]. constructor; [intros []|constructor].
  - exists 1e-4. split; [now left|]. rewrite Rmax_right; lra.
Qed.

(** C04: listing the points in another order changes the curve outside the table: the
    fill values are taken from the first and last listed points. *)
Theorem C04_refuted : exists c c' s,
    good_table (c_strains c) (c_values c) /\
    Permutation (combine (c_strains c) (c_values c)) (combine (c_strains c') (c_values c')) /\
    length (c_strains c') = length (c_values c') /\
    c_lo c = c_lo c' /\ c_hi c = c_hi c' /\
    curve_call c s = Ok 1 /\ curve_call c' s = Ok 0.5.
Proof. exact curve_order_counter. Qed.
Print Assumptions C04_refuted.

(** C65: a modulus-reduction curve with different numbers of strains and values raises
    TypeError when called, but a layer using it silently stays linear at every strain.
    *)
Theorem C65_refuted : forall l c s,
  s_mod (l_soil l) = Some c -> length (c_strains c) <> length (c_values c) ->
  curve_call c s = Err TypeError /\
  shear_mod (set_strain l s) = initial_shear_mod l.
Proof. exact missized_silent. Qed.
Print Assumptions C65_refuted.
Example C65_ex : length [1e-4; 1e-2] <> length [1]. Proof. discriminate. Qed.

(** C65: the same for a damping curve. *)
Theorem C65_damping_refuted : forall l c s,
  s_damp (l_soil l) = DCurve c -> length (c_strains c) <> length (c_values c) ->
  damping (set_strain l s) = l_dmin l.
Proof. exact missized_damping_silent. Qed.
Print Assumptions C65_damping_refuted.
