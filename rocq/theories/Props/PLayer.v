(** Properties C05 and C07: one layer. *)
From Coq Require Import String Sorted.
From Verif Require Import Common Model.Curve Model.Layer Spec.CurveSpec Spec.LayerSpec
  Proof.CommonFacts Proof.CurveFacts Proof.LayerFacts Proof.CurveProps Proof.ProfileRefute.
Local Open Scope R_scope.

(** A soil with a damping curve, for the examples. *)
Definition ex_soil : soil :=
  mkSoil 0 "ex" 18 None (DCurve (damping_curve 2 [1e-4; 1e-2] [0.01; 0.2])).
Lemma ex_table : good_table [1e-4; 1e-2] [0.01; 0.2].
Proof.
  unfold good_table. split; [reflexivity|]. split; [discriminate|]. split; repeat constructor; lra.
Qed.

(** C05: after setting the strain the damping is the soil curve minus the soil minimum
    plus the layer minimum. *)
Theorem C05_shift : forall l c s d d0,
  s_damp (l_soil l) = DCurve c -> curve_call c s = Ok d -> soil_damping_min (l_soil l) = Ok d0 ->
  damping (set_strain l s) = d - d0 + l_dmin l.
Proof. exact layer_damping_shift. Qed.
Print Assumptions C05_shift.
Example C05_shift_ex : exists d,
  curve_call (damping_curve 2 [1e-4; 1e-2] [0.01; 0.2]) 0.02 = Ok d /\ soil_damping_min ex_soil = Ok 0.01.
Proof.
  destruct (curve_defined (damping_curve 2 [1e-4; 1e-2] [0.01; 0.2]) 0.02 ex_table) as [d Hd].
  exists d. split; [exact Hd|reflexivity].
Qed.

(** C05: at or below the first tabulated strain the damping is the layer minimum. *)
Theorem C05_small_strain : forall l c s0 v0 s,
  s_damp (l_soil l) = DCurve c -> good_table (c_strains c) (c_values c) ->
  point (c_strains c) (c_values c) 0 s0 v0 -> 1e-9 <= s0 -> s <= s0 -> c_lo c <= v0 <= c_hi c ->
  damping (set_strain l s) = l_dmin l.
Proof. exact layer_damping_small. Qed.
Print Assumptions C05_small_strain.
Example C05_small_ex : point [1e-4; 1e-2] [0.01; 0.2] 0 1e-4 0.01 /\ 1e-9 <= 1e-4 /\ 0 <= 0.01 <= 0.49.
Proof. repeat split; lra. Qed.

(** C05: a constant-damping soil gives the layer minimum at every strain. *)
Theorem C05_constant : forall l d s,
  s_damp (l_soil l) = DConst d -> damping (set_strain l s) = l_dmin l.
Proof. exact layer_damping_const. Qed.
Print Assumptions C05_constant.

(** C05: the adjusted damping curve lists the damping the layer takes at each tabulated
    strain. *)
Theorem C05_adjusted_curve : forall l c,
  s_damp (l_soil l) = DCurve c ->
  adjusted_damping_curve l =
  map (fun s => (Some s, damping (set_strain l s))) (c_strains c).
Proof. exact layer_adjusted_curve. Qed.
Print Assumptions C05_adjusted_curve.

(** C07: after any sequence of operations the state is determined by the last velocity,
    the last minimum damping and the last strain since the last reset. *)
Theorem C07_history : forall s t v dm l os,
  layer_new s t v (Some dm) = Ok l ->
  let l' := layer_run l os in
  let e := current_strain None os in
  shear_mod l' = spec_G (density s) (last_vs v os) (soil_behaviour s) e /\
  damping l' = spec_D (last_dmin dm os) (soil_behaviour s) e /\
  strain l' = match e with Some x => x | None => 1e-6 end /\
  l_smax l' = current_max None os /\
  l_soil l' = s /\ l_thick l' = t /\ l_vs l' = last_vs v os /\ l_dmin l' = last_dmin dm os.
Proof. exact layer_history. Qed.
Print Assumptions C07_history.
Example C07_history_ex :
  let os := [LSetStrain 0.02; LSetStrain 1e-3; LSetVs 300; LSetStrain 0.01; LSetDmin 0.02] in
  last_vs 200 os = 300 /\ last_dmin 0.05 os = 0.02 /\ current_strain None os = None /\
  exists l, layer_new ex_soil 10 200 (Some 0.05) = Ok l.
Proof. repeat split. eexists. reflexivity. Qed.

(** C07: the same when the minimum damping is taken from the soil type. *)
Theorem C07_history_default : forall s t v l os,
  layer_new s t v None = Ok l ->
  exists dm, soil_damping_min s = Ok dm /\
  damping (layer_run l os) = spec_D (last_dmin dm os) (soil_behaviour s) (current_strain None os).
Proof. exact layer_history_default. Qed.
Print Assumptions C07_history_default.

(** C07: after a reset two layers with the same velocity and minimum damping are
    identical in every field, whatever was done before. *)
Theorem C07_reset_forgets : forall s t v dm l os os',
  layer_new s t v (Some dm) = Ok l ->
  last_vs v os = last_vs v os' -> last_dmin dm os = last_dmin dm os' ->
  layer_run l (os ++ [LReset]) = layer_run l (os' ++ [LReset]).
Proof. exact reset_forgets. Qed.
Print Assumptions C07_reset_forgets.
