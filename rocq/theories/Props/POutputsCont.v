(** Property C167: the outputs of a linear analysis depend continuously on the site. *)
From Verif Require Import Common Model.Curve Model.Layer Model.Profile Model.Cplx Model.Waves Model.Averages Model.Output Model.Eql Model.Motion Model.Results.
From Verif Require Import Spec.MotionSpec Spec.WaveSpec Spec.EqlSpec Spec.ResultsSpec Spec.ContinuitySpec.
From Verif Require Import Proof.CommonFacts Proof.EqlPhysical Proof.EqlResults Proof.ResultsProps Proof.ResultsRuns Proof.ResultsEx Proof.OutputsContinuity.
From Coq Require Import String List.
From Coquelicot Require Import Complex.
Local Open Scope R_scope.

(** C167: for calculators that hold the waves of two sites under the same record and
    with the same input location: acceleration and strain series, response spectrum,
    Fourier amplitudes and transfer function differ by less than any given amount at
    every entry if moduli, dampings, weights and thicknesses of all layers differ by
    less than some amount. *)
Theorem C167_state : forall dt a fa n lsw K loc xi fs eps,
  ran dt a fa n lsw K ->
  (loc_index (k_input K) < length lsw)%nat -> loc_field (k_input K) <> Within -> (loc_index loc < length lsw)%nat ->
  0 < xi -> List.Forall (fun f => 0 < f) fs -> 0 < eps ->
  exists d, 0 < d /\ forall lsw' K', ran dt a fa n lsw' K' -> k_input K' = k_input K -> Forall2 (near_layer d) lsw' lsw ->
  (exists ts ts', accel_series K loc = Ok (Some ts) /\ accel_series K' loc = Ok (Some ts') /\ near_array eps ts' ts) /\
  (exists ps ps', response_spectrum_at K xi fs loc = Ok (Some ps) /\ response_spectrum_at K' xi fs loc = Ok (Some ps') /\ near_array eps ps' ps) /\
  (exists vs vs', fourier_spectrum K None fs loc = Ok (Some vs) /\ fourier_spectrum K' None fs loc = Ok (Some vs') /\ near_array eps vs' vs) /\
  (exists vs vs', transfer_function K None fs (k_input K) loc = Ok (Some vs) /\ transfer_function K' None fs (k_input K) loc = Ok (Some vs') /\ near_array eps vs' vs) /\
  (loc_field loc = Within -> forall pct, exists ts ts', strain_series K pct loc = Ok ts /\ strain_series K' pct loc = Ok ts' /\ near_array eps ts' ts).
Proof. exact outputs_continuous. Qed.
Print Assumptions C167_state.
Example C167_state_ex : exists K, ran 0.01 rx_rec None 4 rx_site K /\ (loc_index (k_input K) < length rx_site)%nat /\
  loc_field (k_input K) <> Within.
Proof.
  destruct (rx_ran (mkLoc 1 0 Outcrop) 3) as (K & HR & _ & HI & _). exists K. rewrite HI. split; [exact HR|]. split; [cbn; lia|discriminate].
Qed.

(** C167: the same for the linear-elastic calculator, in terms of the velocities,
    minimum dampings, weights and thicknesses that the layers were created with. *)
Theorem C167_linear : forall dt a fa n ls K loc xi fs eps,
  linear_run dt a fa n ls K ->
  (loc_index (k_input K) < length ls)%nat -> loc_field (k_input K) <> Within -> (loc_index loc < length ls)%nat ->
  0 < xi -> List.Forall (fun f => 0 < f) fs -> 0 < eps ->
  exists d, 0 < d /\ forall ls' K', linear_run dt a fa n ls' K' -> k_input K' = k_input K -> Forall2 (near_description d) ls' ls ->
  (exists ts ts', accel_series K loc = Ok (Some ts) /\ accel_series K' loc = Ok (Some ts') /\ near_array eps ts' ts) /\
  (exists ps ps', response_spectrum_at K xi fs loc = Ok (Some ps) /\ response_spectrum_at K' xi fs loc = Ok (Some ps') /\ near_array eps ps' ps) /\
  (exists vs vs', fourier_spectrum K None fs loc = Ok (Some vs) /\ fourier_spectrum K' None fs loc = Ok (Some vs') /\ near_array eps vs' vs) /\
  (exists vs vs', transfer_function K None fs (k_input K) loc = Ok (Some vs) /\ transfer_function K' None fs (k_input K) loc = Ok (Some vs') /\ near_array eps vs' vs) /\
  (loc_field loc = Within -> forall pct, exists ts ts', strain_series K pct loc = Ok ts /\ strain_series K' pct loc = Ok ts' /\ near_array eps ts' ts).
Proof. exact linear_outputs_continuous. Qed.
Print Assumptions C167_linear.
(** A layer of thickness [h] on rock: the surface record changes little with [h]. *)
Definition oc_site (h : R) : list layer :=
  cons (layer_make (mkSoil 0 "soft"%string 18 None (DConst 0.05)) h 200 0.05)
    (cons (layer_make (mkSoil 0 "rock"%string 22 None (DConst 0.01)) 0 800 0.01) nil).
Lemma oc_run h : 0 <= h -> exists K, linear_run 0.01 rx_rec None 4 (oc_site h) K /\ k_input K = mkLoc 1 0 Outcrop.
Proof.
  intros Hh. destruct rx_motion as [m Hm].
  assert (HP : List.Forall (fun l => 0 < l_vs l /\ 0 < s_unit_wt (l_soil l) /\ 0 <= l_thick l) (oc_site h))
    by (apply Forall_cons; [cbn; lra|apply Forall_cons; [cbn; lra|apply Forall_nil]]).
  assert (HS : List.Forall sound (map layer_reset (oc_site h))).
  { apply Forall_cons; [|apply Forall_cons; [|apply Forall_nil]];
      unfold sound, shear_mod, layer_make, layer_reset, initial_shear_mod, density, iter_new, GRAVITY; cbn; lra. }
  destruct (waves_sound (as_motion m 10) (map layer_reset (oc_site h)) ltac:(discriminate) HS
    (clear_record 0.01 rx_rec None m 4 10 ltac:(lra) Hm rx_length ltac:(lra))) as [wv Hw].
  exists (mkCalc m (map layer_reset (oc_site h)) 3 (mkLoc 1 0 Outcrop) wv). split; [|reflexivity].
  unfold linear_run; cbn [k_motion k_layers k_waves]. split; [lra|]. split; [exact Hm|]. split; [exact rx_length|]. split; [reflexivity|].
  split; [lra|]. split; [discriminate|]. split; [exact HP|]. split; [reflexivity|]. exists 10. exact Hw.
Qed.
Example C167_linear_ex : forall eps, 0 < eps -> exists d, 0 < d /\ forall h, 0 <= h -> Rabs (h - 10) < d ->
  exists K K' ts ts', linear_run 0.01 rx_rec None 4 (oc_site 10) K /\ linear_run 0.01 rx_rec None 4 (oc_site h) K' /\
    accel_series K (mkLoc 0 0 Outcrop) = Ok (Some ts) /\ accel_series K' (mkLoc 0 0 Outcrop) = Ok (Some ts') /\ near_array eps ts' ts.
Proof.
  intros eps He. destruct (oc_run 10 ltac:(lra)) as (K & HK & IK).
  destruct (C167_linear 0.01 rx_rec None 4 (oc_site 10) K (mkLoc 0 0 Outcrop) 0.05 (cons 1 nil) eps HK) as (d & Hd & H);
    try (rewrite IK; cbn; try lia; discriminate); try (cbn; lia); try lra; try exact He.
  { apply Forall_cons; [lra|apply Forall_nil]. }
  exists d. split; [exact Hd|]. intros h Hh Hn. destruct (oc_run h Hh) as (K' & HK' & IK').
  destruct (H (oc_site h) K' HK' ltac:(congruence)) as ((ts & ts' & A & B & D) & _).
  - assert (Z : forall x, Rabs (x - x) < d) by (intros y; rewrite Rminus_diag_eq by reflexivity; rewrite Rabs_R0; exact Hd).
    constructor; [|constructor; [|constructor]]; (split; [apply Z|]; split; [apply Z|]; split; [apply Z|]); [exact Hn|apply Z].
  - exists K, K', ts, ts'. exact (conj HK (conj HK' (conj A (conj B D)))).
Qed.
