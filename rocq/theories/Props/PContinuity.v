(** Property C164: the linear response depends continuously on the site. *)
From Verif Require Import Common Model.Curve Model.Layer Model.Profile Model.Cplx Model.Waves.
From Verif Require Import Spec.WaveSpec Spec.ContinuitySpec Proof.CommonFacts Proof.CplxFacts Proof.LayerFacts Proof.WaveFacts Proof.WaveEnergy Proof.WaveProps Proof.WaveContinuity.
From Coq Require Import String List.
From Coquelicot Require Import Complex.
Local Open Scope R_scope.

(** A layer of thickness [h] on rock. *)
Definition ct_site (h : R) : list layer :=
  cons (layer_make (mkSoil 0 "soft"%string 18 None (DConst 0.05)) h 200 0.05)
    (cons (layer_make (mkSoil 0 "rock"%string 22 None (DConst 0.01)) 0 800 0.01) nil).
Lemma ct_sound h : 0 <= h -> List.Forall sound (ct_site h).
Proof.
  intros Hh. unfold ct_site. apply Forall_cons; [|apply Forall_cons; [|apply Forall_nil]];
    unfold sound, shear_mod, layer_make, layer_reset, initial_shear_mod, density, iter_new, GRAVITY; cbn; lra.
Qed.

(** C164: at a frequency above the threshold, for layers of positive modulus and weight,
    wherever the input motion does not vanish, acceleration and strain transfer
    functions change by less than any given amount if the frequency, the current moduli,
    dampings, weights and thicknesses of all layers and the depths of both locations
    change by less than some amount. *)
Theorem C164_state : forall w ls rs i1 u1 f1 i2 u2 f2,
  1e-8 < Rabs w -> List.Forall sound ls ->
  calc_waves_python w (map wlayer_of ls) = Ok rs -> (i1 < length ls)%nat -> (i2 < length ls)%nat ->
  wave_at_location rs (mkLoc i1 u1 f1) <> Ok (Some (RtoC 0)) ->
  exists tf st, calc_accel_tf rs (mkLoc i1 u1 f1) (mkLoc i2 u2 f2) = Ok (Some tf) /\
    calc_strain_tf rs w (mkLoc i1 u1 f1) (mkLoc i2 u2 Within) = Ok (Some st) /\
  forall eps, 0 < eps -> exists d, 0 < d /\ forall w' ls' u1' u2', Rabs (w' - w) < d -> Forall2 (near_layer d) ls' ls ->
    Rabs (u1' - u1) < d -> Rabs (u2' - u2) < d ->
    exists rs' tf' st', calc_waves_python w' (map wlayer_of ls') = Ok rs' /\
      calc_accel_tf rs' (mkLoc i1 u1' f1) (mkLoc i2 u2' f2) = Ok (Some tf') /\ Cmod (Cminus tf' tf) < eps /\
      calc_strain_tf rs' w' (mkLoc i1 u1' f1) (mkLoc i2 u2' Within) = Ok (Some st') /\ Cmod (Cminus st' st) < eps.
Proof. exact tf_continuous. Qed.
Print Assumptions C164_state.
Example C164_state_ex : exists rs tf, calc_waves_python 6 (map wlayer_of (ct_site 10)) = Ok rs /\
  calc_accel_tf rs (mkLoc 1 0 Outcrop) (mkLoc 0 0 Within) = Ok (Some tf) /\
  forall eps, 0 < eps -> exists d, 0 < d /\ forall h, Rabs (h - 10) < d ->
    exists rs' tf', calc_waves_python 6 (map wlayer_of (ct_site h)) = Ok rs' /\
      calc_accel_tf rs' (mkLoc 1 0 Outcrop) (mkLoc 0 0 Within) = Ok (Some tf') /\ Cmod (Cminus tf' tf) < eps.
Proof.
  destruct (calc_waves_python 6 (map wlayer_of (ct_site 10))) as [rs|] eqn:E; [|discriminate E].
  pose proof (ct_sound 10 ltac:(lra)) as HS.
  destruct (upgoing_motion 6 (ct_site 10) rs ltac:(lra) HS E (mkLoc 1 0 Outcrop)) as (x & X1 & X2); [cbn; lia|discriminate|].
  destruct (C164_state 6 (ct_site 10) rs 1%nat 0 Outcrop 0%nat 0 Within) as (tf & st & T1 & _ & H);
    [rewrite Rabs_pos_eq; lra|exact HS|exact E|cbn; lia|cbn; lia|rewrite X1; intros Q; apply X2; congruence|].
  exists rs, tf. split; [reflexivity|]. split; [exact T1|]. intros eps He. destruct (H eps He) as (d & Hd & HH).
  exists d. split; [exact Hd|]. intros h Hh. destruct (HH 6 (ct_site h) 0 0) as (rs' & tf' & st' & A & B & D & _).
  - rewrite Rminus_diag_eq by reflexivity. rewrite Rabs_R0. exact Hd.
  - assert (Z : forall x, Rabs (x - x) < d) by (intros y; rewrite Rminus_diag_eq by reflexivity; rewrite Rabs_R0; exact Hd).
    constructor; [|constructor; [|constructor]]; (split; [apply Z|]; split; [apply Z|]; split; [apply Z|]); [exact Hh|apply Z].
  - rewrite Rminus_diag_eq by reflexivity. rewrite Rabs_R0. exact Hd.
  - rewrite Rminus_diag_eq by reflexivity. rewrite Rabs_R0. exact Hd.
  - exists rs', tf'. now repeat split.
Qed.

(** C164: the same for the linear-elastic calculator, in terms of the velocities,
    minimum dampings, weights and thicknesses the layers were created with. *)
Theorem C164_linear : forall w ls rs i1 u1 f1 i2 u2 f2,
  1e-8 < Rabs w ->
  List.Forall (fun l => 0 < l_vs l /\ 0 < s_unit_wt (l_soil l) /\ 0 <= l_thick l) ls ->
  linear_elastic true w ls = Ok rs -> (i1 < length ls)%nat -> (i2 < length ls)%nat ->
  wave_at_location rs (mkLoc i1 u1 f1) <> Ok (Some (RtoC 0)) ->
  exists tf st, calc_accel_tf rs (mkLoc i1 u1 f1) (mkLoc i2 u2 f2) = Ok (Some tf) /\
    calc_strain_tf rs w (mkLoc i1 u1 f1) (mkLoc i2 u2 Within) = Ok (Some st) /\
  forall eps, 0 < eps -> exists d, 0 < d /\ forall w' ls' u1' u2', Rabs (w' - w) < d -> Forall2 (near_description d) ls' ls ->
    Rabs (u1' - u1) < d -> Rabs (u2' - u2) < d ->
    exists rs' tf' st', linear_elastic true w' ls' = Ok rs' /\
      calc_accel_tf rs' (mkLoc i1 u1' f1) (mkLoc i2 u2' f2) = Ok (Some tf') /\ Cmod (Cminus tf' tf) < eps /\
      calc_strain_tf rs' w' (mkLoc i1 u1' f1) (mkLoc i2 u2' Within) = Ok (Some st') /\ Cmod (Cminus st' st) < eps.
Proof. exact linear_continuous. Qed.
Print Assumptions C164_linear.
Example C164_linear_ex : List.Forall (fun l => 0 < l_vs l /\ 0 < s_unit_wt (l_soil l) /\ 0 <= l_thick l) (ct_site 10) /\
  exists rs, linear_elastic true 6 (ct_site 10) = Ok rs.
Proof. split; [repeat (apply Forall_cons; [cbn; lra|]); apply Forall_nil|eexists; reflexivity]. Qed.
