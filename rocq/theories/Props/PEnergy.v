(** Property C157: the energy that enters the site is the energy lost in it. *)
From Coq Require Import String List.
From Verif Require Import Common Model.Curve Model.Layer Model.Cplx Model.Waves Spec.WaveSpec Spec.EnergySpec Proof.CplxFacts Proof.WaveFacts Proof.WaveProps Proof.EqlPhysical Proof.EnergyBalance.
From Coquelicot Require Import Coquelicot.
Local Open Scope R_scope.

(** Ten metres of 200 m/s with 5 percent damping on an undamped half-space of 800 m/s. *)
Definition eb_site : list layer :=
  cons (layer_make (mkSoil 0 "soft"%string 18 None (DConst 0.05)) 10 200 0.05)
    (cons (layer_make (mkSoil 1 "rock"%string 22 None (DConst 0)) 0 800 0) nil).
Lemma eb_sound : List.Forall sound eb_site.
Proof.
  unfold eb_site. constructor; [|constructor; [|constructor]];
    unfold sound, shear_mod, layer_make, layer_reset, initial_shear_mod, density, iter_new, GRAVITY; cbn; lra.
Qed.
Lemma eb_run : exists rs xin, calc_waves_python 5 (map wlayer_of eb_site) = Ok rs /\
  wave_at_location rs (mkLoc 0 0 Outcrop) = Ok (Some xin) /\ xin <> RtoC 0.
Proof.
  destruct (calc_waves_python 5 (map wlayer_of eb_site)) as [rs|] eqn:E; [|discriminate E].
  exists rs, (RtoC 2). split; [reflexivity|]. split; [|intros Z; apply (f_equal Re) in Z; cbn in Z; lra].
  refine (proj2 (surface_outcrop 5 _ _ rs _ E)).
  pose proof eb_sound as H. inversion H as [|? ? H1 _]; subst. now apply sound_vel.
Qed.

(** C157: at every depth the work per cycle of the reported stress on the reported
    displacement is the sum of what the layers above and the part of the layer above the
    depth lose, each 4 pi times its damping ratio times the largest stored energy of the
    reported strains. *)
Theorem C157_balance : forall w ls rs lin xin,
  1e-8 < w -> List.Forall sound ls ->
  calc_waves_python w (map wlayer_of ls) = Ok rs ->
  wave_at_location rs lin = Ok (Some xin) -> xin <> RtoC 0 ->
  exists es, length es = length ls /\
    (forall i l q, nth_error ls i = Some l -> nth_error es i = Some q -> lost_in rs w lin i l (l_thick l) q) /\
    forall i l, nth_error ls i = Some l -> forall z, exists a s q,
      calc_accel_tf rs lin (mkLoc i z Within) = Ok (Some a) /\
      calc_stress_tf rs w lin (mkLoc i z Within) (comp_shear_mod l) = Ok (Some s) /\
      lost_in rs w lin i l z q /\ cycle_work w s (displacement w a) (Rsum (firstn i es) + q).
Proof. exact energy_balance. Qed.
Print Assumptions C157_balance.
Example C157_balance_ex : 1e-8 < 5 /\ List.Forall sound eb_site /\ exists rs xin, calc_waves_python 5 (map wlayer_of eb_site) = Ok rs /\
  wave_at_location rs (mkLoc 0 0 Outcrop) = Ok (Some xin) /\ xin <> RtoC 0.
Proof. split; [lra|]. split; [exact eb_sound|exact eb_run]. Qed.

(** C157: so energy never flows downwards, and none flows where all layers down to this
    one are undamped. *)
Theorem C157_upwards : forall w ls rs lin xin,
  1e-8 < w -> List.Forall sound ls ->
  calc_waves_python w (map wlayer_of ls) = Ok rs ->
  wave_at_location rs lin = Ok (Some xin) -> xin <> RtoC 0 ->
  forall i l z, nth_error ls i = Some l -> 0 <= z -> exists a s q,
    calc_accel_tf rs lin (mkLoc i z Within) = Ok (Some a) /\
  calc_stress_tf rs w lin (mkLoc i z Within) (comp_shear_mod l) = Ok (Some s) /\
  cycle_work w s (displacement w a) q /\ 0 <= q /\
  (List.Forall (fun l' => limited_damping (damping l') 0) (firstn (S i) ls) -> q = 0).
Proof. exact energy_upwards. Qed.
Print Assumptions C157_upwards.

(** C157: in a layer without damping, whatever the depth, the energy of the incoming
    wave exceeds that of the reflected wave by what the layers above lose. *)
Theorem C157_reflected : forall w ls rs lin xin,
  1e-8 < w -> List.Forall sound ls ->
  calc_waves_python w (map wlayer_of ls) = Ok rs ->
  wave_at_location rs lin = Ok (Some xin) -> xin <> RtoC 0 ->
  exists es, length es = length ls /\
  (forall i l q, nth_error ls i = Some l -> nth_error es i = Some q -> lost_in rs w lin i l (l_thick l) q) /\
  forall i l z, nth_error ls i = Some l -> limited_damping (damping l) 0 -> exists b a,
      calc_accel_tf rs lin (mkLoc i z IncomingOnly) = Ok (Some b) /\
  calc_accel_tf rs lin (mkLoc i z Within) = Ok (Some a) /\
  PI * w * impedance l * (GRAVITY / w ^ 2) ^ 2 * (Cnorm2 b - Cnorm2 (Cminus a b)) = Rsum (firstn i es).
Proof. exact reflected_energy. Qed.
Print Assumptions C157_reflected.
Example C157_reflected_ex : exists l, nth_error eb_site 1 = Some l /\ limited_damping (damping l) 0.
Proof. eexists. split; [reflexivity|]. unfold limited_damping; cbn; repeat split; intros; lra. Qed.
