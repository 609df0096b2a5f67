(** Property C151: standing waves of undamped sites. *)
From Verif Require Import Common Model.Curve Model.Layer Model.Profile Model.Cplx Model.Waves Spec.WaveSpec.
From Verif Require Import Proof.EqlRefute Proof.WaveFacts Proof.WaveSplit Proof.WaveStanding.
From Coq Require Import String List.
From Coquelicot Require Import Coquelicot.
Local Open Scope R_scope.

(** Five metres of soft soil and twenty of stiff soil on rock, without damping. *)
Definition sw_soil : soil := mkSoil 0 "soil"%string GRAVITY None (DConst 0).
Definition sw_site : list layer :=
  cons (layer_make sw_soil 5 200 0) (cons (layer_make sw_soil 20 500 0) (cons (layer_make sw_soil 0 900 0) nil)).
Lemma sw_mod t v : shear_mod (layer_make sw_soil t v 0) = v * v.
Proof. unfold shear_mod, layer_make, layer_reset, initial_shear_mod, density, iter_new; cbn. field. exact g_ne. Qed.
Lemma sw_sound : List.Forall sound sw_site.
Proof.
  unfold sw_site. repeat (apply Forall_cons; [unfold sound; rewrite sw_mod; cbn; unfold GRAVITY; split; [nra|]; split; lra|]). apply Forall_nil.
Qed.
Lemma sw_undamped : same_damping 0 sw_site.
Proof. apply List.Forall_forall. intros l [<-|[<-|[<-|[]]]]; unfold limited_damping; cbn; repeat split; intros; lra. Qed.

(** C151: without damping and relative to the surface, the within motion at any depth is
    the real part of the outcropping motion there, and the strain is its imaginary part
    times gravity over angular frequency and velocity. *)
Theorem C151_standing : forall w ls rs,
  1e-8 < w -> List.Forall sound ls -> same_damping 0 ls ->
  calc_waves_python w (map wlayer_of ls) = Ok rs ->
  forall i l z, nth_error ls i = Some l ->
  exists t, calc_accel_tf rs (mkLoc 0 0 Outcrop) (mkLoc i z Outcrop) = Ok (Some t) /\
    calc_accel_tf rs (mkLoc 0 0 Outcrop) (mkLoc i z Within) = Ok (Some (RtoC (Re t))) /\
    calc_strain_tf rs w (mkLoc 0 0 Outcrop) (mkLoc i z Within) =
      Ok (Some (RtoC (GRAVITY / (w * sqrt (shear_mod l / density (l_soil l))) * Im t))).
Proof. exact standing_wave. Qed.
Print Assumptions C151_standing.
Example C151_standing_ex : exists rs, calc_waves_python 7 (map wlayer_of sw_site) = Ok rs /\
  exists t, calc_accel_tf rs (mkLoc 0 0 Outcrop) (mkLoc 1 3 Within) = Ok (Some (RtoC t)).
Proof.
  eexists. split; [reflexivity|].
  destruct (standing_wave 7 sw_site _ ltac:(lra) sw_sound sw_undamped eq_refl 1%nat _ 3 eq_refl) as (t & _ & T & _). now exists (Re t).
Qed.

(** C151: within one undamped layer the squared motion plus the squared strain, scaled
    by angular frequency times velocity over gravity, is one positive number at all
    depths. *)
Theorem C151_energy : forall w ls rs,
  1e-8 < w -> List.Forall sound ls -> same_damping 0 ls ->
  calc_waves_python w (map wlayer_of ls) = Ok rs ->
  forall i l, nth_error ls i = Some l -> exists e, 0 < e /\ forall z, exists u s,
    calc_accel_tf rs (mkLoc 0 0 Outcrop) (mkLoc i z Within) = Ok (Some (RtoC u)) /\
    calc_strain_tf rs w (mkLoc 0 0 Outcrop) (mkLoc i z Within) = Ok (Some (RtoC s)) /\
    u ^ 2 + (w * sqrt (shear_mod l / density (l_soil l)) * s / GRAVITY) ^ 2 = e.
Proof. exact standing_energy. Qed.
Print Assumptions C151_energy.

(** C151: the transfer function from a recording inside an undamped site to the surface
    is a real number, and it is undefined exactly at the nodes, where the outcropping
    motion has no real part. *)
Theorem C151_nodes : forall w ls rs,
  1e-8 < w -> List.Forall sound ls -> same_damping 0 ls ->
  calc_waves_python w (map wlayer_of ls) = Ok rs ->
  forall i z, (i < length ls)%nat ->
  exists t, calc_accel_tf rs (mkLoc 0 0 Outcrop) (mkLoc i z Outcrop) = Ok (Some t) /\
    calc_accel_tf rs (mkLoc i z Within) (mkLoc 0 0 Outcrop) =
      Ok (if Req_EM_T (Re t) 0 then None else Some (RtoC (/ Re t))).
Proof. exact standing_node. Qed.
Print Assumptions C151_nodes.
