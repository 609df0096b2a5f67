(** Properties C139, C140, C142: the computed waves are the only motion of the site, dimensions, within and outcropping motion. *)
From Coq Require Import String List.
From Verif Require Import Common Model.Curve Model.Layer Model.Cplx Model.Waves Spec.WaveSpec
  Proof.CplxFacts Proof.WaveFacts Proof.WaveEnergy Proof.WaveProps Proof.WaveUnique Proof.WaveScale.
From Coquelicot Require Import Coquelicot.
Local Open Scope R_scope.

(** The examples use 10 m of 200 m/s with 5 percent damping on a half-space of 800 m/s
    with 1 percent. *)
Definition wf_s1 : soil := mkSoil 0 "soft"%string 18 None (DConst 0.05).
Definition wf_s2 : soil := mkSoil 1 "rock"%string 22 None (DConst 0.01).
Definition wf_site : list layer := cons (layer_make wf_s1 10 200 0.05) (cons (layer_make wf_s2 0 800 0.01) nil).
Lemma wf_sound : List.Forall sound wf_site.
Proof.
  unfold wf_site. constructor; [|constructor; [|constructor]];
    unfold sound, shear_mod, layer_make, layer_reset, initial_shear_mod, density, iter_new, GRAVITY; cbn; lra.
Qed.
Definition wf_layers : list wlayer := map wlayer_of wf_site.
Lemma wf_carries : List.Forall carries wf_layers.
Proof.
  pose proof wf_sound as H. inversion H as [|? ? H1 H2]; subst. inversion H2 as [|? ? H3 _]; subst.
  unfold wf_layers, wf_site. cbn [map]. constructor; [now apply similar_carries|constructor; [now apply similar_carries|constructor]].
Qed.

(** C139: the reported fields solve the wave equation in every layer, with welded
    contacts and a stress-free surface, and are 2 at the surface. *)
Theorem C139_exists : forall w ls rs,
  1e-8 < Rabs w -> ls <> nil -> List.Forall carries ls -> calc_waves_python w ls = Ok rs ->
  exists us, site_motion w ls us /\ us 0%nat 0 = RtoC 2 /\ forall i, (i < length ls)%nat -> field_in rs i (us i).
Proof. exact motion_exists. Qed.
Print Assumptions C139_exists.
Example C139_exists_ex : 1e-8 < Rabs 5 /\ wf_layers <> nil /\ List.Forall carries wf_layers /\ exists rs, calc_waves_python 5 wf_layers = Ok rs.
Proof. split; [rewrite Rabs_pos_eq; lra|]. split; [discriminate|]. split; [exact wf_carries|]. eexists. reflexivity. Qed.

(** C139: every other motion of the site, of whatever form, is a constant multiple of
    the reported one, in all layers and at all depths. *)
Theorem C139_unique : forall w ls rs us,
  1e-8 < Rabs w -> List.Forall carries ls -> calc_waves_python w ls = Ok rs ->
  site_motion w ls us ->
  exists A, forall i u, (i < length ls)%nat -> field_in rs i u -> forall z, us i z = Cmult A (u z).
Proof. exact motion_unique. Qed.
Print Assumptions C139_unique.
Example C139_unique_ex : exists rs us, calc_waves_python 5 wf_layers = Ok rs /\ site_motion 5 wf_layers us /\ us 0%nat 0 = RtoC 2.
Proof.
  assert (W : 1e-8 < Rabs 5) by (rewrite Rabs_pos_eq; lra). destruct (calc_waves_python 5 wf_layers) as [rs|] eqn:E; [|discriminate E].
  destruct (motion_exists 5 wf_layers rs W ltac:(discriminate) wf_carries E) as (us & M & U & _). now exists rs, us.
Qed.

(** C139: so the acceleration and strain transfer functions between two points are the
    ratios of any motion of the site, and of its depth derivative, at these points. *)
Theorem C139_tf : forall w ls rs us i j zi zj,
  1e-8 < Rabs w -> List.Forall carries ls -> calc_waves_python w ls = Ok rs ->
  site_motion w ls us -> (i < length ls)%nat -> (j < length ls)%nat -> us i zi <> RtoC 0 ->
  calc_accel_tf rs (mkLoc i zi Within) (mkLoc j zj Within) = Ok (Some (Cdiv (us j zj) (us i zi))) /\
  exists du, cderive (us j) zj du /\
  calc_strain_tf rs w (mkLoc i zi Within) (mkLoc j zj Within) = Ok (Some (Cdiv (Cmult (RtoC (GRAVITY / - w ^ 2)) du) (us i zi))).
Proof. exact tf_any_motion. Qed.
Print Assumptions C139_tf.
Example C139_tf_ex : exists us, site_motion 5 wf_layers us /\ us 0%nat 0 <> RtoC 0 /\ (1 < length wf_layers)%nat.
Proof.
  destruct C139_unique_ex as (rs & us & _ & M & U). exists us. split; [exact M|]. split; [|cbn; lia]. rewrite U. apply RtoC_neq_0. lra.
Qed.

(** C140: velocities times a, lengths times b, densities times d and frequencies times a
    / b: acceleration transfer functions at corresponding depths are the same, strains
    are multiplied by b / a^2 and stresses by d b. *)
Theorem C140_similar : forall a b d w ls ls' rs,
  0 < a -> 0 < b -> 0 < d -> 1e-8 < Rabs w -> 1e-8 < Rabs (w * a / b) ->
  List.Forall sound ls -> Forall2 (similar a b d) ls ls' -> linear_elastic false w ls = Ok rs ->
  exists rs', linear_elastic false (w * a / b) ls' = Ok rs' /\
  (forall lin lout, calc_accel_tf rs' (moved b lin) (moved b lout) = calc_accel_tf rs lin lout) /\
  (forall lin lout st, calc_strain_tf rs w lin lout = Ok (Some st) ->
     calc_strain_tf rs' (w * a / b) (moved b lin) (moved b lout) = Ok (Some (Cmult (RtoC (b / a ^ 2)) st))) /\
  (forall lin lout l l' st, nth_error ls (loc_index lout) = Some l -> nth_error ls' (loc_index lout) = Some l' ->
     calc_stress_tf rs w lin lout (comp_shear_mod l) = Ok (Some st) ->
     calc_stress_tf rs' (w * a / b) (moved b lin) (moved b lout) (comp_shear_mod l') = Ok (Some (Cmult (RtoC (d * b)) st))).
Proof. exact dimensional. Qed.
Print Assumptions C140_similar.
Example C140_similar_ex : Forall2 (similar 2 3 1.1)
  wf_site (cons (layer_make (mkSoil 2 "a"%string 19.8 None (DConst 0.05)) 30 400 0.05) (cons (layer_make (mkSoil 3 "b"%string 24.2 None (DConst 0.01)) 0 1600 0.01) nil)).
Proof.
  unfold wf_site, wf_s1, wf_s2. constructor; [|constructor; [|constructor]];
    unfold similar, shear_mod, layer_make, layer_reset, initial_shear_mod, density, damping, iter_new, GRAVITY; cbn; repeat split; lra.
Qed.

(** C142: with one damping ratio in all layers the within motion is nowhere larger than
    the outcropping motion at the same depth. *)
Theorem C142_within : forall w d ls rs,
  1e-8 < w -> List.Forall sound ls -> same_damping d ls ->
  calc_waves_python w (map wlayer_of ls) = Ok rs ->
  forall i z, (i < length ls)%nat -> 0 <= z ->
  exists tf, calc_accel_tf rs (mkLoc i z Outcrop) (mkLoc i z Within) = Ok (Some tf) /\ Cmod tf <= 1.
Proof. exact within_below_outcrop. Qed.
Print Assumptions C142_within.
Example C142_within_ex : exists ls, List.Forall sound ls /\ same_damping 0.05 ls /\ (1 < length ls)%nat.
Proof.
  exists (cons (layer_make wf_s1 10 200 0.05) (cons (layer_make wf_s2 0 800 0.05) nil)). split; [|split; [|cbn; lia]];
    (constructor; [|constructor; [|constructor]]);
    unfold limited_damping, damping, sound, shear_mod, layer_make, layer_reset, initial_shear_mod, density, iter_new, GRAVITY; cbn; repeat split; intros; lra.
Qed.

(** C142: with unequal dampings the within motion can be the larger one, so the
    condition is needed. *)
Theorem C142_unequal : exists w ls rs tf, 1e-8 < w /\ List.Forall sound ls /\ calc_waves_python w (map wlayer_of ls) = Ok rs /\
  calc_accel_tf rs (mkLoc 1 0 Outcrop) (mkLoc 1 0 Within) = Ok (Some tf) /\ 1 < Cmod tf.
Proof. exact within_outcrop_unequal. Qed.
Print Assumptions C142_unequal.
