(** Strain-compatible states of a site, and motions whose peak varies continuously. *)
From Verif Require Import Common Model.Curve Model.Layer Model.Waves Model.Eql Spec.CurveSpec Spec.LayerSpec Spec.EqlSpec.
From Coquelicot Require Import Complex.
Local Open Scope R_scope.

(** Modulus and damping of every layer above the half-space are those of the soil at the
    effective strain that the motion causes in the layer. *)
Definition compatible (P : eql_params) (m : motion) (lin : wloc) (ls : list layer) : Prop :=
  exists waves, calc_waves m ls = Ok waves /\
  forall i l, nth_error (removelast ls) i = Some l -> exists mx s,
    calc_strain_max m (length ls) waves lin i l = Ok mx /\ used_strain P mx s /\
    shear_mod l = spec_G (density (l_soil l)) (l_vs l) (soil_behaviour (l_soil l)) (Some s) /\
    damping l = spec_D (l_dmin l) (soil_behaviour (l_soil l)) (Some s).

(** Nearby transfer functions give nearby peaks. *)
Definition steady_peak (m : motion) : Prop :=
  forall tf p, length tf = length (m_freqs m) -> m_peak m tf = Ok p ->
  forall eps, 0 < eps -> exists d, 0 < d /\ forall tf' p', Forall2 (fun a b => Cmod (Cminus a b) < d) tf' tf ->
    m_peak m tf' = Ok p' -> Rabs (p' - p) < eps.

(** A soil whose curves, if any, are usable tables. *)
Definition tabulated (s : soil) : Prop :=
  (forall c, s_mod s = Some c -> good_table (c_strains c) (c_values c)) /\
  (forall c, s_damp s = DCurve c -> good_table (c_strains c) (c_values c)).

(** The layers show the same modulus and damping and are otherwise the same site. *)
Definition same_state (a b : layer) : Prop :=
  description a = description b /\ shear_mod a = shear_mod b /\ damping a = damping b.

(** The sites of the sequence differ from [ls] in modulus and damping only, by less and less. *)
Definition settles (f : nat -> list layer) (ls : list layer) : Prop :=
  forall eps, 0 < eps -> exists N, forall n, (N <= n)%nat ->
    Forall2 (fun a b => description a = description b /\ Rabs (shear_mod a - shear_mod b) < eps /\
      Rabs (damping a - damping b) < eps) (f n) ls.
