(** Shapes of tabulated soil curves. *)
From Verif Require Import Common Model.Curve Model.Layer.
Local Open Scope R_scope.

(** [vs] tabulates a strictly decreasing (increasing) function of the strain. *)
Definition falls (ss vs : list R) : Prop :=
  forall i j s s' v v', nth_error ss i = Some s -> nth_error ss j = Some s' ->
    nth_error vs i = Some v -> nth_error vs j = Some v' -> s < s' -> v' < v.
Definition rises (ss vs : list R) : Prop :=
  forall i j s s' v v', nth_error ss i = Some s -> nth_error ss j = Some s' ->
    nth_error vs i = Some v -> nth_error vs j = Some v' -> s < s' -> v < v'.

(** Entries never decrease along the table. *)
Definition never_drops (vs : list R) : Prop :=
  forall i j v v', nth_error vs i = Some v -> nth_error vs j = Some v' -> (i <= j)%nat -> v <= v'.

(** Stress on the hyperbolic backbone for a unit initial modulus. *)
Definition backbone (strain_ref g : R) : R := g / (1 + g / strain_ref).

(** Damping ratio of a loop of amplitude [s] that follows Masing's rules: [1 / (4 pi)]
    times the dissipated energy, eight times the area between the backbone and its
    secant, over the elastic energy of the secant; [area] is the area below the
    backbone. *)
Definition loop_damping (stress s area : R) : R :=
  1 / (4 * PI) * (8 * (area - stress * s / 2)) / (stress * s / 2).

(** Curves of a modified hyperbolic soil type with minimum damping [dm]. *)
Definition shaped (dm : R) (ss : list R) (s : soil) : Prop :=
  exists mc dc, s_mod s = Some mc /\ s_damp s = DCurve dc /\
    c_strains mc = ss /\ c_strains dc = ss /\
    length (c_values mc) = length ss /\ length (c_values dc) = length ss /\
    List.Forall (fun m => 0 < m < 1) (c_values mc) /\ falls ss (c_values mc) /\
    List.Forall (fun d => dm < d) (c_values dc) /\ never_drops (c_values dc).

(** At every strain the second soil type has at least the modulus reduction (damping) of
    the first; both have values. *)
Definition stiffer (s s' : soil) : Prop :=
  exists mc mc', s_mod s = Some mc /\ s_mod s' = Some mc' /\
    forall x, exists v v', curve_call mc x = Ok v /\ curve_call mc' x = Ok v' /\ v <= v'.
Definition more_damped (s s' : soil) : Prop :=
  exists dc dc', s_damp s = DCurve dc /\ s_damp s' = DCurve dc' /\
    forall x, exists v v', curve_call dc x = Ok v /\ curve_call dc' x = Ok v' /\ v <= v'.
