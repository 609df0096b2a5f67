(** What a user expects of the quarter-wavelength calculator called with a profile. *)
From Verif Require Import Common Model.Layer Spec.StepSpec Spec.QwlSpec.
From Coquelicot Require Import Coquelicot.
Local Open Scope R_scope.

(** A layer with weight and velocity. *)
Definition qwl_layer (l : layer) : Prop := 0 <= l_thick l /\ 0 < l_vs l /\ 0 < s_unit_wt (l_soil l).

(** Travel time of shear waves and mass per area, from the surface to depth [d]. *)
Definition time_to (ls : list layer) (d : R) : R := RInt (step_fun (map (fun l => (l_thick l, / l_vs l)) ls)) 0 d.
Definition mass_to (ls : list layer) (d : R) : R := RInt (step_fun (map (fun l => (l_thick l, s_unit_wt (l_soil l) / 9.80665)) ls)) 0 d.

(** [a] is the quarter-wavelength amplification at frequency [f] over the bottom layer
    [rock]: the square root of the ratio of its impedance to the one formed with the
    averaged density and velocity, taken down to a quarter of the wavelength (to within 2 %). *)
Definition qwl_amp (ls : list layer) (rock : layer) (f a : R) : Prop :=
  exists d d', 0 < d /\ 0 < d' /\ agree d d' /\ Rabs (d - (d / time_to ls d) / (4 * f)) <= 2e-8 + 0.02 * d' /\
  0 < a /\ a * a = (s_unit_wt (l_soil rock) / 9.80665 * l_vs rock) / ((mass_to ls d' / d') * (d / time_to ls d)).
