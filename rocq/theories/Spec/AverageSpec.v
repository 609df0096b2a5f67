(** Depth averages of a layered site, from the layers themselves. *)
From Verif Require Import Common Model.Layer Spec.StepSpec.
Local Open Scope R_scope.

(** Slowness (1/velocity) of a site as a stack of layers: strain-compatible and
    initial velocities. *)
Definition slowness (ls : list layer) : list (R * R) :=
  map (fun l => (l_thick l, / shear_vel l)) ls.
Definition initial_slowness (ls : list layer) : list (R * R) :=
  map (fun l => (l_thick l, / l_vs l)) ls.

(** Mode shape of Urzua et al.: zero at the base, growing upwards. *)
Fixpoint mode_shape (ls : list layer) : R * list R :=
  match ls with
  | [] => (0, [0])
  | l :: rest =>
      let (below, shape) := mode_shape rest in
      let x := below + (l_depth l + l_thick l / 2) * l_thick l / (l_vs l * l_vs l) in
      (x, x :: shape)
  end.

(** Sum over the layers of thickness times the square of (mode shape at the top
    plus mode shape at the bottom). *)
Fixpoint shape_energy (ls : list layer) : R :=
  match ls with
  | [] => 0
  | l :: rest =>
      l_thick l * (fst (mode_shape (l :: rest)) + fst (mode_shape rest)) ^ 2 + shape_energy rest
  end.
Fixpoint strain_energy (ls : list layer) : R :=
  match ls with
  | [] => 0
  | l :: rest =>
      l_thick l * ((l_depth l + l_thick l / 2) / l_vs l) ^ 2 + strain_energy rest
  end.
