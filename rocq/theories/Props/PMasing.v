(** Property C88: Masing damping. *)
From Verif Require Import Common Model.SoilModels Spec.SoilModelSpec Proof.MasingProps.
From Coquelicot Require Import Coquelicot.
Local Open Scope R_scope.

(** C88: the closed form is 100 times the loop damping, with the integral of the
    hyperbolic backbone as area. *)
Theorem C88_loop_area : forall sr s,
  0 < sr -> 0 < s ->
  exists a area, masing_a1 sr s = Some a /\ is_RInt (backbone sr) 0 s area /\
    a = 100 * loop_damping (backbone sr s) s area.
Proof. exact masing_is_loop. Qed.
Print Assumptions C88_loop_area.
