(** Energy of harmonic shearing, per unit area of the site and per cycle. *)
From Verif Require Import Common Model.Curve Model.Layer Model.Cplx Model.Waves Spec.WaveSpec.
From Coquelicot Require Import Coquelicot.
Local Open Scope R_scope.

(** Value at the time [t] of a harmonic quantity with complex amplitude [x]. *)
Definition harmonic (w : R) (x : C) (t : R) : R := Re x * cos (w * t) - Im x * sin (w * t).

(** [q] is the work done in one cycle by the stress of amplitude [s] on the
    displacement of amplitude [u]: the integral of stress times velocity. *)
Definition cycle_work (w : R) (s u : C) (q : R) : Prop :=
  is_RInt (fun t => harmonic w s t * Derive (harmonic w u) t) 0 (2 * PI / w) q.

(** Displacement amplitude of an acceleration amplitude given in g. *)
Definition displacement (w : R) (a : C) : C := Cmult (RtoC (- (GRAVITY / w ^ 2))) a.

(** [q] is the energy that layer [i], of properties [l], loses in one cycle between
    its top and the depth [z] below it: by the definition of the damping ratio, 4 pi
    times the ratio times the largest stored energy, with the reported strains. *)
Definition lost_in (rs : list wrow) (w : R) (lin : wloc) (i : nat) (l : layer) (z q : R) : Prop :=
  exists st d, (forall x, calc_strain_tf rs w lin (mkLoc i x Within) = Ok (Some (st x))) /\
    limited_damping (damping l) d /\
    is_RInt (fun x => 4 * PI * d * (1 / 2 * shear_mod l * Cnorm2 (st x))) 0 z q.
