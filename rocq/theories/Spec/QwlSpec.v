(** The quarter-wavelength method, from integrals over depth. *)
From Verif Require Import Common Spec.StepSpec.
From Coquelicot Require Import Coquelicot.
Local Open Scope R_scope.

(** Average from the surface to depth [d] of a property given per layer. *)
Definition mean_to (l : list (R * R)) (d : R) : R := RInt (step_fun l) 0 d / d.

(** Inputs that describe a site: one positive property per layer, thicknesses not
    negative, at least one layer. *)
Definition site_property (thickness prop : list R) : Prop :=
  length prop = length thickness /\ prop <> nil /\
  List.Forall (fun t => 0 <= t) thickness /\ List.Forall (fun p => 0 < p) prop.

(** Average of a list of numbers. *)
Definition average (xs : list R) : R := Rsum xs / INR (length xs).

(** One refinement of the depth at frequency [f]: the mean of the depth and of a
    quarter of the wavelength of the averaged profile. *)
Definition refine (l : list (R * R)) (f d : R) : R := (d + 1 / (4 * mean_to l d * f)) / 2.
Definition depth_after (thickness slowness : list R) (f : R) (k : nat) : R :=
  Nat.iter k (refine (combine thickness slowness) f) (1 / (4 * average slowness * f)).

(** Two successive depths agree: within 1 % and 1e-8. *)
Definition agree (prev new : R) : Prop := Rabs (prev - new) <= 1e-8 + 0.01 * Rabs new.

(** Amplification: square root of the ratio of the impedance at the bottom to the
    averaged one. *)
Definition impedance_ratio (rho_n s_n rho s : R) : R := (rho_n / s_n) / (rho / s).

(** Values that do not increase (do not decrease) with depth. *)
Fixpoint falling (xs : list R) : Prop :=
  match xs with x :: ((y :: _) as rest) => y <= x /\ falling rest | _ => True end.
Fixpoint rising (xs : list R) : Prop :=
  match xs with x :: ((y :: _) as rest) => x <= y /\ rising rest | _ => True end.
