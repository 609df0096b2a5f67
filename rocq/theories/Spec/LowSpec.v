(** Specification of the motion of a site at low frequencies. *)
From Verif Require Import Common Model.Curve Model.Layer Model.Cplx Model.Waves Spec.WaveSpec.
From Coquelicot Require Import Coquelicot.
Local Open Scope R_scope.

(** Size of the complex slowness of a material. *)
Definition slowness (l : wlayer) : R := Rabs (Re (Cinv (wl_vel l))) + Rabs (Im (Cinv (wl_vel l))).

(** Travel time from the surface to the depth [z] inside layer [i]. *)
Definition lag (ls : list wlayer) (i : nat) (z : R) : R :=
  Rsum (map (fun l => slowness l * wl_thick l) (firstn i ls)) +
  match nth_error ls i with Some l => slowness l * z | None => 0 end.

(** All the impedances are within a factor [r] of one number. *)
Definition contrasts_within (r : R) (ls : list wlayer) : Prop :=
  exists z, 0 < z /\ List.Forall (fun l => Cmod (cimpedance l) <= r * z /\ z <= r * Cmod (cimpedance l)) ls.

(** Size of the departure from a motion that is the same everywhere. *)
Definition departure (r w time : R) : R := exp ((1 + r) * (Rabs w * time)) - 1.
