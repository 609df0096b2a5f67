(** What is expected of the published curves. *)
From Coq Require Import String QArith Qreals Sorted.
From Verif Require Import Common Model.Published Spec.CurveSpec.
Local Open Scope R_scope.

Definition strains_of (t : table) : list R := map Q2R (t_strains t).
Definition values_of (t : table) : list R := map Q2R (t_values t).
(** Usable, and with all values inside the limits. *)
Definition well_formed (lo hi : R) (t : table) : Prop :=
  good_table (strains_of t) (values_of t) /\ Forall (fun v => lo <= v <= hi) (values_of t).
(** Never rising, never falling. *)
Definition falling (t : table) : Prop := StronglySorted Rge (values_of t).
Definition rising (t : table) : Prop := StronglySorted Rle (values_of t).

(** The exceptions: models whose modulus reduction rises somewhere, whose damping falls
    somewhere, and models with one curve only. *)
Definition rising_modulus : list string := ["GeoMatrix (1990), 50-150 ft"%string].
Definition falling_damping : list string :=
  ["EPRI (93), PI=10"; "EPRI (93), PI=30"; "EPRI (93), PI=50"; "EPRI (93), PI=70";
   "EPRI (93), 50-120 ft"; "EPRI (93), 120-250 ft"; "EPRI (93), 500-1000 ft"]%string.
Definition one_curve : list string :=
  ["GeoMatrix (1990), >150 ft"; "GeoMatrix (1990), 150-300 ft"; "GeoMatrix (1990), >300 ft"; "Iwasaki, 0.25 atm"; "Iwasaki, 1.0 atm";
   "Seed & Idriss, Sand Upper"; "Seed & Idriss, Sand Lower"]%string.
