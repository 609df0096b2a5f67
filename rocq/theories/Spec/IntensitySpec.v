(** Velocities, energies and delays of a record. *)
From Verif Require Import Common Model.Motion Model.MotionObject.
From Coquelicot Require Import Coquelicot.
Local Open Scope R_scope.

(** A sum of the harmonics of period [T] below the [h]-th: no mean. *)
Definition harmonics (T : R) (h : nat) (f : R -> R) : Prop :=
  exists c s : nat -> R, forall t,
    f t = Rsum (map (fun k => c k * cos (2 * PI * INR k * t / T) + s k * sin (2 * PI * INR k * t / T)) (seq 1 (h - 1))).

(** The mean of the samples, and the mean with alternating signs (the amplitude at the highest
    frequency). *)
Definition mean_of (xs : list R) : R := Rsum xs / INR (length xs).
Definition alternating (j : nat) : R := if Nat.even j then 1 else -1.
Definition alternating_mean (xs : list R) : R :=
  Rsum (map (fun j => alternating j * nth j xs 0) (seq 0 (length xs))) / INR (length xs).

(** Energy of samples. *)
Definition energy (xs : list R) : R := Rsum (map (fun x => x ^ 2) xs).

(** [ys] is [xs] one step later; the last sample comes first. *)
Definition one_later (xs ys : list R) : Prop := exists l x, xs = (l ++ x :: nil)%list /\ ys = x :: l.
Inductive later : nat -> list R -> list R -> Prop :=
| later_0 xs : later 0 xs xs
| later_S s xs ys zs : later s xs ys -> one_later ys zs -> later (S s) xs zs.

(** What the four measures of a motion are. *)
Definition measured (m : ts_motion) (q : measure) : res R :=
  match q with
  | Pga => calc_peak m None
  | Pgv => calc_pgv m None
  | Arias => motion_arias m None
  | Cav => motion_cav m None
  end.
(** The entries after some writes. *)
Fixpoint entry_after (cs : list motion_call) (i : nat) (x : R) : R :=
  match cs with
  | nil => x
  | cons (Write j y) rest => entry_after rest i (if Nat.eqb j i then y else x)
  | cons (Read _) rest => entry_after rest i x
  end.
