(** What a time-series motion should be: the record padded to the FFT length, its
    peak, its Fourier sums, and the damped oscillator. *)
From Verif Require Import Common Model.Motion.
From Coquelicot Require Import Coquelicot.
Local Open Scope R_scope.

(** [ys] is the record [xs] cropped or extended with zeros to [n] samples. *)
Definition is_padded (n : nat) (xs ys : list R) : Prop :=
  length ys = n /\
  forall j, (j < n)%nat -> nth_error ys j = Some (match nth_error xs j with Some x => x | None => 0 end).

Definition is_peak (ts : list R) (p : R) : Prop :=
  (exists x, In x ts /\ p = Rabs x) /\ forall x, In x ts -> Rabs x <= p.

(** [n] is the smallest power of two not below [size]. *)
Definition smallest_power (size n : nat) : Prop :=
  (exists k, n = 2 ^ k)%nat /\ (size <= n)%nat /\ forall j, (size <= 2 ^ j)%nat -> (n <= 2 ^ j)%nat.

(** The Fourier sum of the samples at the [k]-th of [length ts] frequencies. *)
Definition fourier_sum (ts : list R) (k : nat) (z : C) : Prop :=
  let n := INR (length ts) in
  z = (Rsum (map (fun j => nth j ts 0 * cos (2 * PI * INR j * INR k / n)) (seq 0 (length ts))),
       - Rsum (map (fun j => nth j ts 0 * sin (2 * PI * INR j * INR k / n)) (seq 0 (length ts)))).

(** A damped oscillator of angular frequency [w0] and damping [xi] under the
    ground acceleration [a], with relative displacement [u]:
    u'' + 2 xi w0 u' + w0^2 u = -a. *)
Definition oscillates (w0 xi : R) (a u : R -> R) : Prop :=
  exists v acc : R -> R,
    (forall t, is_derive u t (v t)) /\ (forall t, is_derive v t (acc t)) /\
    forall t, acc t + 2 * xi * w0 * v t + w0 ^ 2 * u t = - a t.

(** The FFT length: the given one, or the smallest power of two not below the
    number of samples. *)
Definition fft_length (samples : nat) (given : option Z) (n : Z) : Prop :=
  match given with
  | Some z => n = z
  | None => (0 <= n)%Z /\ smallest_power samples (Z.to_nat n)
  end.

(** A transfer function equal to one everywhere: absent, the scalar 1, or an
    array of ones at the motion's frequencies. *)
Definition unit_tf (m : ts_motion) (tf : option operand) : Prop :=
  tf = None \/ tf = Some (OScalar (RtoC 1)) \/ tf = Some (OArray (map (fun _ => RtoC 1) (t_freqs m))).
