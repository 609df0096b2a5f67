(** What a motion and a site must be like for a frequency-dependent run to have finite
    strain spectra. *)
From Verif Require Import Common Model.Curve Model.Layer Model.Waves Model.Eql Model.Motion Model.Text Model.Fdm.
From Verif Require Import Spec.EqlSpec Spec.FdmSpec.
From Coq Require Import List.
From Coquelicot Require Import Complex.
Local Open Scope R_scope.

(** A bandwidth after [ko:] is a number. *)
Definition readable_method (F : fdm) : Prop :=
  forall b, x_method F = (KO ++ b)%list -> exists x, py_float b = Ok x.

(** Some frequency that is not zero has a Fourier amplitude that is not zero. *)
Definition heard (m : fmotion) : Prop :=
  exists k w a, nth_error (m_freqs (fm_motion m)) k = Some w /\ 1e-8 < w /\
    nth_error (fm_amps m) k = Some a /\ a <> RtoC 0.

(** The smoother does not turn amplitudes with a positive one among them into zeros. *)
Definition fair_smoother (F : fdm) : Prop :=
  forall bw fs xs, List.Forall (fun x => 0 <= x) xs -> List.Exists (fun x => 0 < x) xs ->
  List.Exists (fun x => 0 < x) (x_smooth F bw fs xs).

(** Damping is positive at every strain. *)
Definition damped_soil (l : layer) : Prop := forall s, 0 < compute_damping l s.
