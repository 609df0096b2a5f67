(** Property C160: response spectra at long periods. *)
From Verif Require Import Common Model.Layer Model.Averages Model.Output Model.Motion Model.Waves Model.Eql Model.Results.
From Verif Require Import Spec.OutputSpec Spec.MotionSpec Spec.IntensitySpec Proof.MotionFacts Proof.MotionProps Proof.OutputValues Proof.EqlFacts Proof.ResultsProps Proof.ResultsRuns Proof.ResultsDefined Proof.ResultsEx Proof.CplxFacts Proof.ShortPeriod Proof.LongPeriod.
From Coq Require Import List.
From Coquelicot Require Import Coquelicot.
Local Open Scope R_scope.

(** C160: for a transfer function of at most g, the spectral acceleration of an
    oscillator slower than the padded record differs from the magnitude of the mean of
    the padded record times the first component by at most g r^2 / (1 - r^2) times the
    root of the sum of squares, r being the oscillator frequency times the padded
    duration. *)
Theorem C160_response : forall dt a fa m n rec tf t0 g xi f0 s,
  new_motion dt a fa = Ok m -> fft_length (length a) fa n -> Z.even n = true ->
  is_padded (Z.to_nat n) a rec -> length tf = length (t_freqs m) -> List.Forall (fun t => Cmod t <= g) tf -> hd_error tf = Some t0 ->
  0 < dt -> 0 < xi -> 0 < f0 < / (IZR n * dt) -> calc_osc_accels m (cons f0 nil) xi (Some tf) = Ok (cons s nil) ->
  let r := f0 * (IZR n * dt) in
  Rabs (s - Rabs (Re t0 * (Rsum rec / INR (length rec)))) <= g * (r ^ 2 / (1 - r ^ 2)) * sqrt (energy rec).
Proof. exact soft_oscillator. Qed.
Print Assumptions C160_response.
Example C160_ex : exists m s, new_motion 0.01 rx_rec None = Ok m /\ fft_length (length rx_rec) None 4 /\ 0 < 10 < / (4 * 0.01) /\
  calc_osc_accels m (cons 10 nil) 0.05 (Some (map (fun _ => RtoC 1) (t_freqs m))) = Ok (cons s nil).
Proof.
  destruct rx_motion as [m Hm]. destruct (osc_accels_defined 0.01 rx_rec 4 m 0.05 (cons 10 nil)) as (ps & E & L & _);
    [reflexivity|exact (length_given _ _ _ _ _ Hm rx_length)|].
  destruct ps as [|s [|? ?]]; try discriminate L. exists m, s. split; [exact Hm|]. split; [exact rx_length|].
  split; [split; [lra|]; apply (Rmult_lt_reg_r (4 * 0.01)); [lra|]; rewrite Rinv_l; lra|]. exact E.
Qed.

(** C160: so at long periods the spectrum approaches the magnitude of the mean of the
    padded record times the real part of the first component. *)
Theorem C160_limit : forall dt a fa m n rec tf t0 xi,
  new_motion dt a fa = Ok m -> fft_length (length a) fa n -> Z.even n = true ->
  is_padded (Z.to_nat n) a rec -> length tf = length (t_freqs m) -> hd_error tf = Some t0 -> 0 < dt -> 0 < xi ->
  forall eps, 0 < eps -> exists F, 0 < F /\ forall f0 s, 0 < f0 < F ->
    calc_osc_accels m (cons f0 nil) xi (Some tf) = Ok (cons s nil) -> Rabs (s - Rabs (Re t0 * (Rsum rec / INR (length rec)))) < eps.
Proof. exact soft_limit. Qed.
Print Assumptions C160_limit.
