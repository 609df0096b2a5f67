(** Property C166: where the equivalent-linear iteration settles. *)
From Verif Require Import Common Model.Curve Model.Layer Model.Cplx Model.Waves Model.Averages Model.Output Model.Eql Model.Motion Model.Results.
From Verif Require Import Spec.CurveSpec Spec.LayerSpec Spec.WaveSpec Spec.EqlSpec Spec.OutputSpec Spec.MotionSpec Spec.ResultsSpec Spec.CompatibleSpec.
From Verif Require Import Proof.CommonFacts Proof.LayerFacts Proof.EqlFacts Proof.EqlRefute Proof.RepeatEx Proof.CompatibleLimit Proof.CompatibleRecord Proof.CompatibleEx.
From Coq Require Import List.
From Coquelicot Require Import Coquelicot.
Local Open Scope R_scope.

(** C166: if runs with 1, 2, 3, ... allowed iterations all use them up and the moduli
    and dampings they leave approach those of some site, that site is strain-compatible;
    any number of nonlinear layers, any motion whose peak depends continuously on the
    transfer function. *)
Theorem C166_limit : forall P m lin reset ls0 f ls,
  ls0 <> nil -> List.Forall physical ls0 -> (reset = false -> List.Forall sound ls0) ->
  List.Forall (fun l => tabulated (l_soil l)) ls0 -> clear_freqs m -> answers m -> steady_peak m ->
  (loc_index lin < length ls0)%nat -> loc_field lin <> Within ->
  (forall n, (0 < n)%nat -> exists t wv, eql_call (with_max P (Z.of_nat n)) m lin reset ls0 = (t, Ok (Exhausted, f n, wv))) ->
  settles f ls -> compatible P m lin ls.
Proof. exact runs_limit. Qed.
Print Assumptions C166_limit.
(** The soft layer over the half-space under a sinusoid, tolerance zero: every run is exhausted,
    starts at a tenth of the initial modulus and settles at the initial modulus. *)
Example C166_limit_ex : exists f,
  (forall n, (0 < n)%nat -> exists t wv, eql_call (with_max rp_params (Z.of_nat n)) soft_motion soft_input true soft_site = (t, Ok (Exhausted, f n, wv))) /\
  settles f (map layer_reset soft_site) /\ compatible rp_params soft_motion soft_input (map layer_reset soft_site).
Proof.
  destruct soft_settles as (f & HF & HS). exists f. split; [exact HF|]. split; [exact HS|].
  apply (C166_limit rp_params soft_motion soft_input true soft_site f); auto.
  - discriminate.
  - exact soft_physical.
  - discriminate.
  - constructor; [|constructor; [|constructor]]; (split; [|discriminate]); intros c E; cbn in E; [injection E as <-; exact soft_table|discriminate].
  - exact soft_clear.
  - intros tf _. now eexists.
  - exact (sinusoid_steady _ _).
  - cbn. lia.
  - discriminate.
Qed.

(** C166: the same for every record of even transform length. *)
Theorem C166_record : forall P dt a fa m n v lin reset ls0 f ls,
  0 < dt -> new_motion dt a fa = Ok m -> fft_length (length a) fa n ->
  Z.even n = true -> IZR n * dt <= 6e8 -> ls0 <> nil -> List.Forall physical ls0 -> (reset = false -> List.Forall sound ls0) ->
  List.Forall (fun l => tabulated (l_soil l)) ls0 -> (loc_index lin < length ls0)%nat -> loc_field lin <> Within ->
  (forall k, (0 < k)%nat -> exists t wv, eql_call (with_max P (Z.of_nat k)) (as_motion m v) lin reset ls0 = (t, Ok (Exhausted, f k, wv))) ->
  settles f ls -> compatible P (as_motion m v) lin ls.
Proof. exact record_limit. Qed.
Print Assumptions C166_record.
