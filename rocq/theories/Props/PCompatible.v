(** Property C165: strain-compatible states of the equivalent-linear calculator. *)
From Verif Require Import Common Model.Curve Model.Layer Model.Cplx Model.Waves Model.Averages Model.Output Model.Eql Model.Motion Model.Results.
From Verif Require Import Spec.CurveSpec Spec.LayerSpec Spec.WaveSpec Spec.EqlSpec Spec.OutputSpec Spec.MotionSpec Spec.IntensitySpec Spec.ResultsSpec Spec.CompatibleSpec.
From Verif Require Import Proof.CommonFacts Proof.LayerFacts Proof.EqlFacts Proof.EqlRefute Proof.ResultsEx Proof.Compatible Proof.CompatibleExists Proof.CompatibleRecord.
From Coq Require Import List.
From Coquelicot Require Import Coquelicot.
Local Open Scope R_scope.

(** C165: a run without reset that starts from a strain-compatible state converges in
    one pass, with the waves of that state, and leaves every modulus and damping as it
    is. *)
Theorem C165_stays : forall P m lin us b x,
  compatible P m lin (us ++ cons b nil) ->
  max_error b = EFin x -> x < e_tol P -> 0 < e_tol P -> (0 < e_max P)%Z ->
  exists st ls' wv, eql_call P m lin false (us ++ cons b nil) = (cons st nil, Ok (Converged, ls', wv)) /\
    calc_waves m (us ++ cons b nil) = Ok wv /\ Forall2 same_state ls' (us ++ cons b nil).
Proof. exact compatible_stays. Qed.
Print Assumptions C165_stays.

(** C165: a site with one nonlinear layer, at any depth above the half-space, has a
    strain-compatible state for every motion whose peak depends continuously on the
    transfer function. *)
Theorem C165_exists : forall P m lin above l below,
  below <> [] ->
  List.Forall physical (above ++ l :: below) ->
  List.Forall (fun l' => is_nonlinear (l_soil l') = false) (above ++ below) ->
  tabulated (l_soil l) -> clear_freqs m -> answers m -> steady_peak m ->
  (loc_index lin < length (above ++ l :: below))%nat -> loc_field lin <> Within ->
  exists s, compatible P m lin (map layer_reset above ++ set_strain (layer_reset l) s :: map layer_reset below).
Proof. exact compatible_exists. Qed.
Print Assumptions C165_exists.

(** C165: transfer functions that differ by at most g at every frequency give peaks of a
    record that differ by at most g times the root of the energy of the record. *)
Theorem C165_peak : forall dt a fa m n rec t1 t2 p1 p2 g,
  new_motion dt a fa = Ok m -> fft_length (length a) fa n -> Z.even n = true ->
  is_padded (Z.to_nat n) a rec -> length t1 = length (t_freqs m) -> length t2 = length (t_freqs m) ->
  List.Forall (fun t => Cmod t <= g) (map2 Cminus t1 t2) ->
  calc_peak m (Some (OArray t1)) = Ok p1 -> calc_peak m (Some (OArray t2)) = Ok p2 -> 0 <= g ->
  Rabs (p1 - p2) <= g * sqrt (energy rec).
Proof. exact peak_lipschitz. Qed.
Print Assumptions C165_peak.

(** C165: a record and a site with one nonlinear layer: there is a strain-compatible
    state, and the calculator started there without reset converges in one pass and
    keeps it. *)
Theorem C165_record : forall P dt a fa m n v lin above l below b,
  0 < dt -> new_motion dt a fa = Ok m -> fft_length (length a) fa n ->
  Z.even n = true -> IZR n * dt <= 6e8 -> List.Forall physical (above ++ l :: below ++ cons b nil) ->
  List.Forall (fun l' => is_nonlinear (l_soil l') = false) (above ++ below ++ cons b nil) -> tabulated (l_soil l) ->
  (loc_index lin < length (above ++ l :: below ++ cons b nil))%nat -> loc_field lin <> Within ->
  1e-9 <= initial_shear_mod b -> l_dmin b = 0 \/ 1e-9 <= l_dmin b -> 0 < e_tol P -> (0 < e_max P)%Z ->
  exists s, let ls := map layer_reset above ++ set_strain (layer_reset l) s :: map layer_reset (below ++ cons b nil) in
  compatible P (as_motion m v) lin ls /\
  exists st ls' wv, eql_call P (as_motion m v) lin false ls = (cons st nil, Ok (Converged, ls', wv)) /\
    calc_waves (as_motion m v) ls = Ok wv /\ Forall2 same_state ls' ls.
Proof. exact record_settles. Qed.
Print Assumptions C165_record.
(** The nonlinear layer of the sinusoidal examples over a linear half-space, and a record. *)
Example C165_record_ex : exists m, new_motion 0.01 rx_rec None = Ok m /\ fft_length (length rx_rec) None 4 /\
  exists s, compatible soft_params (as_motion m 1) soft_input (cons (set_strain (layer_reset soft_layer) s) (cons (layer_reset stiff_layer) nil)) /\
  is_nonlinear (l_soil soft_layer) = true.
Proof.
  destruct rx_motion as [m Hm]. exists m. split; [exact Hm|].
  assert (HL : fft_length (length rx_rec) None 4) by exact rx_length. split; [exact HL|].
  destruct (C165_record soft_params 0.01 rx_rec None m 4 1 soft_input nil soft_layer nil stiff_layer) as (s & Q & _);
    try exact Hm; try exact HL; try exact soft_physical; try reflexivity; try lra; try discriminate.
  - repeat constructor.
  - split; [|discriminate]. intros c E. cbn in E. injection E as <-. exact soft_table.
  - cbn. lia.
  - unfold initial_shear_mod, density, stiff_layer, stiff_soil, layer_make, layer_reset, GRAVITY. cbn. lra.
  - now left.
  - cbn. lra.
  - exists s. split; [exact Q|reflexivity].
Qed.
