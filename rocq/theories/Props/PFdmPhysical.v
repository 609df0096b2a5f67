(** Property C169 (and C110): frequency-dependent runs on physical sites. *)
From Verif Require Import Common Model.Curve Model.Layer Model.Cplx Model.Waves Model.Eql Model.Motion Model.Text Model.Output Model.Fdm.
From Verif Require Import Spec.LayerSpec Spec.WaveSpec Spec.EqlSpec Spec.FdmSpec Spec.FdmPhysicalSpec.
From Verif Require Import Proof.EqlRefute Proof.FdmResults Proof.FdmEx Proof.FdmPhysical.
From Coq Require Import String List.
From Coquelicot Require Import Complex.
Local Open Scope R_scope.

(** C169: with every documented method (and every other text as method), a run on a
    physical site raises no exception but the error of the strain limit, and that one
    only when a limit is set, unless a number that is not finite appears (the end
    [NotFinite], after which the run is not described). The motion is any that has a
    peak for every array; its Fourier amplitudes and frequencies have one entry per
    frequency. *)
Theorem C169_error : forall F m lin ls,
  ls <> nil -> List.Forall (fun l => physical (f_layer l)) ls ->
  clear_freqs (fm_motion m) -> m_freqs (fm_motion m) <> nil -> (loc_index lin < length ls)%nat -> loc_field lin <> Within ->
  answers (fm_motion m) -> matched F m -> readable_method F ->
  (fr_end (fdm_call F m lin true ls) = Err RuntimeError /\ exists x, flimit_on F x) \/
  exists stop ls' wv, fr_end (fdm_call F m lin true ls) = Ok (stop, ls', wv).
Proof. exact fdm_only_limit_error. Qed.
Print Assumptions C169_error.

(** C169: with [zr15] or [ko:...] no division by zero occurs in any pass either: if all
    dampings are positive, all layers above the half-space have a thickness, the motion
    has some amplitude at a non-zero frequency, and the smoother does not smooth
    everything to zero, the run ends by converging or by using up the iterations (or
    with the error of the limit). *)
Theorem C169_finite : forall F m lin ls,
  ls <> nil -> List.Forall (fun l => physical (f_layer l)) ls ->
  clear_freqs (fm_motion m) -> (loc_index lin < length ls)%nat -> loc_field lin <> Within ->
  answers (fm_motion m) -> matched F m -> readable_method F -> x_method F <> KA02 ->
  heard m -> fair_smoother F -> List.Forall (fun l => damped_soil (f_layer l)) ls ->
  List.Forall (fun l => 0 < l_thick (f_layer l)) (removelast ls) ->
  (fr_end (fdm_call F m lin true ls) = Err RuntimeError /\ exists x, flimit_on F x) \/
  exists stop ls' wv, fr_end (fdm_call F m lin true ls) = Ok (stop, ls', wv) /\ (stop = FConverged \/ stop = FExhausted).
Proof. exact fdm_finite. Qed.
Print Assumptions C169_finite.

Example C169_ex : fp_site <> nil /\ List.Forall (fun l => physical (f_layer l)) fp_site /\ clear_freqs (fm_motion dc_motion) /\ m_freqs (fm_motion dc_motion) <> nil /\
  (loc_index soft_input < List.length fp_site)%nat /\ loc_field soft_input <> Within /\
  answers (fm_motion dc_motion) /\ matched fp_fdm dc_motion /\ readable_method fp_fdm /\ x_method fp_fdm <> KA02 /\
  heard dc_motion /\ fair_smoother fp_fdm /\ List.Forall (fun l => damped_soil (f_layer l)) fp_site /\
  List.Forall (fun l => 0 < l_thick (f_layer l)) (removelast fp_site) /\
  exists stop ls' wv, fr_end (fdm_call fp_fdm dc_motion soft_input true fp_site) = Ok (stop, ls', wv) /\ (stop = FConverged \/ stop = FExhausted).
Proof.
  destruct fp_case as (H1 & H2 & H3 & H4 & H5 & H6 & H7 & H8 & H9 & H10 & H11 & H12 & H13).
  assert (NE : fp_site <> nil) by discriminate.
  split; [exact NE|]. split; [exact H1|]. split; [exact H2|]. split; [discriminate|]. do 10 (split; [assumption|]).
  destruct (C169_finite fp_fdm dc_motion soft_input fp_site NE H1 H2 H3 H4 H5 H6 H7 H8 H9 H10 H11 H12) as [[_ [x Q]]|H]; [now elim (H13 x)|exact H].
Qed.

(** C110: the damping profile output fails for every such site that has a layer with
    constant damping and one with tabulated damping above the half-space, whatever its
    number of layers, properties and motion. *)
Theorem C110_always : forall F m lin ls l1 l2 d c,
  List.Forall (fun l => physical (f_layer l)) ls ->
  clear_freqs (fm_motion m) -> (loc_index lin < length ls)%nat -> loc_field lin <> Within ->
  answers (fm_motion m) -> matched F m -> readable_method F -> x_method F <> KA02 ->
  heard m -> fair_smoother F -> List.Forall (fun l => damped_soil (f_layer l)) ls ->
  List.Forall (fun l => 0 < l_thick (f_layer l)) (removelast ls) -> (forall x, ~ flimit_on F x) -> (0 < x_max F)%Z ->
  In l1 (removelast ls) -> s_damp (l_soil (f_layer l1)) = DConst d ->
  In l2 (removelast ls) -> s_damp (l_soil (f_layer l2)) = DCurve c -> usable c ->
  exists stop ls' wv, fr_end (fdm_call F m lin true ls) = Ok (stop, ls', wv) /\ damping_entries ls' = Err ValueError.
Proof. exact fdm_mixed_always. Qed.
Print Assumptions C110_always.

(** Layers with constant and with tabulated damping: the case of [C110_mixed] and of
    [C110_always]. *)
Example C110_mixed_ex : exists stop ls' wv, stop <> NotFinite /\ matched fp_fdm dc_motion /\
  fr_passes (fdm_call fp_fdm dc_motion soft_input true fp_site) <> nil /\
  fr_end (fdm_call fp_fdm dc_motion soft_input true fp_site) = Ok (stop, ls', wv) /\
  In (of_layer (layer_make fp_soil 10 300 0.02)) (removelast fp_site) /\ In (of_layer (layer_make dc_soil 10 200 0.02)) (removelast fp_site) /\
  usable (damping_curve 2 (cons 5e-3 (cons 1e-2 nil)) (cons 0 (cons 0.1 nil))) /\
  damping_entries ls' = Err ValueError.
Proof.
  destruct fp_case as (H1 & H2 & H3 & H4 & H5 & H6 & H7 & H8 & H9 & H10 & H11 & H12 & H13).
  assert (I1 : In (of_layer (layer_make fp_soil 10 300 0.02)) (removelast fp_site)) by (left; reflexivity).
  assert (I2 : In (of_layer (layer_make dc_soil 10 200 0.02)) (removelast fp_site)) by (right; left; reflexivity).
  assert (NE : fp_site <> nil) by discriminate.
  destruct (C169_finite fp_fdm dc_motion soft_input fp_site NE H1 H2 H3 H4 H5 H6 H7 H8 H9 H10 H11 H12) as [[_ [x Q]]|(stop & ls' & wv & E & N)]; [now elim (H13 x)|].
  assert (NN : stop <> NotFinite) by (destruct N; congruence).
  destruct (C110_always fp_fdm dc_motion soft_input fp_site _ _ _ _ H1 H2 H3 H4 H5 H6 H7 H8 H9 H10 H11 H12 H13 eq_refl I1 eq_refl I2 eq_refl dc_usable)
    as (stop2 & ls2 & wv2 & E2 & D2).
  exists stop, ls', wv. split; [exact NN|]. split; [exact H6|]. split; [exact (fcall_passes fp_fdm dc_motion soft_input true fp_site stop ls' wv eq_refl NN E)|].
  split; [exact E|]. split; [exact I1|]. split; [exact I2|]. split; [exact dc_usable|]. rewrite E in E2. injection E2 as _ <- _. exact D2.
Qed.
