(** Property C163: weak motions in the frequency-dependent calculator. *)
From Verif Require Import Common Model.Curve Model.Layer Model.Waves Model.Eql Model.Motion Model.Fdm.
From Verif Require Import Spec.CurveSpec Spec.WaveSpec Spec.EqlSpec Spec.FdmSpec Spec.WeakSpec Proof.CommonFacts Proof.CurveFacts Proof.EqlRefute Proof.FdmResults Proof.FdmOutput Proof.FdmEx Proof.FdmWeak.
From Coq Require Import List.
From Coquelicot Require Import Complex.
Local Open Scope R_scope.

(** C163,C109: if the curves of every layer begin at their small-strain values and
    neither the first estimate of its strain nor its effective strain under the linear
    waves exceeds its first tabulated strain, a run that gives finite spectra converges
    in one pass, with the initial modulus and the minimum damping at every frequency and
    the linear-elastic waves. *)
Theorem C163_run : forall F m lin ls wvl (e : nat -> R),
  ls <> [] ->
  (forall i l, nth_error ls i = Some l -> unaffected_below (l_soil (f_layer l)) (e i)) ->
  0 < x_tol F -> (0 < x_max F)%Z -> 0 <= x_ratio F -> matched F m -> m_freqs (fm_motion m) <> [] ->
  (forall tf p, m_peak (fm_motion m) tf = Ok p -> 0 <= p) ->
  (forall bw fs xs, List.Forall (fun x => 0 <= x) xs -> List.Forall (fun x => 0 <= x) (x_smooth F bw fs xs)) ->
  le_call (fm_motion m) true (map f_layer ls) = Ok wvl ->
  (forall i l, nth_error ls i = Some l -> (m_pgv (fm_motion m) / 100) / l_vs (f_layer l) <= e i) ->
  (forall i l mx, nth_error ls i = Some l -> (i < length ls - 1)%nat ->
     calc_strain_max (fm_motion m) (length ls) wvl lin i (f_layer l) = Ok mx -> x_ratio F * mx <= e i) ->
  forall stop ls' wv, fr_end (fdm_call F m lin true ls) = Ok (stop, ls', wv) -> stop <> NotFinite ->
  stop = FConverged /\ length (fr_passes (fdm_call F m lin true ls)) = 1%nat /\ wv = wvl /\ length ls' = length ls /\
  forall i l0, nth_error ls i = Some l0 -> exists l, nth_error ls' i = Some l /\
    l_soil (f_layer l) = l_soil (f_layer l0) /\ l_thick (f_layer l) = l_thick (f_layer l0) /\
    forall k, (k < length (m_freqs (fm_motion m)))%nat ->
      at_freq (fi_value (f_G l)) k = Some (initial_shear_mod (f_layer l0)) /\
      at_freq (fi_value (f_D l)) k = Some (l_dmin (f_layer l0)).
Proof. exact fdm_weak. Qed.
Print Assumptions C163_run.
Example C163_ex : exists wv ls',
  le_call soft_motion true wd_site = Ok wv /\ is_nonlinear (l_soil wd_layer) = true /\
  fr_end (fdm_call (dc_fdm ZR15 1) dc_motion soft_input true (map of_layer wd_site)) = Ok (FConverged, ls', wv) /\
  length (fr_passes (fdm_call (dc_fdm ZR15 1) dc_motion soft_input true (map of_layer wd_site))) = 1%nat.
Proof.
  destruct wd_run as (wv & stop & ls' & Hle & Hs & Hst & Hr).
  destruct wd_others as (H1 & H2 & H3 & H4 & H5 & H6 & H7 & H8 & H9 & H10).
  destruct (C163_run (dc_fdm ZR15 1) dc_motion soft_input (map of_layer wd_site) wv (fun _ => 1e-2) H1 H2 H3 H4 H5 H6 H7 H8 H9 Hle H10 Hst
    stop ls' wv Hr Hs) as (E & Hn & _).
  exists wv, ls'. split; [exact Hle|]. split; [reflexivity|]. split; [now rewrite <- E|exact Hn].
Qed.
