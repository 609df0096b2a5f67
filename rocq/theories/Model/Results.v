(** Model of the outputs that are computed at a location (src/pystrata/output.py:315-633 and
    818-834) from a calculator that has run on a time-series motion.
    An array with an entry that is not finite makes every later number nan; such a result
    is [Ok None] and is not described further.  Smoothing (pykooh) is an argument. *)
From Verif Require Import Common Model.Curve Model.Layer Model.Profile Model.Cplx Model.Waves Model.Eql.
From Verif Require Import Model.Averages Model.Output Model.Motion.
From Coquelicot Require Import Complex.
Local Open Scope R_scope.

(** motion.py:55-58 *)
Definition angular_freqs (m : ts_motion) : list R := map (fun f => 2 * PI * f) (t_freqs m).
(** A time-series motion as the calculators see it; [pgv] is the stored peak velocity. *)
Definition as_motion (m : ts_motion) (pgv : R) : motion :=
  mkMotion (angular_freqs m) pgv (fun tf => calc_peak m (Some (OArray tf))).

(** A calculator after a run: [motion], [profile] (its layers and [wt_depth]), [loc_input]
    and the stored waves, one list of rows per frequency. *)
Record calculator := mkCalc {
  k_motion : ts_motion; k_layers : list layer; k_wt : R; k_input : wloc; k_waves : list (list wrow) }.

(** propagation.py:646-659, all frequencies. *)
Definition accel_tfs (K : calculator) (lin lout : wloc) : res (list (option C)) :=
  if (Nat.ltb (loc_index lout) (length (k_layers K)) && Nat.ltb (loc_index lin) (length (k_layers K)))%bool
  then mapM (fun rs => calc_accel_tf rs lin lout) (k_waves K)
  else Err IndexError.
(** propagation.py:681-719, all frequencies. *)
Definition strain_tfs (K : calculator) (lout : wloc) : res (list C) :=
  calc_strain_tfs (as_motion (k_motion K) 0) (length (k_layers K)) (k_waves K) (k_input K) lout.

(** [f] applied to an array; with an entry that is not finite only the exceptions remain. *)
Definition finite {A} (tfs : list (option C)) (f : list C -> res A) : res (option A) :=
  match map_opt (fun x => x) tfs with
  | Some t => bind (f t) (fun a => Ok (Some a))
  | None => bind (f (map (fun _ => RtoC 0) tfs)) (fun _ => Ok None)
  end.

(** output.py:372-396, [AccelerationTSOutput] *)
Definition accel_series (K : calculator) (loc : wloc) : res (option (list R)) :=
  bind (accel_tfs K (k_input K) loc) (fun tfs =>
  finite tfs (fun t => calc_time_series (k_motion K) (Some (OArray t)))).

(** output.py:414-427, [StrainTSOutput] *)
Definition strain_series (K : calculator) (in_percent : bool) (loc : wloc) : res (list R) :=
  bind (strain_tfs K loc) (fun t =>
  bind (calc_time_series (k_motion K) (Some (OArray t))) (fun ts =>
  Ok (if in_percent then map (fun x => x * 100) ts else ts))).

(** site.py:1984-1991 and 2028-2029, [location.stress_vert(effective=True)] *)
Definition effective_stress (wt : R) (l : layer) (within : R) : res R :=
  bind (stress_vert_total l within) (fun s => Ok (s - pore_pressure wt (l_depth l + within))).

(** propagation.py:661-679, all frequencies. *)
Definition stress_tfs (K : calculator) (damped : bool) (l : layer) (loc : wloc) : res (list C) :=
  bind (strain_tfs K loc) (fun t =>
  Ok (map (fun z => Cmult z (if damped then comp_shear_mod l else RtoC (shear_mod l))) t)).
(** output.py:435-462, [StressTSOutput] *)
Definition stress_series (K : calculator) (damped normalized : bool) (loc : wloc) : res (option (list R)) :=
  match nth_error (k_layers K) (loc_index loc) with
  | None => Err IndexError
  | Some l =>
      bind (stress_tfs K damped l loc) (fun t =>
      bind (if normalized
            then bind (effective_stress (k_wt K) l (loc_within loc)) (fun s =>
                 Ok (map (fun z => cdivx z (RtoC s)) t))
            else Ok (map Some t)) (fun tfs =>
      finite tfs (fun t => calc_time_series (k_motion K) (Some (OArray t)))))
  end.

(** [np.interp(freqs, motion.freqs, values)], or the smoother; the lengths of [motion.freqs]
    and of the values must agree. *)
Definition resample (smooth : option (list R -> list R -> list R -> list R)) (freqs xs ys : list R) : res (list R) :=
  if Nat.eqb (length xs) (length ys)
  then Ok (match smooth with
           | None => map (fun f => np_interp f (combine xs ys)) freqs
           | Some s => s freqs xs ys
           end)
  else Err ValueError.

(** output.py:483-502, [FourierAmplitudeSpectrumOutput] *)
Definition fourier_spectrum (K : calculator) smooth (freqs : list R) (loc : wloc) : res (option (list R)) :=
  bind (accel_tfs K (k_input K) loc) (fun tfs =>
  finite tfs (fun t =>
  bind (np_mul (OArray t) (fourier_amps (k_motion K))) (fun p =>
  resample smooth freqs (t_freqs (k_motion K)) (map Cmod p)))).

(** output.py:531-536, [ResponseSpectrumOutput] *)
Definition response_spectrum_at (K : calculator) (damping : R) (freqs : list R) (loc : wloc) : res (option (list R)) :=
  bind (accel_tfs K (k_input K) loc) (fun tfs =>
  finite tfs (fun t => calc_osc_accels (k_motion K) freqs damping (Some t))).

(** output.py:576-591, [AccelTransferFunctionOutput]; the absolute value, or the complex
    numbers, of which [np.interp] interpolates real and imaginary parts. *)
Definition transfer_function (K : calculator) smooth (freqs : list R) (lin lout : wloc) : res (option (list R)) :=
  bind (accel_tfs K lin lout) (fun tfs =>
  finite tfs (fun t => resample smooth freqs (t_freqs (k_motion K)) (map Cmod t))).
Definition transfer_function_complex (K : calculator) (freqs : list R) (lin lout : wloc) : res (option (list C)) :=
  bind (accel_tfs K lin lout) (fun tfs =>
  finite tfs (fun t =>
  bind (resample None freqs (t_freqs (k_motion K)) (map Re t)) (fun re =>
  bind (resample None freqs (t_freqs (k_motion K)) (map Im t)) (fun im => Ok (combine re im))))).

(** output.py:623-633, [ResponseSpectrumRatioOutput]; a zero denominator gives a missing
    entry. *)
Definition spectrum_ratio (K : calculator) (damping : R) (freqs : list R) (lin lout : wloc) : res (option (list cell)) :=
  bind (response_spectrum_at K damping freqs lin) (fun a =>
  bind (response_spectrum_at K damping freqs lout) (fun b =>
  Ok (opt_bind a (fun xs => opt_bind b (fun ys => Some (map2 (fun y x => div_opt y x) ys xs)))))).

(** output.py:829-834; the location of a depth is site.py:2227-2242. *)
Definition peak_at_depth (K : calculator) (depth : R) : res cell :=
  bind (lookup_view (k_layers K) depth) (fun iw =>
  bind (accel_tfs K (k_input K) (mkLoc (fst iw) (snd iw) Within)) (fun tfs =>
  finite tfs (fun t => calc_peak (k_motion K) (Some (OArray t))))).
(** output.py:821-827, [MaxAccelProfile] *)
Definition max_accel_values (K : calculator) : res (list cell) :=
  accel_values (peak_at_depth K) (top_refs (k_layers K)).
