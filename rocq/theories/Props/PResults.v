(** Properties C111 to C118: outputs computed at a location. *)
From Verif Require Import Common Model.Curve Model.Layer Model.Profile Model.Cplx Model.Waves Model.Eql Model.Averages Model.Output Model.Motion Model.Results.
From Verif Require Import Spec.ProfileSpec Spec.MotionSpec Spec.WaveSpec Spec.EqlSpec Spec.ResultsSpec.
From Verif Require Import Proof.ProfileFacts Proof.EqlRefute Proof.EqlKeeps Proof.ResultsProps Proof.ResultsRuns Proof.ResultsDefined Proof.ResultsEx.
From Coq Require Import List.
From Coquelicot Require Import Complex.
Local Open Scope R_scope.
Local Open Scope R_scope.

(** C111: on sound layers the series, the response spectrum and the transfer function at
    the input location are those of the record itself. *)
Theorem C111_input : forall dt a fa m n v ls0 K,
  0 < dt -> new_motion dt a fa = Ok m -> fft_length (length a) fa n ->
  Z.even n = true -> IZR n * dt <= 6e8 -> ls0 <> [] -> List.Forall sound ls0 ->
  calc_waves (as_motion m v) ls0 = Ok (k_waves K) -> k_motion K = m -> length (k_layers K) = length ls0 ->
  (loc_index (k_input K) < length ls0)%nat ->
  (loc_field (k_input K) = Within -> 0 <= loc_within (k_input K) /\ List.Forall (fun l => 0 < damping l) ls0) ->
  (exists ts, accel_series K (k_input K) = Ok (Some ts) /\ is_padded (Z.to_nat n) a ts) /\
  (forall fs xi, response_spectrum_at K xi fs (k_input K) =
     match calc_osc_accels m fs xi None with Ok ps => Ok (Some ps) | Err e => Err e end) /\
  (forall fs, transfer_function K None fs (k_input K) (k_input K) = Ok (Some (map (fun _ => 1) fs))).
Proof. exact input_physical. Qed.
Print Assumptions C111_input.
Example C111_input_ex : exists m v wv, new_motion 0.01 rx_rec None = Ok m /\ fft_length (length rx_rec) None 4 /\
  rx_site <> [] /\ List.Forall sound rx_site /\ calc_waves (as_motion m v) rx_site = Ok wv.
Proof.
  destruct (rx_ran (mkLoc 1 0 Outcrop) 3) as (K & (_ & Hm & Hn & _ & _ & Hne & HF & _ & v & Hw) & _).
  exists (k_motion K), v, (k_waves K). split; [exact Hm|]. split; [exact Hn|]. split; [exact Hne|]. now split.
Qed.

(** C111: whatever the location asked for, the outputs of such a state are finite and
    have one entry per sample or per requested frequency. *)
Theorem C111_defined : forall dt a fa n lsw K loc,
  ran dt a fa n lsw K ->
  (loc_index (k_input K) < length lsw)%nat -> loc_field (k_input K) <> Within -> (loc_index loc < length lsw)%nat ->
  (exists ts, accel_series K loc = Ok (Some ts) /\ length ts = Z.to_nat n) /\
  (forall fs, exists vs, fourier_spectrum K None fs loc = Ok (Some vs) /\ length vs = length fs) /\
  (forall xi fs, exists ps, response_spectrum_at K xi fs loc = Ok (Some ps) /\ length ps = length fs) /\
  (forall fs, exists vs, transfer_function K None fs (k_input K) loc = Ok (Some vs) /\ length vs = length fs) /\
  (loc_field loc = Within -> forall pct, exists ts, strain_series K pct loc = Ok ts /\ length ts = Z.to_nat n) /\
  (loc_field loc = Within -> forall damped, exists ts, stress_series K damped false loc = Ok (Some ts) /\ length ts = Z.to_nat n).
Proof. exact outputs_defined. Qed.
Print Assumptions C111_defined.
Example C111_defined_ex : exists K, ran 0.01 rx_rec None 4 rx_site K /\ (loc_index (k_input K) < length rx_site)%nat /\
  loc_field (k_input K) <> Within.
Proof.
  destruct (rx_ran (mkLoc 1 0 Outcrop) 3) as (K & HR & _ & HI & _). exists K. rewrite HI. split; [exact HR|]. split; [cbn; lia|discriminate].
Qed.

(** C111: an equivalent-linear run without strain limit on a physical profile ends
    normally for every record with an even FFT length. *)
Theorem C111_runs : forall dt a fa m n v P lin ls,
  0 < dt -> new_motion dt a fa = Ok m -> fft_length (length a) fa n ->
  Z.even n = true -> IZR n * dt <= 6e8 -> ls <> [] -> List.Forall physical ls -> (loc_index lin < length ls)%nat ->
  loc_field lin <> Within -> (forall x, ~ limit_on P x) ->
  exists t stop ls' wv, eql_call P (as_motion m v) lin true ls = (t, Ok (stop, ls', wv)).
Proof. exact eql_record. Qed.
Print Assumptions C111_runs.
Example C111_runs_ex : exists m, new_motion 0.01 rx_rec None = Ok m /\ fft_length (length rx_rec) None 4 /\
  List.Forall physical soft_site /\ forall x, ~ limit_on rx_params x.
Proof.
  destruct rx_motion as [m Hm]. exists m. split; [exact Hm|]. split; [exact rx_length|]. split; [exact soft_physical|]. intros x [H _]. discriminate.
Qed.

(** C111: after such a run the acceleration series at the input location is the record,
    padded to the FFT length. *)
Theorem C111_eql : forall dt a fa m n v P lin ls t stop ls' wv wt,
  0 < dt -> new_motion dt a fa = Ok m -> fft_length (length a) fa n ->
  Z.even n = true -> IZR n * dt <= 6e8 -> ls <> [] -> List.Forall physical ls -> (loc_index lin < length ls)%nat ->
  loc_field lin <> Within -> eql_call P (as_motion m v) lin true ls = (t, Ok (stop, ls', wv)) ->
  let K := mkCalc m ls' wt lin wv in
  exists ts, accel_series K lin = Ok (Some ts) /\ is_padded (Z.to_nat n) a ts.
Proof. exact eql_input. Qed.
Print Assumptions C111_eql.
Example C111_eql_ex : exists m t stop ls' wv, new_motion 0.01 rx_rec None = Ok m /\
  eql_call rx_params (as_motion m 10) soft_input true soft_site = (t, Ok (stop, ls', wv)).
Proof. apply rx_run; [discriminate|exact soft_physical]. Qed.

(** C111: the transfer function from a location that moves to itself is one at every
    requested frequency. *)
Theorem C111_self : forall K loc fs,
  length (k_waves K) = length (t_freqs (k_motion K)) -> t_freqs (k_motion K) <> [] ->
  (loc_index loc < length (k_layers K))%nat -> moves (k_waves K) loc ->
  transfer_function K None fs loc loc = Ok (Some (map (fun _ => 1) fs)).
Proof. exact self_transfer. Qed.
Print Assumptions C111_self.

(** C48,C26: with an odd FFT length of 3 or more every equivalent-linear run on a
    physical profile raises ValueError. *)
Theorem C48_odd_run : forall dt a m n v P lin ls,
  0 < dt -> new_motion dt a (Some n) = Ok m -> Z.odd n = true -> (3 <= n)%Z ->
  IZR n * dt <= 6e8 -> (2 <= length ls)%nat -> List.Forall physical ls -> (loc_index lin < length ls)%nat ->
  loc_field lin <> Within -> eql_call P (as_motion m v) lin true ls = ([], Err ValueError).
Proof. exact eql_odd. Qed.
Print Assumptions C48_odd_run.
Example C48_odd_run_ex : exists m, new_motion 0.01 rx_rec (Some 3%Z) = Ok m /\ (2 <= length soft_site)%nat /\ List.Forall physical soft_site.
Proof.
  destruct (proj2 (Proof.MotionProps.new_motion_defined 0.01 rx_rec (Some 3%Z))) as [m H]; [split; [lra|lia]|].
  exists m. split; [exact H|]. split; [cbn; lia|exact soft_physical].
Qed.

(** C112: after an equivalent-linear run the maximum strain of each layer is the peak of
    the strain series at its mid-height. *)
Theorem C112_strain : forall P m v lin reset ls t stop ls' wv wt,
  ls <> [] ->
  eql_call P (as_motion m v) lin reset ls = (t, Ok (stop, ls', wv)) ->
  let K := mkCalc m ls' wt lin wv in
  forall i l, (S i < length ls')%nat -> nth_error ls' i = Some l ->
  exists mx ts, l_smax l = Some mx /\ strain_series K false (mkLoc i (l_thick l / 2) Within) = Ok ts /\ is_peak ts mx.
Proof. exact eql_strain_series. Qed.
Print Assumptions C112_strain.
Example C112_strain_ex : exists m t stop ls' wv, new_motion 0.01 rx_rec None = Ok m /\
  eql_call rx_params (as_motion m 10) soft_input true soft_site = (t, Ok (stop, ls', wv)).
Proof. apply rx_run; [discriminate|exact soft_physical]. Qed.

(** C112: the cyclic stress ratio of a layer is 0.65 times the peak of its undamped
    stress series divided by the effective stress. *)
Theorem C112_csr : forall P m v lin reset ls t stop ls' wv wt vs,
  ls <> [] ->
  eql_call P (as_motion m v) lin reset ls = (t, Ok (stop, ls', wv)) ->
  csr_values (combine ls' (map (fun l => effective_stress wt l (l_thick l / 2)) ls')) = Ok vs ->
  let K := mkCalc m ls' wt lin wv in
  forall i l s, (S i < length ls')%nat -> nth_error ls' i = Some l -> 0 <= shear_mod l ->
  effective_stress wt l (l_thick l / 2) = Ok s -> 0 < s ->
  exists ts p, stress_series K false true (mkLoc i (l_thick l / 2) Within) = Ok (Some ts) /\ is_peak ts p /\
    nth_error vs (S i) = Some (Some (0.65 * p)).
Proof. exact eql_csr. Qed.
Print Assumptions C112_csr.
Example C112_csr_ex : exists m t stop ls' wv vs l s, new_motion 0.01 rx_rec None = Ok m /\
  eql_call rx_params (as_motion m 10) soft_input true rx_site = (t, Ok (stop, ls', wv)) /\
  csr_values (combine ls' (map (fun l => effective_stress 3 l (l_thick l / 2)) ls')) = Ok vs /\
  nth_error ls' 0 = Some l /\ (1 < length ls')%nat /\ 0 <= shear_mod l /\ effective_stress 3 l (l_thick l / 2) = Ok s /\ 0 < s.
Proof. exact rx_csr. Qed.

(** C112: the effective stress of the location: weight of the soil above it less, below
    the water table, the weight of the water. *)
Theorem C112_effective : forall wt l z s,
  effective_stress wt l z = Ok s <->
  z <= l_thick l /\
  (l_depth l + z <= wt -> s = l_svert l + z * s_unit_wt (l_soil l)) /\
  (wt <= l_depth l + z -> s = l_svert l + z * s_unit_wt (l_soil l) - GRAVITY * (l_depth l + z - wt)).
Proof. exact effective_value. Qed.
Print Assumptions C112_effective.

(** C112: the undamped stress series is the modulus times the strain series, normalised
    by the effective stress on request. *)
Theorem C112_stress : forall K l loc s ts,
  nth_error (k_layers K) (loc_index loc) = Some l ->
  strain_series K false loc = Ok ts ->
  stress_series K false false loc = Ok (Some (map (Rmult (shear_mod l)) ts)) /\
  (effective_stress (k_wt K) l (loc_within loc) = Ok s -> s <> 0 ->
   stress_series K false true loc = Ok (Some (map (Rmult (shear_mod l / s)) ts))).
Proof. exact strain_gives_stress. Qed.
Print Assumptions C112_stress.

(** C113: the ratio of a location to itself is one, the ratios in the two directions are
    reciprocal, and ratios over an intermediate location multiply. *)
Theorem C113_laws : forall K xi fs la lb lc xa xb xc,
  response_spectrum_at K xi fs la = Ok (Some xa) -> response_spectrum_at K xi fs lb = Ok (Some xb) ->
  response_spectrum_at K xi fs lc = Ok (Some xc) -> List.Forall (fun x => x <> 0) xa -> List.Forall (fun x => x <> 0) xb ->
  spectrum_ratio K xi fs la la = Ok (Some (map (fun _ => Some 1) fs)) /\
  exists rab rba rbc rac, spectrum_ratio K xi fs la lb = Ok (Some (map Some rab)) /\
    spectrum_ratio K xi fs lb la = Ok (Some (map Some rba)) /\
    spectrum_ratio K xi fs lb lc = Ok (Some (map Some rbc)) /\
    spectrum_ratio K xi fs la lc = Ok (Some (map Some rac)) /\
    forall i, (i < length fs)%nat -> exists p q r s, nth_error rab i = Some p /\ nth_error rba i = Some q /\
      nth_error rbc i = Some r /\ nth_error rac i = Some s /\ p * q = 1 /\ p * r = s.
Proof. exact ratio_laws. Qed.
Print Assumptions C113_laws.
Example C113_laws_ex : exists K xa xb xc,
  ran 0.01 rx_rec None 4 rx_site K /\ k_input K = mkLoc 1 0 Outcrop /\
  response_spectrum_at K 0.05 [1; 10] (mkLoc 1 0 Outcrop) = Ok (Some xa) /\ response_spectrum_at K 0.05 [1; 10] (mkLoc 0 5 Within) = Ok (Some xb) /\
  response_spectrum_at K 0.05 [1; 10] (mkLoc 0 0 Outcrop) = Ok (Some xc) /\
  List.Forall (fun x => x <> 0) xa /\ List.Forall (fun x => x <> 0) xb.
Proof. now apply rx_spectra. Qed.

(** C113: scaling the record by a number other than zero leaves every ratio unchanged.
    *)
Theorem C113_scaled : forall dt c a fa m m',
  c <> 0 -> new_motion dt a fa = Ok m -> new_motion dt (map (Rmult c) a) fa = Ok m' ->
  forall K xi fs la lb rs, spectrum_ratio (with_motion K m) xi fs la lb = Ok (Some rs) ->
  spectrum_ratio (with_motion K m') xi fs la lb = Ok (Some rs).
Proof. exact ratio_scaled. Qed.
Print Assumptions C113_scaled.
Example C113_scaled_ex : -3 <> 0 /\ (exists m, new_motion 0.01 rx_rec None = Ok m) /\ exists m, new_motion 0.01 (map (Rmult (-3)) rx_rec) None = Ok m.
Proof. split; [lra|]. split; [exact rx_motion|apply rx_scaled]. Qed.

(** C113: a record whose samples do not add up to zero has a response spectrum without
    zeros, so its ratios are finite. *)
Theorem C113_positive : forall dt a fa n lsw K loc xi fs,
  ran dt a fa n lsw K ->
  (loc_index (k_input K) < length lsw)%nat -> loc_field (k_input K) = Outcrop -> (loc_index loc < length lsw)%nat ->
  loc_field loc <> IncomingOnly -> 0 < xi -> List.Forall (fun f => 0 < f) fs ->
  (forall rec, is_padded (Z.to_nat n) a rec -> Rsum rec <> 0) ->
  exists ps, response_spectrum_at K xi fs loc = Ok (Some ps) /\ List.Forall (fun p => 0 < p) ps.
Proof. exact spectrum_nonzero. Qed.
Print Assumptions C113_positive.
Example C113_positive_ex : (exists K, ran 0.01 rx_rec None 4 rx_site K /\ k_layers K = rx_site /\ k_input K = mkLoc 1 0 Outcrop /\ k_wt K = 3) /\
  forall rec, is_padded (Z.to_nat 4) rx_rec rec -> Rsum rec <> 0.
Proof. split; [apply rx_ran|exact rx_sum]. Qed.

(** C114: without smoothing the transfer function is read off the points at the motion
    frequencies, and so are the real and imaginary parts. *)
Theorem C114_transfer : forall dt a fa m K t fs lin lout,
  0 < dt -> new_motion dt a fa = Ok m -> k_motion K = m ->
  length (k_waves K) = length (t_freqs m) -> accel_tfs K lin lout = Ok (map Some t) ->
  exists vs cs, transfer_function K None fs lin lout = Ok (Some vs) /\
    transfer_function_complex K fs lin lout = Ok (Some cs) /\
    length vs = length fs /\ length cs = length fs /\
    forall i f v z, nth_error fs i = Some f -> nth_error vs i = Some v -> nth_error cs i = Some z ->
      read_off (t_freqs m) (map Cmod t) f v /\ read_off (t_freqs m) (map Re t) f (Re z) /\ read_off (t_freqs m) (map Im t) f (Im z).
Proof. exact transfer_read_off. Qed.
Print Assumptions C114_transfer.
Example C114_transfer_ex : exists K t, ran 0.01 rx_rec None 4 rx_site K /\
  accel_tfs K (mkLoc 1 0 Outcrop) (mkLoc 0 0 Outcrop) = Ok (map Some t) /\ nth_error t 0 = Some (RtoC 1).
Proof.
  destruct (rx_ran (mkLoc 1 0 Outcrop) 3) as (K & HR & HL & HI & _). exists K.
  destruct (tfs_defined 0.01 rx_rec None 4 rx_site K (mkLoc 1 0 Outcrop) (mkLoc 0 0 Outcrop) HR) as (t & Et & _ & T0);
    [cbn; lia|discriminate|cbn; lia|].
  exists t. split; [exact HR|]. split; [exact Et|]. apply T0; discriminate.
Qed.

(** C114: the Fourier amplitudes are read off dt times the Fourier sums of the record
    times the size of the transfer function. *)
Theorem C114_fourier : forall dt a n m K t fs loc,
  0 < dt -> Z.even n = true -> new_motion dt a (Some n) = Ok m -> k_motion K = m ->
  length (k_waves K) = length (t_freqs m) -> accel_tfs K (k_input K) loc = Ok (map Some t) ->
  exists rec amps vs, is_padded (Z.to_nat n) a rec /\ length amps = length (t_freqs m) /\
    (forall k z x, nth_error t k = Some z -> fourier_sum rec k x -> nth_error amps k = Some (Cmod z * (dt * Cmod x))) /\
    fourier_spectrum K None fs loc = Ok (Some vs) /\ length vs = length fs /\
    forall i f v, nth_error fs i = Some f -> nth_error vs i = Some v -> read_off (t_freqs m) amps f v.
Proof. exact fourier_read_off. Qed.
Print Assumptions C114_fourier.
Example C114_fourier_ex : exists m, new_motion 0.01 rx_rec (Some 4%Z) = Ok m.
Proof. apply Proof.MotionProps.new_motion_defined. split; [lra|lia]. Qed.

(** C115: for given waves the acceleration series of a combination of records is the
    combination of their series. *)
Theorem C115_accel : forall dt al be a b c fa ma mb md,
  combines al be a b c ->
  new_motion dt a fa = Ok ma -> new_motion dt b fa = Ok mb -> new_motion dt c fa = Ok md ->
  forall K loc sa sb, accel_series (with_motion K ma) loc = Ok (Some sa) -> accel_series (with_motion K mb) loc = Ok (Some sb) ->
  exists sd, accel_series (with_motion K md) loc = Ok (Some sd) /\ combines al be sa sb sd.
Proof. exact superposition_accel. Qed.
Print Assumptions C115_accel.
Example C115_accel_ex : combines 2 (-1) rx_rec rx_rec rx_rec /\ (exists m, new_motion 0.01 rx_rec None = Ok m) /\
  exists K ts, ran 0.01 rx_rec None 4 rx_site K /\ accel_series K (mkLoc 0 5 Within) = Ok (Some ts).
Proof.
  split; [|split; [exact rx_motion|]].
  - split; [reflexivity|]. split; [reflexivity|]. intros i x y Hx Hy. assert (y = x) by congruence. subst y. rewrite Hx. f_equal. lra.
  - destruct (rx_ran (mkLoc 1 0 Outcrop) 3) as (K & HR & HL & HI & _). exists K.
    destruct (outputs_defined 0.01 rx_rec None 4 rx_site K (mkLoc 0 5 Within) HR) as ((ts & Hts & _) & _);
      try (rewrite ?HI; cbn; first [lia|discriminate]). now exists ts.
Qed.

(** C115: the same for the strain series. *)
Theorem C115_strain : forall dt al be a b c fa ma mb md,
  combines al be a b c ->
  new_motion dt a fa = Ok ma -> new_motion dt b fa = Ok mb -> new_motion dt c fa = Ok md ->
  forall K pct loc sa sb, strain_series (with_motion K ma) pct loc = Ok sa -> strain_series (with_motion K mb) pct loc = Ok sb ->
  exists sd, strain_series (with_motion K md) pct loc = Ok sd /\ combines al be sa sb sd.
Proof. exact superposition_strain. Qed.
Print Assumptions C115_strain.

(** C115: the same for the stress series, damped or not, normalised or not. *)
Theorem C115_stress : forall dt al be a b c fa ma mb md,
  combines al be a b c ->
  new_motion dt a fa = Ok ma -> new_motion dt b fa = Ok mb -> new_motion dt c fa = Ok md ->
  forall K damped normalized loc sa sb, stress_series (with_motion K ma) damped normalized loc = Ok (Some sa) ->
  stress_series (with_motion K mb) damped normalized loc = Ok (Some sb) ->
  exists sd, stress_series (with_motion K md) damped normalized loc = Ok (Some sd) /\ combines al be sa sb sd.
Proof. exact superposition_stress. Qed.
Print Assumptions C115_stress.

(** C115: scaling the record scales the response spectrum at every location by the size
    of the factor. *)
Theorem C115_response : forall dt c a fa m m',
  new_motion dt a fa = Ok m -> new_motion dt (map (Rmult c) a) fa = Ok m' ->
  forall K xi fs loc ps, response_spectrum_at (with_motion K m) xi fs loc = Ok (Some ps) ->
  response_spectrum_at (with_motion K m') xi fs loc = Ok (Some (map (Rmult (Rabs c)) ps)).
Proof. exact scaled_response. Qed.
Print Assumptions C115_response.
Example C115_response_ex : (exists m, new_motion 0.01 rx_rec None = Ok m) /\ exists m, new_motion 0.01 (map (Rmult (-3)) rx_rec) None = Ok m.
Proof. split; [exact rx_motion|apply rx_scaled]. Qed.

(** C115: and the Fourier amplitude spectrum likewise. *)
Theorem C115_fourier : forall dt c a fa m m',
  new_motion dt a fa = Ok m -> new_motion dt (map (Rmult c) a) fa = Ok m' ->
  forall K fs loc ps, fourier_spectrum (with_motion K m) None fs loc = Ok (Some ps) ->
  fourier_spectrum (with_motion K m') None fs loc = Ok (Some (map (Rmult (Rabs c)) ps)).
Proof. exact scaled_fourier. Qed.
Print Assumptions C115_fourier.

(** C116: on a physical profile the normalised stress is not finite at the surface and
    raises AssertionError inside the half-space, where the stress itself exists. *)
Theorem C116_refuted : exists K, ran 0.01 rx_rec None 4 rx_site K /\ k_layers K = rx_site /\ 0 <= k_wt K /\
  k_input K = mkLoc 1 0 Outcrop /\
  (forall ts, stress_series K false true (mkLoc 0 0 Within) <> Ok (Some ts)) /\
  stress_series K false true (mkLoc 1 1 Within) = Err AssertionError /\
  exists ts, stress_series K false false (mkLoc 1 1 Within) = Ok (Some ts).
Proof. exact normalised_refuted. Qed.
Print Assumptions C116_refuted.

(** C116: the normalised stress is never finite at the surface. *)
Theorem C116_surface : forall K damped l,
  nth_error (k_layers K) 0 = Some l -> l_depth l = 0 -> l_svert l = 0 -> 0 <= l_thick l ->
  0 <= k_wt K -> k_waves K <> [] -> t_freqs (k_motion K) <> [] ->
  forall ts, stress_series K damped true (mkLoc 0 0 Within) <> Ok (Some ts).
Proof. exact normalised_surface. Qed.
Print Assumptions C116_surface.
Example C116_surface_ex : exists K l, ran 0.01 rx_rec None 4 rx_site K /\ nth_error (k_layers K) 0 = Some l /\
  l_depth l = 0 /\ l_svert l = 0 /\ 0 <= l_thick l /\ 0 <= k_wt K.
Proof.
  destruct (rx_ran (mkLoc 1 0 Outcrop) 3) as (K & HR & HL & HI & HW). exists K. eexists. split; [exact HR|]. rewrite HL, HW.
  split; [reflexivity|]. cbn. repeat split; lra.
Qed.

(** C116: below the bottom of its layer a normalised stress raises AssertionError. *)
Theorem C116_below : forall K damped l loc t,
  nth_error (k_layers K) (loc_index loc) = Some l -> l_thick l < loc_within loc ->
  strain_tfs K loc = Ok t -> stress_series K damped true loc = Err AssertionError.
Proof. exact normalised_below. Qed.
Print Assumptions C116_below.

(** C116: elsewhere the normalised series is the series divided by the effective stress.
    *)
Theorem C116_inside_partial : forall K damped l loc s ts,
  nth_error (k_layers K) (loc_index loc) = Some l ->
  stress_series K damped false loc = Ok (Some ts) -> effective_stress (k_wt K) l (loc_within loc) = Ok s -> s <> 0 ->
  stress_series K damped true loc = Ok (Some (map (Rmult (1 / s)) ts)).
Proof. exact normalised_inside. Qed.
Print Assumptions C116_inside_partial.

(** C117: MaxAccelProfile has one value per layer, the peak of the acceleration series
    at the top of that layer. *)
Theorem C117_peaks : forall K vs,
  depths_cumulative (k_layers K) -> List.Forall (fun x => 0 < l_thick x) (removelast (k_layers K)) ->
  max_accel_values K = Ok vs -> length vs = length (k_layers K) /\
  forall i c, nth_error vs i = Some c ->
    match c with
    | Some p => exists ts, accel_series K (mkLoc i 0 Within) = Ok (Some ts) /\ is_peak ts p
    | None => accel_series K (mkLoc i 0 Within) = Ok None
    end.
Proof. exact max_accel_peaks. Qed.
Print Assumptions C117_peaks.
Example C117_peaks_ex : exists K vs, ran 0.01 rx_rec None 4 rx_site K /\ depths_cumulative (k_layers K) /\
  List.Forall (fun x => 0 < l_thick x) (removelast (k_layers K)) /\ max_accel_values K = Ok vs.
Proof. exact rx_max_accel. Qed.

(** C118: a run changes no thickness, depth, stress, soil type, initial velocity or
    minimum damping, in any pass. *)
Theorem C118_keeps : forall P m lin reset ls t r,
  eql_call P m lin reset ls = (t, r) ->
  (forall st, In st t -> map description (st_layers st) = map description ls) /\
  forall stop ls' wv, r = Ok (stop, ls', wv) -> map description ls' = map description ls.
Proof. exact eql_keeps. Qed.
Print Assumptions C118_keeps.
Example C118_keeps_ex : exists m t stop ls' wv, new_motion 0.01 rx_rec None = Ok m /\
  eql_call rx_params (as_motion m 10) soft_input true soft_site = (t, Ok (stop, ls', wv)).
Proof. apply rx_run; [discriminate|exact soft_physical]. Qed.
