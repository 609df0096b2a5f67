(** Properties C104 to C110: the frequency-dependent calculator. *)
From Coq Require Import String.
From Verif Require Import Common Model.Curve Model.Layer Model.Waves Model.Eql Model.Motion Model.Text Model.Output Model.Fdm.
From Verif Require Import Spec.LayerSpec Spec.EqlSpec Spec.FdmSpec Proof.EqlRefute Proof.FdmFacts Proof.FdmProps Proof.FdmResults Proof.FdmLinear Proof.FdmOutput Proof.FdmEx Proof.FdmWaves Spec.TextSpec Spec.NumberSpec Proof.FdmKo.
From Coq Require Import List.
Local Open Scope R_scope.
Local Open Scope R_scope.

(** C104: whatever the method, the strains lie between zero and the effective strain. *)
Theorem C104_bounds : forall F freqs fas eff ss,
  0 <= eff -> List.Forall (fun x => 0 <= x) fas ->
  (forall b, List.Forall (fun x => 0 <= x) (x_smooth F b freqs fas)) ->
  strain_spectrum F freqs fas eff = Ok (Some ss) -> List.Forall (fun s => 0 <= s <= eff) ss.
Proof. exact spectrum_bounds. Qed.
Print Assumptions C104_bounds.
Example C104_bounds_ex : exists ss, strain_spectrum (dc_fdm ZR15 15) [1; 2] [3; 4] 0.01 = Ok (Some ss).
Proof.
  rewrite spectrum_other by (intros; apply zr15_other). unfold scaled_by_max. cbn [np_max fold_left bind map_opt].
  rewrite Rmax_right by lra. unfold div_opt, Reqb. destruct (Req_EM_T 4 0); [lra|]. cbn [opt_bind]. now eexists.
Qed.

(** C104: with a smoothing bandwidth the strains never rise from low to high frequency
    and start at the effective strain. *)
Theorem C104_ko : forall F b freqs fas eff ss,
  x_method F = KO ++ b -> 0 <= eff ->
  (forall w, List.Forall (fun x => 0 <= x) (x_smooth F w freqs fas)) ->
  strain_spectrum F freqs fas eff = Ok (Some ss) -> never_rises ss /\ nth_error ss 0 = Some eff.
Proof. exact spectrum_ko. Qed.
Print Assumptions C104_ko.
Example C104_ko_ex : exists ss, strain_spectrum (dc_fdm (KO ++ list_ascii_of_string "20") 15) [1; 2] [3; 4] 0.01 = Ok (Some ss).
Proof.
  assert (E : exists b, py_float (list_ascii_of_string "20") = Ok b) by (now eexists). destruct E as [b E].
  unfold strain_spectrum. change (text_eqb (x_method (dc_fdm (KO ++ list_ascii_of_string "20") 15)) KA02) with false.
  change (starts KO (x_method (dc_fdm (KO ++ list_ascii_of_string "20") 15))) with true. cbn match.
  change (skipn 3 (x_method (dc_fdm (KO ++ list_ascii_of_string "20") 15))) with (list_ascii_of_string "20").
  rewrite E. cbn [bind x_smooth dc_fdm]. unfold scaled_by_max. cbn [np_max fold_left bind map_opt].
  rewrite Rmax_right by lra. unfold div_opt, Reqb. destruct (Req_EM_T 4 0); [lra|]. cbn [opt_bind bind]. now eexists.
Qed.

(** C104: the bandwidth is the number written behind the colon, and the strain at a
    frequency is the largest smoothed amplitude at or above this frequency, as a
    fraction of the largest one, times the effective strain. *)
Theorem C104_ko_values : forall F a n b freqs fas eff mx,
  x_method F = (KO ++ (a ++ number_text n ++ b))%list ->
  List.Forall white a -> List.Forall white b -> number_ok n ->
  let sm := x_smooth F (number_value n) freqs fas in
  In mx sm -> List.Forall (fun x => x <= mx) sm -> mx <> 0 ->
  exists ss, strain_spectrum F freqs fas eff = Ok (Some ss) /\ length ss = length sm /\
  forall i s, nth_error ss i = Some s ->
    (exists j x, (i <= j)%nat /\ nth_error sm j = Some x /\ s = eff * x / mx) /\
    (forall j x, (i <= j)%nat -> nth_error sm j = Some x -> eff * x / mx <= s).
Proof. exact ko_values. Qed.
Print Assumptions C104_ko_values.
Example C104_ko_values_ex : let n := mkNumber NoSign [2; 0]%nat (Some []) None in number_ok n /\ number_text n = list_ascii_of_string "20." /\ 20 = number_value n.
Proof.
  cbv zeta. split; [|split; [reflexivity|unfold number_value; cbn; lra]].
  unfold number_ok, digits; cbn. repeat split; try (repeat constructor; lia). left; discriminate.
Qed.

(** C104: text behind the colon that is not a number raises ValueError. *)
Theorem C104_ko_unread : forall F b freqs fas eff e,
  x_method F = (KO ++ b)%list -> py_float b = Err e -> strain_spectrum F freqs fas eff = Err ValueError.
Proof. exact ko_unread. Qed.
Print Assumptions C104_ko_unread.

(** C104: zr15: strains proportional to the amplitudes, the effective strain at the
    largest amplitude. *)
Theorem C104_zr15 : forall F freqs fas eff ss,
  x_method F = ZR15 -> 0 <= eff -> List.Forall (fun x => 0 <= x) fas ->
  strain_spectrum F freqs fas eff = Ok (Some ss) ->
  length ss = length fas /\
  (forall i j s t x y, nth_error ss i = Some s -> nth_error ss j = Some t ->
    nth_error fas i = Some x -> nth_error fas j = Some y -> s * y = t * x) /\
  (exists i x, nth_error ss i = Some eff /\ nth_error fas i = Some x /\ List.Forall (fun y => y <= x) fas).
Proof. exact spectrum_zr15. Qed.
Print Assumptions C104_zr15.

(** C104: ka02: the value at zero frequency, and the strains never rise when the fitted
    coefficients are not negative. *)
Theorem C104_ka02 : forall F freqs fas eff ss,
  x_method F = KA02 -> 0 <= eff ->
  strain_spectrum F freqs fas eff = Ok (Some ss) ->
  exists avg a b, avg = trapz freqs (Averages.map2 Rmult freqs fas) / trapz freqs fas /\
    (exists rows logs, x_lsq F rows logs = (a, b)) /\ length ss = length freqs /\
    (0 <= b -> forall i, nth_error freqs i = Some 0 -> nth_error ss i = Some eff) /\
    (b < 0 -> forall i, nth_error freqs i = Some 0 -> nth_error ss i = Some 0) /\
    (0 <= a -> 0 <= b -> 0 < avg -> forall i j f g s t, nth_error freqs i = Some f -> nth_error freqs j = Some g ->
       f <= g -> nth_error ss i = Some s -> nth_error ss j = Some t -> t <= s).
Proof. exact spectrum_ka02. Qed.
Print Assumptions C104_ka02.

(** C105: the number of passes and the pass at which a run stops. *)
Theorem C105_stops : forall F m lin reset ls,
  (length (fr_passes (fdm_call F m lin reset ls)) <= Z.to_nat (x_max F))%nat /\
  match fr_end (fdm_call F m lin reset ls) with
  | Ok (FConverged, _, _) => exists t0 st, fr_passes (fdm_call F m lin reset ls) = t0 ++ [st] /\
      fbelow (x_tol F) st /\ Forall (fun s => ~ fbelow (x_tol F) s) t0
  | Ok (FExhausted, _, _) => length (fr_passes (fdm_call F m lin reset ls)) = Z.to_nat (x_max F) /\
      Forall (fun s => ~ fbelow (x_tol F) s) (fr_passes (fdm_call F m lin reset ls))
  | _ => Forall (fun s => ~ fbelow (x_tol F) s) (fr_passes (fdm_call F m lin reset ls))
  end.
Proof. exact fdm_stops. Qed.
Print Assumptions C105_stops.
Example C105_stops_ex : exists ls' wv, fr_end (fdm_call (dc_fdm ZR15 15) dc_motion soft_input false (map of_layer dc_site)) = Ok (FConverged, ls', wv).
Proof. destruct (dc_run 15 ltac:(lia)) as (wv & ls' & _ & ->). now exists ls', wv. Qed.

(** C105: the strain limit holds at every frequency in every pass. *)
Theorem C105_limit : forall F m lin reset ls x,
  flimit_on F x ->
  forall st, In st (fr_passes (fdm_call F m lin reset ls)) ->
  Forall (fun l => forall k s, at_freq (f_strain l) k = Some s -> s <= x) (removelast (fs_layers st)).
Proof. exact fdm_limit_enforced. Qed.
Print Assumptions C105_limit.
Example C105_limit_ex : flimit_on (dc_fdm ZR15 15) 0.05 /\
  exists st, In st (fr_passes (fdm_call (dc_fdm ZR15 15) dc_motion soft_input false (map of_layer dc_site))).
Proof.
  split; [split; [reflexivity|lra]|]. destruct (dc_run 15 ltac:(lia)) as (wv & ls' & _ & ->). eexists. now left.
Qed.

(** C105: RuntimeError exactly after two consecutive limited passes that did not
    converge. *)
Theorem C105_error : forall F m lin reset ls,
  ls <> [] ->
  (forall tf, m_peak (fm_motion m) tf <> Err RuntimeError) ->
  (fr_end (fdm_call F m lin reset ls) = Err RuntimeError <->
   (exists pre a b, fr_passes (fdm_call F m lin reset ls) = pre ++ [a; b] /\ fs_limited a = true /\ fs_limited b = true /\
      ~ fbelow (x_tol F) a /\ ~ fbelow (x_tol F) b) \/
   (exists pre a b post, fr_estimate (fdm_call F m lin reset ls) = pre ++ a :: b :: post /\ st_limited a = true /\
      st_limited b = true /\ ~ below 0.01 a /\ ~ below 0.01 b)) /\
  (forall pre a b post, fr_passes (fdm_call F m lin reset ls) = pre ++ a :: b :: post ->
     fs_limited a = true -> fs_limited b = true -> ~ fbelow (x_tol F) b -> post = []).
Proof. exact fdm_limit_error. Qed.
Print Assumptions C105_error.
Example C105_error_ex : map of_layer dc_site <> [] /\ forall tf, m_peak (fm_motion dc_motion) tf <> Err RuntimeError.
Proof. split; [discriminate|intros tf; discriminate]. Qed.

(** C106: after a run the properties at each frequency are those of the strain at that
    frequency, which comes from the reported waves. *)
Theorem C106_compatible : forall F m lin reset ls stop ls' wv,
  ls <> [] -> stop <> NotFinite ->
  fr_passes (fdm_call F m lin reset ls) <> [] ->
  fr_end (fdm_call F m lin reset ls) = Ok (stop, ls', wv) ->
  length ls' = length ls /\ exists lsp, length lsp = length ls /\ fcalc_waves (fm_motion m) lsp = Ok wv /\
  forall i l0, (i < length ls - 1)%nat -> nth_error ls i = Some l0 ->
  exists l lp pk used, nth_error ls' i = Some l /\ nth_error lsp i = Some lp /\ fsame l l0 /\ fsame lp l0 /\
    strains_of F m (length ls) wv lin i (l_thick (f_layer l0)) pk used /\
    f_strain l = Ar used /\ l_smax (f_layer l) = Some pk /\ compatible l /\
    fi_prev (f_G l) = fi_value (f_G lp) /\ fi_prev (f_D l) = fi_value (f_D lp).
Proof. exact fdm_compatible. Qed.
Print Assumptions C106_compatible.
Example C106_compatible_ex : exists ls' wv,
  fr_passes (fdm_call (dc_fdm ZR15 15) dc_motion soft_input false (map of_layer dc_site)) <> [] /\
  fr_end (fdm_call (dc_fdm ZR15 15) dc_motion soft_input false (map of_layer dc_site)) = Ok (FConverged, ls', wv).
Proof. destruct (dc_run 15 ltac:(lia)) as (wv & ls' & _ & ->). exists ls', wv. split; [discriminate|reflexivity]. Qed.

(** C106: the waves at a frequency are those of layers that hold the modulus and the
    damping of that frequency. *)
Theorem C106_waves : forall m ls wv,
  fcalc_waves m ls = Ok wv ->
  length wv = length (m_freqs m) /\
  forall k w row, nth_error (m_freqs m) k = Some w -> nth_error wv k = Some row ->
  exists lk, Forall2 (frozen k) ls lk /\ calc_waves_numba w (map wlayer_of lk) = Ok row.
Proof. exact fdm_waves. Qed.
Print Assumptions C106_waves.
Example C106_waves_ex : exists wv, fcalc_waves soft_motion (map of_layer dc_site) = Ok wv.
Proof. destruct (dc_run 15 ltac:(lia)) as (wv & ls' & E & _). now exists wv. Qed.

(** C106: in a converged run no positive value fell by the tolerance or more in the last
    pass. *)
Theorem C106_change : forall F m lin reset ls ls' wv,
  ls <> [] ->
  fr_end (fdm_call F m lin reset ls) = Ok (FConverged, ls', wv) ->
  forall i l, nth_error ls' i = Some l ->
  (Forall (fun v => 0 < v) (entries (fi_value (f_G l))) ->
     forall k a b, at_freq (fi_prev (f_G l)) k = Some a -> at_freq (fi_value (f_G l)) k = Some b -> pct a b < x_tol F) /\
  (Forall (fun v => 0 < v) (entries (fi_value (f_D l))) ->
     forall k a b, at_freq (fi_prev (f_D l)) k = Some a -> at_freq (fi_value (f_D l)) k = Some b -> pct a b < x_tol F).
Proof. exact fdm_change. Qed.
Print Assumptions C106_change.

(** C107: a run under an undocumented method name converges. *)
Theorem C107_refuted : exists F m lin ls ls' wv, ~ documented_method (x_method F) /\
  fr_end (fdm_call F m lin false ls) = Ok (FConverged, ls', wv).
Proof. exact fdm_name_refuted. Qed.
Print Assumptions C107_refuted.

(** C107: every name that is neither ka02 nor begins with ko: behaves as zr15. *)
Theorem C107_other : forall F m lin reset ls,
  x_method F <> KA02 -> (forall b, x_method F <> KO ++ b) ->
  fdm_call F m lin reset ls = fdm_call (with_method F ZR15) m lin reset ls.
Proof. exact fdm_other_method. Qed.
Print Assumptions C107_other.
Example C107_other_ex : x_method (dc_fdm (list_ascii_of_string "KA02") 15) <> KA02 /\
  (forall b, x_method (dc_fdm (list_ascii_of_string "KA02") 15) <> KO ++ b) /\ ~ documented_method (list_ascii_of_string "KA02").
Proof. exact dc_other. Qed.

(** C108: with max_iterations = 0 a run still iterates. *)
Theorem C108_refuted : exists F m lin ls ls' wv, x_max F = 0%Z /\
  fr_end (fdm_call F m lin true ls) = Ok (FExhausted, ls', wv) /\
  fr_passes (fdm_call F m lin true ls) = [] /\ fr_estimate (fdm_call F m lin true ls) <> [].
Proof. exact fdm_iterations_refuted. Qed.
Print Assumptions C108_refuted.

(** C108: the estimate does not depend on the tolerance, the number of iterations or the
    method. *)
Theorem C108_estimate : forall F G m lin reset ls,
  x_ratio F = x_ratio G -> x_limit F = x_limit G ->
  fr_estimate (fdm_call F m lin reset ls) = fr_estimate (fdm_call G m lin reset ls).
Proof. exact fdm_estimate. Qed.
Print Assumptions C108_estimate.
Example C108_estimate_ex : x_ratio (dc_fdm ZR15 0) = x_ratio (dc_fdm KA02 15) /\ x_limit (dc_fdm ZR15 0) = x_limit (dc_fdm KA02 15) /\
  x_max (dc_fdm ZR15 0) <> x_max (dc_fdm KA02 15).
Proof. repeat split; discriminate. Qed.

(** C108: the estimate makes between 1 and 15 passes. *)
Theorem C108_passes : forall F m lin ls stop ls' wv,
  fr_end (fdm_call F m lin true ls) = Ok (stop, ls', wv) ->
  (1 <= length (fr_estimate (fdm_call F m lin true ls)) <= 15)%nat.
Proof. exact fdm_estimate_passes. Qed.
Print Assumptions C108_passes.

(** C109: linear soils: the waves are those of the linear-elastic calculation and the
    layers keep their initial properties. *)
Theorem C109_linear : forall F m lin ls wvl stop ls' wv,
  ls <> [] ->
  Forall (fun l => is_nonlinear (l_soil (f_layer l)) = false) ls ->
  calc_waves (fm_motion m) (map freset ls) = Ok wvl ->
  fr_end (fdm_call F m lin true ls) = Ok (stop, ls', wv) ->
  wv = wvl /\ length ls' = length ls /\
  forall i l0, nth_error ls i = Some l0 -> exists l, nth_error ls' i = Some l /\
    fi_value (f_G l) = Sc (initial_shear_mod (f_layer l0)) /\ fi_value (f_D l) = Sc (l_dmin (f_layer l0)).
Proof. exact fdm_linear. Qed.
Print Assumptions C109_linear.
Example C109_linear_ex : exists wv stop ls', calc_waves soft_motion (map freset (map of_layer lin_site)) = Ok wv /\ stop <> NotFinite /\
  fr_passes (fdm_call (dc_fdm ZR15 1) dc_motion soft_input true (map of_layer lin_site)) <> [] /\
  fr_end (fdm_call (dc_fdm ZR15 1) dc_motion soft_input true (map of_layer lin_site)) = Ok (stop, ls', wv).
Proof. exact lin_run. Qed.

(** C110: after a run with a damping curve the stored values are not one-dimensional and
    cannot be added to earlier ones. *)
Theorem C110_refuted : exists F m lin ls ls' wv a, (2 <= length ls)%nat /\ matched F m /\
  fr_end (fdm_call F m lin false ls) = Ok (FConverged, ls', wv) /\
  damping_entries ls' = Ok a /\ (forall xs, a <> A1 xs) /\
  forall o v, o_values o = Some v -> add_array o a = Err AssertionError.
Proof. exact fdm_damping_refuted. Qed.
Print Assumptions C110_refuted.

(** C110: with damping curves in every layer the profile is two-dimensional and a second
    call raises AssertionError. *)
Theorem C110_arrays : forall F m lin reset ls stop ls' wv o v,
  (2 <= length ls)%nat -> stop <> NotFinite -> matched F m ->
  fr_passes (fdm_call F m lin reset ls) <> [] ->
  fr_end (fdm_call F m lin reset ls) = Ok (stop, ls', wv) ->
  (forall l, In l (removelast ls) -> exists c, s_damp (l_soil (f_layer l)) = DCurve c /\ usable c) ->
  o_values o = Some v ->
  exists rows, damping_entries ls' = Ok (A2 (length (m_freqs (fm_motion m))) rows) /\
    length rows = length ls /\ Forall (fun r => length r = length (m_freqs (fm_motion m))) rows /\
    add_array o (A2 (length (m_freqs (fm_motion m))) rows) = Err AssertionError.
Proof. exact fdm_damping_arrays. Qed.
Print Assumptions C110_arrays.
Example C110_arrays_ex : exists stop ls' wv, (2 <= List.length (map of_layer dc_site))%nat /\ stop <> NotFinite /\ matched (dc_fdm ZR15 15) dc_motion /\
  fr_passes (fdm_call (dc_fdm ZR15 15) dc_motion soft_input false (map of_layer dc_site)) <> [] /\
  fr_end (fdm_call (dc_fdm ZR15 15) dc_motion soft_input false (map of_layer dc_site)) = Ok (stop, ls', wv) /\
  forall l, In l (removelast (map of_layer dc_site)) -> exists c, s_damp (l_soil (f_layer l)) = DCurve c /\ usable c.
Proof.
  destruct (dc_run 15 ltac:(lia)) as (wv & ls' & _ & E). exists FConverged, ls', wv. rewrite E.
  split; [cbn; lia|]. split; [discriminate|]. split; [apply dc_matched|]. split; [discriminate|]. split; [reflexivity|].
  intros l [<-|[]]. eexists. split; [reflexivity|exact dc_usable].
Qed.

(** C110: constant and tabulated damping in one profile raise ValueError. *)
Theorem C110_mixed : forall F m lin reset ls stop ls' wv l1 l2 d c,
  stop <> NotFinite -> matched F m ->
  fr_passes (fdm_call F m lin reset ls) <> [] ->
  fr_end (fdm_call F m lin reset ls) = Ok (stop, ls', wv) ->
  In l1 (removelast ls) -> s_damp (l_soil (f_layer l1)) = DConst d ->
  In l2 (removelast ls) -> s_damp (l_soil (f_layer l2)) = DCurve c -> usable c ->
  damping_entries ls' = Err ValueError.
Proof. exact fdm_damping_mixed. Qed.
Print Assumptions C110_mixed.

(** C110: with constant damping in every layer there is one value per depth, the first
    one repeated at the surface. *)
Theorem C110_numbers_partial : forall F m lin reset ls stop ls' wv,
  (2 <= length ls)%nat -> stop <> NotFinite -> matched F m ->
  fr_passes (fdm_call F m lin reset ls) <> [] ->
  fr_end (fdm_call F m lin reset ls) = Ok (stop, ls', wv) ->
  (forall l, In l (removelast ls) -> exists d, s_damp (l_soil (f_layer l)) = DConst d) ->
  exists l1, nth_error ls 0 = Some l1 /\
  damping_entries ls' = Ok (A1 (map Some (l_dmin (f_layer l1) :: map (fun l => l_dmin (f_layer l)) (removelast ls)))).
Proof. exact fdm_damping_numbers. Qed.
Print Assumptions C110_numbers_partial.
Example C110_numbers_ex : exists stop ls' wv, (2 <= List.length (map of_layer lin_site))%nat /\ stop <> NotFinite /\ matched (dc_fdm ZR15 1) dc_motion /\
  fr_passes (fdm_call (dc_fdm ZR15 1) dc_motion soft_input true (map of_layer lin_site)) <> [] /\
  fr_end (fdm_call (dc_fdm ZR15 1) dc_motion soft_input true (map of_layer lin_site)) = Ok (stop, ls', wv) /\
  forall l, In l (removelast (map of_layer lin_site)) -> exists d, s_damp (l_soil (f_layer l)) = DConst d.
Proof.
  destruct lin_run as (wv & stop & ls' & _ & HS & HP & HE). exists stop, ls', wv.
  split; [cbn; lia|]. split; [exact HS|]. split; [apply dc_matched|]. split; [exact HP|]. split; [exact HE|].
  intros l [<-|[]]. eexists. reflexivity.
Qed.
