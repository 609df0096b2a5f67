(** Properties C19, C20, C24 (depth average), C68 and C76: the quarter-wavelength calculator. *)
From Verif Require Import Common Model.Curve Model.Layer Model.Qwl Spec.StepSpec Spec.QwlSpec
  Proof.QwlFacts Proof.QwlProps.
From Coquelicot Require Import Coquelicot.
Local Open Scope R_scope.

(** The examples use 10 m of 200 m/s and 30 m of 400 m/s on a half-space of 800 m/s. *)
Definition ex_thick : list R := cons 10 (cons 30 (cons 0 nil)).
Definition ex_slow : list R := cons (1 / 200) (cons (1 / 400) (cons (1 / 800) nil)).
Definition ex_dens : list R := cons 1.8 (cons 2 (cons 2.2 nil)).
Lemma ex_slow_site : site_property ex_thick ex_slow.
Proof. repeat split; [discriminate|unfold ex_thick; fa|unfold ex_slow; fa]. Qed.
Lemma ex_dens_site : site_property ex_thick ex_dens.
Proof. repeat split; [discriminate|unfold ex_thick; fa|unfold ex_dens; fa]. Qed.

(** C19: the depth average is defined for every depth D > 0; D times it is the integral
    of the layered property from 0 to D, the last layer extending downwards without end,
    and it lies between any bounds on the values. *)
Theorem C19_average : forall thickness prop d,
  length prop = length thickness -> prop <> nil ->
  List.Forall (fun t => 0 <= t) thickness -> 0 < d ->
  exists v, my_trapz_numba thickness prop d = Ok v /\
  is_RInt (step_fun (combine thickness prop)) 0 d (d * v) /\
  forall lo hi, List.Forall (fun p => lo <= p <= hi) prop -> lo <= v <= hi.
Proof. exact trapz_is_average. Qed.
Print Assumptions C19_average.
Example C19_ex : my_trapz_numba ex_thick ex_slow 20 = Ok (0.00375).
Proof.
  unfold my_trapz_numba, ex_thick, ex_slow. cbn [combine trapz_loop].
  rewrite (proj2 (CommonFacts.Rltb_false _ _)) by lra. rewrite (proj2 (CommonFacts.Rltb_true _ _)) by lra. cbn [bind].
  rewrite (proj2 (CommonFacts.Reqb_false _ _)) by lra. f_equal. lra.
Qed.

(** C19,C24: the compiled and the pure Python depth averages agree at every depth other
    than zero. *)
Theorem C24_depth_average : forall thickness prop d,
  d <> 0 ->
  my_trapz_python thickness prop d = bind (my_trapz_numba thickness prop d) (fun v => Ok (Some v)).
Proof. exact trapz_versions_agree. Qed.
Print Assumptions C24_depth_average.

(** C24: at depth zero the compiled one raises while the other returns a value that is
    not a number. *)
Theorem C24_refuted_depth_average : forall thickness prop,
  length prop = length thickness -> prop <> nil ->
  List.Forall (fun t => 0 <= t) thickness ->
  my_trapz_python thickness prop 0 = Ok None /\ my_trapz_numba thickness prop 0 = Err ZeroDivisionError.
Proof. exact trapz_versions_differ. Qed.
Print Assumptions C24_refuted_depth_average.
Example C24_depth_ex : length ex_slow = length ex_thick /\ ex_slow <> nil.
Proof. split; [reflexivity|discriminate]. Qed.

(** C20: for positive frequencies the calculation returns exactly when, at one of the
    first 50 refinements, the depths of all frequencies agree with the previous ones;
    the amplification is then the positive square root of the impedance ratio of the
    bottom layer to the averages at these depths (slowness at the previous one, density
    at the last one), times exp(-pi kappa f) for the site term. Otherwise RuntimeError
    is raised; nothing else can happen. *)
Theorem C20_characterised : forall thickness slowness density atten fs rho_n s_n,
  site_property thickness slowness -> site_property thickness density ->
  last_opt density = Some rho_n -> last_opt slowness = Some s_n ->
  List.Forall (fun f => 0 < f) fs ->
  let d := depth_after thickness slowness in
  let together k := forall f, In f fs -> agree (d f k) (d f (S k)) in
  (exists k, (k < 50)%nat /\ together k /\ (forall j, (j < k)%nat -> ~ together j) /\
     let amp f := sqrt (impedance_ratio rho_n s_n (mean_to (combine thickness density) (d f (S k)))
                                                  (mean_to (combine thickness slowness) (d f k))) in
     calc_amp Standard atten fs density thickness slowness =
     Ok (map (fun f => Some (amp f)) fs,
         map (fun f => Some (amp f * exp (- PI * match atten with Some a => a | None => 0 end * f))) fs) /\
     forall f, In f fs -> 0 < amp f) \/
  ((forall k, (k < 50)%nat -> ~ together k) /\ calc_amp Standard atten fs density thickness slowness = Err RuntimeError).
Proof. exact amp_characterised. Qed.
Print Assumptions C20_characterised.
Example C20_ex : site_property ex_thick ex_slow /\ site_property ex_thick ex_dens /\
  last_opt ex_dens = Some 2.2 /\ last_opt ex_slow = Some (1 / 800) /\ List.Forall (fun f => 0 < f) (cons 1 (cons 5 nil)).
Proof. split; [exact ex_slow_site|]. split; [exact ex_dens_site|]. split; [reflexivity|]. split; [reflexivity|fa]. Qed.

(** C20: whenever successive depths agree, the averaging depth is a quarter of the
    wavelength of the averaged profile to within 2 %. *)
Theorem C20_quarter_wavelength : forall thickness slowness f k,
  site_property thickness slowness -> 0 < f ->
  let d := depth_after thickness slowness f in
  agree (d k) (d (S k)) ->
  Rabs (d k - 1 / (4 * mean_to (combine thickness slowness) (d k) * f)) <= 2e-8 + 0.02 * d (S k).
Proof. exact quarter_wave. Qed.
Print Assumptions C20_quarter_wavelength.
Example C20_quarter_ex : agree (depth_after (cons 0 nil) (cons (1 / 400) nil) 1 0) (depth_after (cons 0 nil) (cons (1 / 400) nil) 1 1).
Proof.
  assert (Hs : site_property (cons 0 nil) (cons (1 / 400) nil)) by (repeat split; [discriminate|fa|fa]).
  pose proof (depth_after_pos _ _ Hs 1 0 ltac:(lra)) as P. unfold depth_after in *. cbn [Nat.iter nat_rect] in *. unfold refine, agree.
  rewrite (uniform_mean _ _ (1 / 400)); [|exact Hs|fa|exact P]. unfold average. cbn [Rsum fold_right length INR].
  replace (1 / (4 * ((1 / 400 + 0) / 1) * 1)) with 100 by field. replace (1 / (4 * (1 / 400) * 1)) with 100 by field.
  unfold Rabs. destruct Rcase_abs, Rcase_abs; lra.
Qed.

(** C20: a uniform site has amplification exactly 1 at every positive frequency, and the
    site term is exp(-pi kappa f). *)
Theorem C20_uniform : forall thickness slowness density atten fs s rho,
  site_property thickness slowness -> site_property thickness density ->
  List.Forall (fun p => p = s) slowness -> List.Forall (fun p => p = rho) density ->
  List.Forall (fun f => 0 < f) fs ->
  calc_amp Standard atten fs density thickness slowness =
  Ok (map (fun _ => Some 1) fs,
      map (fun f => Some (exp (- PI * match atten with Some a => a | None => 0 end * f))) fs).
Proof. exact uniform_amp. Qed.
Print Assumptions C20_uniform.
Example C20_uniform_ex : site_property (cons 5 (cons 0 nil)) (cons (1 / 400) (cons (1 / 400) nil)).
Proof. repeat split; [discriminate|fa|fa]. Qed.

(** C20: the zero frequency, which every time-series motion has, makes the calculation
    raise RuntimeError for every site. *)
Theorem C20_refuted_zero_frequency : forall m atten thickness slowness density fs,
  site_property thickness slowness -> List.Forall (fun f => 0 <= f) fs -> In 0 fs ->
  calc_amp m atten fs density thickness slowness = Err RuntimeError.
Proof. exact zero_frequency_fails. Qed.
Print Assumptions C20_refuted_zero_frequency.
Example C20_zero_ex : site_property ex_thick ex_slow /\ List.Forall (fun f => 0 <= f) (cons 0 (cons 5 nil)) /\ In 0 (cons 0 (cons 5 nil)).
Proof. split; [exact ex_slow_site|]. split; [fa|now left]. Qed.

(** C76: the exponent of the "ba23" method is defined and not negative from the
    frequency ratio 10^-1.301 upwards. *)
Theorem C76_defined_partial : forall x,
  -1.301 <= x -> exists eta, correction_ba23 x = Some eta /\ 0 <= eta.
Proof. exact ba23_defined. Qed.
Print Assumptions C76_defined_partial.

(** C76: at the ratio 10^-2.699 it is not a number. *)
Theorem C76_refuted : correction_ba23 (-2.699) = None.
Proof. exact ba23_undefined. Qed.
Print Assumptions C76_refuted.

(** C76: so that the amplification of a uniform site at that frequency is not a number.
    *)
Theorem C76_refuted_amp : calc_amp BA23 None (cons (Rpower 10 (-2.699)) nil) (cons 2 (cons 2 nil)) (cons 100 (cons 0 nil)) (cons (1 / 400) (cons (1 / 400) nil)) =
  Ok (cons None nil, cons None nil).
Proof. exact ba23_amp_undefined. Qed.
Print Assumptions C76_refuted_amp.

(** C76: and a site consisting of a half-space only always raises ZeroDivisionError. *)
Theorem C76_refuted_half_space : forall t s rho atten fs,
  0 <= t -> 0 < s -> 0 < rho -> List.Forall (fun f => 0 < f) fs ->
  calc_amp BA23 atten fs (cons rho nil) (cons t nil) (cons s nil) =
  Err ZeroDivisionError.
Proof. exact ba23_half_space_fails. Qed.
Print Assumptions C76_refuted_half_space.
Example C76_half_space_ex : 0 <= 0 /\ 0 < 1 / 400 /\ 0 < 2 /\ List.Forall (fun f => 0 < f) (cons 1 nil).
Proof. repeat split; try lra. fa. Qed.

(** C68: after a fit that returns: the site attenuation is the last value evaluated by
    the optimiser; the layers have the fitted velocities and thicknesses and their old
    soil types, but the minimum damping of the soil type instead of their own. *)
Theorem C68_fit_partial : forall q freqs (at_ aa : bool) evals (sol : list R) q',
  (length (q_layers q) * (if at_ then 2 else 1) <= length sol)%nat ->
  fit q freqs at_ aa evals sol = (q', Ok tt) ->
  q_atten q' = (if aa then match last_opt evals with Some x => last_opt x | None => q_atten q end else q_atten q) /\
  length (q_layers q') = length (q_layers q) /\
  forall i l r, nth_error (q_layers q) i = Some l -> nth_error (q_layers q') i = Some r ->
    l_soil r = l_soil l /\
    Some (l_thick r) = (if at_ then nth_error sol (length (q_layers q) + i) else Some (l_thick l)) /\
    (forall s, nth_error sol i = Some s -> l_vs r = 1 / s) /\
    soil_damping_min (l_soil l) = Ok (l_dmin r).
Proof. exact fit_result. Qed.
Print Assumptions C68_fit_partial.
Example C68_fit_ex : exists q', fit fit_start (cons 1 nil) false true
   (cons (cons (1 / 400) (cons 0.04 nil)) (cons (cons (1 / 400) (cons 0.05 nil)) nil)) (cons (1 / 400) (cons 0.04 nil)) = (q', Ok tt).
Proof. destruct fit_misreports as (q' & H & _). now exists q'. Qed.

(** C68: it is the solution exactly if the last evaluation was made with the same
    attenuation. *)
Theorem C68_iff : forall q freqs (at_ : bool) evals x (sol : list R) q',
  (length (q_layers q) * (if at_ then 2 else 1) <= length sol)%nat ->
  fit q freqs at_ true (evals ++ cons x nil) sol = (q', Ok tt) ->
  (q_atten q' = last_opt sol <-> last_opt x = last_opt sol).
Proof. exact fit_atten_iff. Qed.
Print Assumptions C68_iff.
Example C68_iff_ex : (length (q_layers fit_start) * (if false then 2 else 1) <= @length R (cons (1 / 400)%R (cons 0.04%R nil)))%nat.
Proof. cbn. lia. Qed.

(** C68: an optimiser that evaluates its solution 0.04 and then a neighbour 0.05 leaves
    the attenuation at 0.05; the layer minimum damping 0.02 becomes 0.01. *)
Theorem C68_refuted : exists q',
  fit fit_start (cons 1 nil) false true (cons (cons (1 / 400) (cons 0.04 nil)) (cons (cons (1 / 400) (cons 0.05 nil)) nil)) (cons (1 / 400) (cons 0.04 nil))
    = (q', Ok tt) /\ q_atten q' = Some 0.05 /\ map l_dmin (q_layers q') = cons 0.01 nil /\ map l_dmin (q_layers fit_start) = cons 0.02 nil.
Proof. exact fit_misreports. Qed.
Print Assumptions C68_refuted.
