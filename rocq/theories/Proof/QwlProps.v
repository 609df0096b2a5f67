(** C20, C68, C76: consequences for the quarter-wavelength calculator. *)
From Verif Require Import Common Model.Curve Model.Layer Model.Qwl Spec.StepSpec Spec.QwlSpec
  Proof.CommonFacts Proof.CurveFacts Proof.StepFacts Proof.WaveFacts Proof.QwlFacts.
From Coquelicot Require Import Coquelicot.
Local Open Scope R_scope.

Ltac fa := repeat (apply List.Forall_cons; [try lra; try reflexivity|]); apply List.Forall_nil.

(** The depth at which the averages are taken is a quarter wavelength to within
    2 %. *)
Theorem quarter_wave thickness slowness f k :
  site_property thickness slowness -> 0 < f ->
  let d := depth_after thickness slowness f in
  agree (d k) (d (S k)) ->
  Rabs (d k - 1 / (4 * mean_to (combine thickness slowness) (d k) * f)) <= 2e-8 + 0.02 * d (S k).
Proof.
  intros Hs Hf d HA. unfold agree in HA. pose proof (depth_after_pos thickness slowness Hs f (S k) Hf) as HP. fold d in HP.
  rewrite (Rabs_right (d (S k))) in HA by lra.
  set (q := 1 / (4 * mean_to (combine thickness slowness) (d k) * f)).
  assert (E : d (S k) = (d k + q) / 2) by reflexivity.
  replace (d k - d (S k)) with ((d k - q) / 2) in HA by (rewrite E; field).
  unfold Rdiv in HA. rewrite Rabs_mult, (Rabs_right (/ 2)) in HA by lra. lra.
Qed.

(** * A uniform site *)
Lemma step_int_const v l : l <> nil -> List.Forall (fun p => snd p = v) l -> forall d, step_int l d = d * v.
Proof.
  induction l as [|[t w] l IH]; intros Hne Hf d; [contradiction|]. inversion Hf as [|? ? H1 H2]; subst. cbn [snd] in *.
  destruct l as [|p l]; [reflexivity|]. rewrite step_int_cons. destruct Rle_dec; [reflexivity|]. rewrite IH; [ring|discriminate|exact H2].
Qed.
Lemma uniform_mean thickness prop v d : site_property thickness prop -> List.Forall (fun p => p = v) prop -> 0 < d ->
  mean_to (combine thickness prop) d = v.
Proof.
  intros Hp Hv Hd. rewrite mean_to_step by assumption. pose proof Hp as (HL & Hne & _).
  rewrite (step_int_const v); [field; lra|now apply combine_ne|]. apply (combine_snd thickness prop (fun p => p = v)). exact Hv.
Qed.
Lemma uniform_average prop v : prop <> nil -> List.Forall (fun p => p = v) prop -> average prop = v.
Proof.
  intros Hne Hv. unfold average. assert (E : Rsum prop = INR (length prop) * v).
  { clear Hne. induction Hv as [|x xs -> _ IH]; [cbn; ring|]. rewrite Rsum_cons, IH. change (length (v :: xs)) with (S (length xs)). rewrite S_INR. ring. }
  rewrite E. field. apply not_0_INR. destruct prop; [contradiction|discriminate].
Qed.

Theorem uniform_amp thickness slowness density atten fs s rho :
  site_property thickness slowness -> site_property thickness density ->
  List.Forall (fun p => p = s) slowness -> List.Forall (fun p => p = rho) density ->
  List.Forall (fun f => 0 < f) fs ->
  calc_amp Standard atten fs density thickness slowness =
  Ok (map (fun _ => Some 1) fs,
      map (fun f => Some (exp (- PI * match atten with Some a => a | None => 0 end * f))) fs).
Proof.
  intros Hs Hd Us Ud Hf.
  assert (HL : forall prop v, site_property thickness prop -> List.Forall (fun p => p = v) prop -> last_opt prop = Some v /\ 0 < v).
  { intros prop v (_ & Hne & _ & Hp) Hv. destruct prop as [|x xs]; [contradiction|]. destruct (last_opt_some x xs) as [y Ey].
    pose proof (last_opt_In _ _ Ey) as Hin. rewrite Forall_forall in Hv, Hp. rewrite Ey. pose proof (Hv y Hin). subst y. split; [reflexivity|now apply Hp]. }
  destruct (HL density rho Hd Ud) as [Er Hr]. destruct (HL slowness s Hs Us) as [Es Hss].
  assert (D1 : forall f, 0 < f -> agree (depth_after thickness slowness f 0) (depth_after thickness slowness f 1)).
  { intros f Hff. pose proof (depth_after_pos thickness slowness Hs f 0 Hff) as P0. pose proof (depth_after_pos thickness slowness Hs f 1 Hff) as P1.
    assert (E : depth_after thickness slowness f 1 = depth_after thickness slowness f 0).
    { unfold depth_after in *. cbn [Nat.iter nat_rect] in *. unfold refine.
      rewrite (uniform_mean thickness slowness s) by assumption. rewrite (uniform_average slowness s) by (try apply Hs; assumption). lra. }
    unfold agree. rewrite E. replace (depth_after thickness slowness f 0 - depth_after thickness slowness f 0) with 0 by ring.
    rewrite Rabs_R0, Rabs_right by lra. lra. }
  destruct (amp_characterised thickness slowness density atten fs rho s Hs Hd Er Es Hf) as [(k & Hk & _ & _ & E & _)|[N _]].
  - rewrite E. rewrite Forall_forall in Hf.
    assert (A1 : forall f, In f fs -> sqrt (impedance_ratio rho s (mean_to (combine thickness density) (depth_after thickness slowness f (S k)))
        (mean_to (combine thickness slowness) (depth_after thickness slowness f k))) = 1).
    { intros f Hin. rewrite (uniform_mean thickness density rho), (uniform_mean thickness slowness s);
        try assumption; try (apply depth_after_pos; auto). unfold impedance_ratio. replace (rho / s / (rho / s)) with 1 by (field; lra). apply sqrt_1. }
    do 2 f_equal; apply map_ext_in; intros f Hin; rewrite (A1 f Hin); [reflexivity|]. now rewrite Rmult_1_l.
  - exfalso. apply (N 0%nat); [lia|]. intros f Hin. apply D1. rewrite Forall_forall in Hf. now apply Hf.
Qed.

(** * A zero frequency *)
Definition none_or_pos (o : option R) : Prop := match o with None => True | Some d => 0 < d end.
Lemma average_total thickness prop ds : site_property thickness prop -> List.Forall none_or_pos ds ->
  exists vs, qwl_average thickness prop ds = Ok vs /\ length vs = length ds /\ List.Forall none_or_pos vs /\
  forall i, nth_error ds i = Some None -> nth_error vs i = Some None.
Proof.
  intros Hp. unfold qwl_average. induction 1 as [|o ds Ho _ (vs & E & L & F & N)]; [exists nil; repeat split; [constructor|intros [|]; discriminate]|].
  cbn [map_res]. rewrite E. assert (exists v, trapz_at thickness prop o = Ok v /\ none_or_pos v /\ (o = None -> v = None)) as (v & Ev & Pv & Nv).
  { destruct o as [d|].
    - destruct (trapz_mean thickness prop d Hp Ho) as [E1 P1]. exists (Some (mean_to (combine thickness prop) d)). cbn [trapz_at]. rewrite E1. cbn [bind].
      split; [reflexivity|]. split; [exact P1|discriminate].
    - exists None. cbn [trapz_at]. destruct Hp as (HL & Hne & _). pose proof (combine_ne thickness prop HL Hne). destruct (combine thickness prop); [contradiction|]. now repeat split. }
  rewrite Ev. cbn [bind]. exists (v :: vs). split; [reflexivity|]. split; [cbn; now rewrite L|]. split; [now constructor|].
  intros [|i] H; cbn in *; [|now apply N]. injection H as ->. now rewrite Nv.
Qed.


Lemma nexts_length ds : forall vs fs, length ds = length fs -> length vs = length ds -> length (qwl_nexts ds vs fs) = length fs.
Proof.
  induction ds as [|d ds IH]; intros [|v vs] [|f fs] H1 H2; try discriminate; [reflexivity|].
  cbn. f_equal. apply IH; [now injection H1|now injection H2].
Qed.
Lemma nexts_pos ds : forall vs fs, List.Forall none_or_pos ds -> List.Forall none_or_pos vs -> List.Forall (fun f => 0 <= f) fs ->
  List.Forall none_or_pos (qwl_nexts ds vs fs).
Proof.
  induction ds as [|d ds IH]; intros [|v vs] [|f fs] H1 H2 H3; cbn [qwl_nexts]; try constructor.
  - inversion H1; inversion H2; inversion H3; subst. destruct d as [d|]; [|exact I]. destruct v as [v|]; [|exact I]. cbn in *.
    unfold inv_opt. destruct (Reqb (4 * v * f) 0) eqn:E; [exact I|]. apply Reqb_false in E. cbn. assert (0 < 4 * v * f) by nra.
    assert (0 < 1 / (4 * v * f)) by (apply Rdiv_lt_0_compat; lra). lra.
  - inversion H1; inversion H2; inversion H3; subst. now apply IH.
Qed.
Lemma nexts_none ds : forall vs fs i, length ds = length fs -> length vs = length ds -> nth_error ds i = Some None ->
  nth_error (qwl_nexts ds vs fs) i = Some None.
Proof.
  induction ds as [|d ds IH]; intros [|v vs] [|f fs] [|i] H1 H2 H; try discriminate; cbn in *.
  - injection H as ->. reflexivity.
  - apply IH; [now injection H1|now injection H2|exact H].
Qed.
Lemma allclose_none ds : forall es i, length es = length ds -> nth_error ds i = Some None -> allclose ds es = false.
Proof.
  unfold allclose. induction ds as [|d ds IH]; intros [|e es] [|i] HL H; try discriminate; cbn in *.
  - injection H as ->. reflexivity.
  - rewrite (IH es i); [apply Bool.andb_false_r|now injection HL|exact H].
Qed.
Lemma loop_none thickness slowness fs : site_property thickness slowness -> List.Forall (fun f => 0 <= f) fs ->
  forall fuel ds i, length ds = length fs -> List.Forall none_or_pos ds -> nth_error ds i = Some None ->
  qwl_loop fuel thickness slowness fs ds = Err RuntimeError.
Proof.
  intros Hs Hf. induction fuel as [|fuel IH]; intros ds i HL HP HN; [reflexivity|]. cbn [qwl_loop].
  destruct (average_total thickness slowness ds Hs HP) as (vs & E & Lv & Fv & Nv). rewrite E. cbn [bind].
  pose proof (nexts_length ds vs fs HL Lv) as HL'.
  rewrite (allclose_none ds (qwl_nexts ds vs fs) i) by (try assumption; congruence).
  apply (IH _ i); [exact HL'|now apply nexts_pos|now apply nexts_none].
Qed.

(** The zero frequency of a time-series motion makes the calculation fail, for
    every site and method. *)
Theorem zero_frequency_fails m atten thickness slowness density fs :
  site_property thickness slowness -> List.Forall (fun f => 0 <= f) fs -> In 0 fs ->
  calc_amp m atten fs density thickness slowness = Err RuntimeError.
Proof.
  intros Hs Hf Hin. destruct (In_nth_error _ _ Hin) as [i Hi]. unfold calc_amp.
  rewrite (loop_none thickness slowness fs Hs Hf 50 _ i); [reflexivity|now rewrite map_length| |].
  - apply Forall_map. eapply Forall_impl; [|exact Hf]. cbn. intros f Hf0. destruct (Rle_lt_or_eq_dec 0 f Hf0) as [L|<-].
    + rewrite (start_some thickness slowness Hs f L). unfold none_or_pos. now apply depth_after_pos.
    + unfold qwl_start. destruct (mean_opt slowness) as [x|]; [|exact I]. cbn. unfold inv_opt. replace (4 * x * 0) with 0 by ring. now rewrite Reqb_refl.
  - rewrite nth_error_map, Hi. cbn. unfold qwl_start. destruct (mean_opt slowness) as [x|]; [|reflexivity]. cbn. unfold inv_opt.
    replace (4 * x * 0) with 0 by ring. now rewrite Reqb_refl.
Qed.

(** * C76: the exponent of Boore and Abrahamson (2023) *)
Theorem ba23_defined x : -1.301 <= x -> exists eta, correction_ba23 x = Some eta /\ 0 <= eta.
Proof.
  intros Hx. unfold correction_ba23. set (fact := (x - -1.301) / 1.398).
  assert (F0 : 0 <= fact) by (unfold fact; apply Rmult_le_pos; lra).
  assert (HB : 0 < (1 - fact ^ 6) ^ 2 + 0.760 * fact ^ 3).
  { destruct (Req_dec fact 0) as [->|N]; [cbn; lra|]. assert (0 < fact ^ 3) by (apply pow_lt; lra). pose proof (pow2_ge_0 (1 - fact ^ 6)). lra. }
  unfold pow_opt. rewrite (proj2 (Rltb_true 0 _)) by exact HB. cbn [opt_bind].
  set (den := Rpower _ _). assert (0 < den) by (apply exp_pos). unfold div_opt. rewrite (proj2 (Reqb_false den 0)) by lra.
  eexists. split; [reflexivity|]. apply Rmult_le_pos; [|left; now apply Rinv_0_lt_compat]. apply Rmult_le_pos; [lra|]. now apply pow_le.
Qed.
Theorem ba23_undefined : correction_ba23 (-2.699) = None.
Proof.
  unfold correction_ba23. replace ((-2.699 - -1.301) / 1.398) with (-1) by lra. unfold pow_opt.
  rewrite (proj2 (Rltb_false 0 _)) by lra. rewrite (proj2 (Reqb_false _ 0)) by lra. reflexivity.
Qed.
Lemma log10_power x : log10 (Rpower 10 x) = x.
Proof.
  unfold log10, Rpower. rewrite ln_exp. field. pose proof (ln_increasing 1 10 ltac:(lra) ltac:(lra)) as H. rewrite ln_1 in H. lra.
Qed.

(** On two equal layers, 100 m of 400 m/s on a half-space, the amplification at
    10^-2.699 Hz is not a number, although the site is uniform. *)
Theorem ba23_amp_undefined :
  calc_amp BA23 None (cons (Rpower 10 (-2.699)) nil) (cons 2 (cons 2 nil)) (cons 100 (cons 0 nil)) (cons (1 / 400) (cons (1 / 400) nil)) =
  Ok (cons None nil, cons None nil).
Proof.
  set (f := Rpower 10 (-2.699)). assert (Hf : 0 < f) by apply exp_pos.
  assert (Hs : site_property (cons 100 (cons 0 nil)) (cons (1 / 400) (cons (1 / 400) nil))).
  { repeat split; [discriminate|fa|fa]. }
  assert (Hd : site_property (cons 100 (cons 0 nil)) (cons 2 (cons 2 nil))).
  { repeat split; [discriminate|fa|fa]. }
  pose proof (uniform_amp _ _ _ None (cons f nil) (1 / 400) 2 Hs Hd ltac:(fa) ltac:(fa)
                ltac:(constructor; [exact Hf|constructor])) as U.
  assert (HE : exponents BA23 (cons 100 (cons 0 nil)) (cons (1 / 400) (cons (1 / 400) nil)) (cons f nil) = Ok (cons None nil)).
  { unfold exponents. cbn [removelast Rsum fold_right].
    replace (100 + 0) with 100 by ring. rewrite (proj1 (trapz_mean _ _ 100 Hs ltac:(lra))). cbn [bind].
    rewrite (uniform_mean _ _ (1 / 400)); [|exact Hs|fa|lra].
    replace (4 * 100 * (1 / 400)) with 1 by field. cbn [map]. unfold inv_opt. rewrite (proj2 (Reqb_false 1 0)) by lra. cbn [opt_bind].
    unfold div_opt at 1. rewrite (proj2 (Reqb_false (1 / 1) 0)) by lra. cbn [opt_bind]. replace (f / (1 / 1)) with f by field.
    rewrite (proj2 (Rltb_true 0 f)) by exact Hf. unfold f. now rewrite log10_power, ba23_undefined. }
  unfold calc_amp in *. destruct (qwl_loop 50 _ _ _ _) as [ds|e]; [|discriminate]. cbn [bind] in *.
  destruct (qwl_average _ _ (fst ds)) as [rhos|e]; [|discriminate]. cbn [bind] in *. rewrite HE. unfold exponents in U. cbn [bind] in *.
  cbn [last_opt] in *. cbn [map] in U. apply Ok_inj in U. injection U as U1 U2.
  destruct rhos as [|r rhos]; [discriminate|]. destruct (snd ds) as [|s ss]; [discriminate|]. cbn [amps].
  assert (EN : amp_at 2 (1 / 400) r s None = None) by (unfold amp_at; destruct r; [|reflexivity]; cbn; now destruct s).
  rewrite EN. destruct rhos, ss; reflexivity.
Qed.
(** A site consisting of a half-space only. *)
Theorem ba23_half_space_fails t s rho atten fs : 0 <= t -> 0 < s -> 0 < rho -> List.Forall (fun f => 0 < f) fs ->
  calc_amp BA23 atten fs (cons rho nil) (cons t nil) (cons s nil) =
  Err ZeroDivisionError.
Proof.
  intros Ht Hs Hr Hf.
  assert (Ps : site_property (cons t nil) (cons s nil)) by (repeat split; [discriminate|fa|fa]).
  assert (Pd : site_property (cons t nil) (cons rho nil)) by (repeat split; [discriminate|fa|fa]).
  pose proof (uniform_amp _ _ _ None fs s rho Ps Pd ltac:(fa) ltac:(fa) Hf) as U.
  unfold calc_amp in *. destruct (qwl_loop 50 _ _ _ _) as [ds|e]; [|discriminate]. cbn [bind] in *.
  destruct (qwl_average _ _ (fst ds)) as [rhos|e]; [|discriminate]. cbn [bind] in *.
  unfold exponents in *. cbn [removelast Rsum fold_right].
  destruct (trapz_versions_differ (cons t nil) (cons s nil)) as [_ E]; [reflexivity|discriminate|fa|].
  rewrite E. reflexivity.
Qed.

(** * C68: [fit] *)
Theorem fit_evals_atten q freqs at_ aa evals : forall q', fit_evals q freqs at_ aa evals = (q', Ok tt) ->
  q_method q' = q_method q /\ q_layers q' = q_layers q /\
  q_atten q' = if aa then match last_opt evals with Some x => last_opt x | None => q_atten q end else q_atten q.
Proof.
  revert q. induction evals as [|x evals IH]; intros q q' H; cbn [fit_evals] in H.
  - injection H as <-. split; [reflexivity|]. split; [reflexivity|]. now destruct aa.
  - unfold fit_eval in H. destruct (calc_amp _ _ _ _ _ _) as [r|e]; [|discriminate].
    apply IH in H. cbn [q_method q_layers q_atten] in H. destruct H as (A & B & D). split; [exact A|]. split; [exact B|].
    rewrite D. destruct aa; [|reflexivity]. destruct evals as [|y evals]; [reflexivity|]. cbn [last_opt]. 
    destruct (last_opt_some y evals) as [z Hz]. cbn [last_opt] in Hz. now rewrite Hz.
Qed.

Lemma fit_layers_spec ls : forall thick slow rs, length thick = length ls -> length slow = length ls ->
  fit_layers ls thick slow = Ok rs -> length rs = length ls /\
  forall i l t s r, nth_error ls i = Some l -> nth_error thick i = Some t -> nth_error slow i = Some s -> nth_error rs i = Some r ->
    l_soil r = l_soil l /\ l_thick r = t /\ l_vs r = 1 / s /\ soil_damping_min (l_soil l) = Ok (l_dmin r).
Proof.
  induction ls as [|l ls IH]; intros [|t thick] [|s slow] rs HT HS H; try discriminate; cbn [fit_layers] in H.
  - apply Ok_inj in H. subst rs. split; [reflexivity|]. intros [|i]; discriminate.
  - unfold layer_new in H. destruct (soil_damping_min (l_soil l)) as [d|e] eqn:Ed; cbn [bind] in H; [|discriminate].
    destruct (fit_layers ls thick slow) as [r|e] eqn:Er; cbn [bind] in H; [|discriminate]. apply Ok_inj in H. subst rs.
    destruct (IH thick slow r (eq_add_S _ _ HT) (eq_add_S _ _ HS) Er) as [L N]. split; [cbn; now rewrite L|].
    intros [|i] l0 t0 s0 r0 H1 H2 H3 H4; cbn [nth_error] in *; [|now apply (N i)].
    injection H1 as <-. injection H2 as <-. injection H3 as <-. injection H4 as <-. cbn. repeat split; assumption.
Qed.

(** After a successful fit: the attenuation is the last one evaluated, the layers
    have the fitted velocities and the minimum damping of their soil types. *)
Theorem fit_result q freqs (at_ aa : bool) evals (sol : list R) q' :
  (length (q_layers q) * (if at_ then 2 else 1) <= length sol)%nat ->
  fit q freqs at_ aa evals sol = (q', Ok tt) ->
  q_atten q' = (if aa then match last_opt evals with Some x => last_opt x | None => q_atten q end else q_atten q) /\
  length (q_layers q') = length (q_layers q) /\
  forall i l r, nth_error (q_layers q) i = Some l -> nth_error (q_layers q') i = Some r ->
    l_soil r = l_soil l /\
    Some (l_thick r) = (if at_ then nth_error sol (length (q_layers q) + i) else Some (l_thick l)) /\
    (forall s, nth_error sol i = Some s -> l_vs r = 1 / s) /\
    soil_damping_min (l_soil l) = Ok (l_dmin r).
Proof.
  intros HL H. assert (HL1 : (length (q_layers q) <= length sol)%nat) by (destruct at_; cbv iota in HL; lia).
  assert (HL2 : at_ = true -> (2 * length (q_layers q) <= length sol)%nat) by (intros ->; cbv iota in HL; lia). clear HL.
  unfold fit in H. destruct (fit_evals q freqs at_ aa evals) as [q1 [[]|e]] eqn:E1; [|discriminate].
  destruct (fit_evals_atten _ _ _ _ _ _ E1) as (M & L & A).
  set (thick := if at_ then firstn (length (q_layers q)) (skipn (length (q_layers q)) sol) else thicknesses (q_layers q)) in *.
  destruct (fit_layers (q_layers q) thick (firstn (length (q_layers q)) sol)) as [ls|e] eqn:E2; [|discriminate].
  assert (LT : length thick = length (q_layers q)).
  { unfold thick, thicknesses. destruct at_; [|apply map_length]. rewrite firstn_length, skipn_length. specialize (HL2 eq_refl). lia. }
  assert (LS : length (firstn (length (q_layers q)) sol) = length (q_layers q)) by (rewrite firstn_length; lia).
  destruct (fit_layers_spec _ _ _ _ LT LS E2) as [L2 N2].
  unfold qwl_call in H. destruct (calc_amp _ _ _ _ _ _) as [[a t]|e]; [|discriminate]. injection H as <-. cbn [q_atten q_layers].
  split; [exact A|]. split; [exact L2|]. intros i l r Hl Hr.
  assert (Hi : (i < length (q_layers q))%nat) by (apply nth_error_Some; congruence).
  destruct (nth_error thick i) as [t0|] eqn:Et; [|apply nth_error_None in Et; lia].
  assert (Hs : forall k : list R, nth_error (firstn (length (q_layers q)) k) i = nth_error k i).
  { intros k. now apply nth_error_firstn_lt. }
  destruct (nth_error sol i) as [s0|] eqn:Es; [|apply nth_error_None in Es; lia].
  destruct (N2 i l t0 s0 r Hl Et ltac:(now rewrite Hs) Hr) as (R1 & R2 & R3 & R4).
  split; [exact R1|]. split; [|split; [|exact R4]].
  - rewrite R2, <- Et. unfold thick. destruct at_.
    + now rewrite Hs, nth_error_skipn_add.
    + unfold thicknesses. rewrite nth_error_map, Hl. reflexivity.
  - intros s Hs'. injection Hs' as <-. exact R3.
Qed.

(** Hence the reported attenuation is the solution only if the last evaluation
    happened to be made there. *)
Theorem fit_atten_iff q freqs (at_ : bool) evals x (sol : list R) q' :
  (length (q_layers q) * (if at_ then 2 else 1) <= length sol)%nat ->
  fit q freqs at_ true (evals ++ cons x nil) sol = (q', Ok tt) ->
  (q_atten q' = last_opt sol <-> last_opt x = last_opt sol).
Proof.
  intros HL H. destruct (fit_result _ _ _ _ _ _ _ HL H) as [A _]. rewrite last_opt_app in A. now rewrite A.
Qed.

Definition fit_rock : layer := layer_make (mkSoil 0 String.EmptyString 22 None (DConst 0.01)) 0 400 0.02.
Definition fit_start : qwl := mkQwl Standard (Some 0.04) (cons fit_rock nil) nil nil.
Lemma fit_rock_amp atten : exists r,
  calc_amp Standard atten (cons 1 nil) (densities (cons fit_rock nil)) (thicknesses (cons fit_rock nil)) (cons (1 / 400) nil) = Ok r.
Proof.
  eexists. eapply uniform_amp; try (unfold densities, thicknesses; cbn [map]).
  - repeat split; [discriminate|cbn; fa|fa].
  - repeat split; [discriminate|cbn; fa|]. apply List.Forall_cons; [|apply List.Forall_nil]. unfold density. cbn. unfold GRAVITY. lra.
  - apply List.Forall_cons; [reflexivity|apply List.Forall_nil].
  - apply List.Forall_cons; [reflexivity|apply List.Forall_nil].
  - fa.
Qed.
(** The optimiser evaluates its solution, then a neighbour for the gradient. *)
Theorem fit_misreports : exists q',
  fit fit_start (cons 1 nil) false true (cons (cons (1 / 400) (cons 0.04 nil)) (cons (cons (1 / 400) (cons 0.05 nil)) nil)) (cons (1 / 400) (cons 0.04 nil))
    = (q', Ok tt) /\ q_atten q' = Some 0.05 /\ map l_dmin (q_layers q') = cons 0.01 nil /\ map l_dmin (q_layers fit_start) = cons 0.02 nil.
Proof.
  unfold fit. cbn [fit_evals]. unfold fit_eval. cbn [q_layers fit_start length firstn q_method last_opt q_atten q_amp q_term].
  destruct (fit_rock_amp (Some 0.04)) as [r1 E1]. rewrite E1. cbn [q_layers q_method q_atten q_amp q_term length firstn].
  destruct (fit_rock_amp (Some 0.05)) as [r2 E2]. rewrite E2. cbn [q_layers q_method q_atten q_amp q_term length firstn].
  cbn [fit_layers thicknesses map l_soil fit_rock layer_make layer_reset layer_new soil_damping_min s_damp bind l_thick].
  unfold layer_new. cbn [bind soil_damping_min s_damp]. unfold qwl_call. cbn [q_method q_atten q_layers q_amp q_term].
  match goal with |- context [calc_amp Standard (Some 0.05) ?f ?d ?t ?s] =>
    replace (calc_amp Standard (Some 0.05) f d t s) with
      (calc_amp Standard (Some 0.05) (cons 1 nil) (densities (cons fit_rock nil)) (thicknesses (cons fit_rock nil)) (cons (1 / 400) nil))
  end.
  - rewrite E2. destruct r2 as [a t]. eexists. split; [reflexivity|]. now repeat split.
  - unfold slownesses. cbn [map l_vs layer_reset]. replace (1 / (1 / (1 / 400))) with (1 / 400) by field. reflexivity.
Qed.
