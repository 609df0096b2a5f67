(** Properties C122 to C125: amplification of layered sites, repeated and continued runs. *)
From Coq Require Import String.
From Verif Require Import Common Model.Curve Model.Layer Model.Cplx Model.Waves Model.Eql Model.Fdm
  Spec.WaveSpec Spec.EqlSpec Spec.FdmSpec Proof.CommonFacts Proof.WaveBounds Proof.EqlRefute Proof.EqlRepeat Proof.FdmRepeat Proof.FdmEx Proof.RepeatEx.
Local Open Scope R_scope.

From Coquelicot Require Import Complex.
Local Open Scope R_scope.

(** Two undamped layers over a half-space, the second softer than the first. *)
Definition am_soil : soil := mkSoil 0 "rock"%string GRAVITY None (DConst 0).
Definition am_site : list layer := [layer_make am_soil 10 200 0; layer_make am_soil 5 100 0; layer_make am_soil 0 400 0].
Definition am_two : list layer := [layer_make am_soil 10 200 0; layer_make am_soil 0 400 0].
Lemma am_mod t v : shear_mod (layer_make am_soil t v 0) = v * v.
Proof. unfold shear_mod, layer_make, layer_reset, initial_shear_mod, density, iter_new; cbn. field. exact g_ne. Qed.
Lemma am_sound t v : 0 <= t -> 0 < v -> sound (layer_make am_soil t v 0).
Proof. intros Ht Hv. unfold sound. rewrite am_mod. cbn. unfold GRAVITY. split; [nra|]. split; lra. Qed.
Lemma am_impedance t v : 0 < v -> impedance (layer_make am_soil t v 0) = v.
Proof.
  intros Hv. unfold impedance. rewrite am_mod. unfold density; cbn. replace (v * v * (GRAVITY / GRAVITY)) with (v * v) by (field; exact g_ne).
  apply sqrt_square. lra.
Qed.
Lemma am_undamped ls : (forall l, In l ls -> damping l = 0) -> same_damping 0 ls.
Proof. intros H. apply List.Forall_forall. intros l Hl. rewrite (H l Hl). unfold limited_damping. repeat split; intros; lra. Qed.

(** C122: with one damping ratio in all layers, the motion at the surface is at most the
    outcrop motion of layer i times the product of the impedance increases above it;
    without damping it is at least that motion times the product of the impedance
    decreases. *)
Theorem C122_bound : forall w d ls rs,
  1e-8 < w -> List.Forall sound ls -> same_damping d ls ->
  calc_waves_python w (map wlayer_of ls) = Ok rs ->
  forall i z f, (i < length ls)%nat -> 0 <= z -> f <> IncomingOnly ->
  exists tf, calc_accel_tf rs (mkLoc i z Outcrop) (mkLoc 0 0 f) = Ok (Some tf) /\
    Cmod tf <= highest_gain (firstn (S i) ls) /\ (d = 0 -> lowest_gain (firstn (S i) ls) <= Cmod tf).
Proof. exact amplification_bound. Qed.
Print Assumptions C122_bound.
Example C122_bound_ex : List.Forall sound am_site /\ same_damping 0 am_site /\ (exists rs, calc_waves_python 6 (map wlayer_of am_site) = Ok rs) /\
  highest_gain am_site = 4 /\ lowest_gain am_site = / 2.
Proof.
  split; [repeat (apply Forall_cons; [apply am_sound; lra|]); apply Forall_nil|].
  split; [apply am_undamped; intros l [<-|[<-|[<-|[]]]]; reflexivity|]. split; [eexists; reflexivity|].
  unfold am_site, highest_gain, lowest_gain. rewrite !am_impedance by lra. unfold Rmax, Rmin.
  repeat (destruct (Rle_dec _ _)); lra.
Qed.

(** C122: if the impedance never decreases with depth and there is no damping, the
    amplification from any outcrop to the surface is between 1 and the ratio of the
    impedances. *)
Theorem C122_stiffening : forall w ls rs l0,
  1e-8 < w -> List.Forall sound ls -> same_damping 0 ls -> stiffening ls ->
  nth_error ls 0 = Some l0 -> calc_waves_python w (map wlayer_of ls) = Ok rs ->
  forall i l z f, nth_error ls i = Some l -> 0 <= z -> f <> IncomingOnly ->
  exists tf, calc_accel_tf rs (mkLoc i z Outcrop) (mkLoc 0 0 f) = Ok (Some tf) /\ 1 <= Cmod tf <= impedance l / impedance l0.
Proof. exact stiffening_amplification. Qed.
Print Assumptions C122_stiffening.
Example C122_stiffening_ex : List.Forall sound am_two /\ same_damping 0 am_two /\ stiffening am_two /\ exists rs, calc_waves_python 6 (map wlayer_of am_two) = Ok rs.
Proof.
  split; [repeat (apply Forall_cons; [apply am_sound; lra|]); apply Forall_nil|].
  split; [apply am_undamped; intros l [<-|[<-|[]]]; reflexivity|]. split; [|eexists; reflexivity].
  unfold am_two, stiffening. rewrite !am_impedance by lra. split; [lra|exact I].
Qed.

(** C123: one layer on a half-space, any damping: the transfer function from the
    outcropping rock to the surface is 1 / (cos kH + i alpha sin kH) and from the base
    of the layer 1 / cos kH, without a value where the denominator vanishes. *)
Theorem C123_closed_form : forall w l h rs,
  1e-8 < Rabs w -> carries l -> carries h -> calc_waves_python w [l; h] = Ok rs ->
  let kh := Cmult (Cdiv (RtoC w) (wl_vel l)) (RtoC (wl_thick l)) in
  let base := Cplus (Ccos kh) (Cmult (Cmult Ci (Cdiv (cimpedance l) (cimpedance h))) (Csin kh)) in
  forall f, f <> IncomingOnly ->
  calc_accel_tf rs (mkLoc 1 0 Outcrop) (mkLoc 0 0 f) = Ok (if Ceq_dec base (RtoC 0) then None else Some (Cdiv (RtoC 1) base)) /\
  calc_accel_tf rs (mkLoc 0 (wl_thick l) Within) (mkLoc 0 0 f) = Ok (if Ceq_dec (Ccos kh) (RtoC 0) then None else Some (Cdiv (RtoC 1) (Ccos kh))).
Proof. exact layer_on_half_space. Qed.
Print Assumptions C123_closed_form.
Example C123_closed_form_ex : carries (mkWL (100, 10) (10000, 1000) 10) /\ carries (mkWL (800, 8) (640000, 6400) 0).
Proof. unfold carries; cbn. split; split; intros H; injection H; lra. Qed.

(** C123: without damping the first has modulus 1 / sqrt(cos^2 + alpha^2 sin^2) at wH/V
    and the second is the real number 1 / cos. *)
Theorem C123_undamped : forall w l h rs,
  1e-8 < w -> sound l -> sound h -> same_damping 0 [l; h] ->
  calc_waves_python w (map wlayer_of [l; h]) = Ok rs ->
  let x := w * l_thick l / sqrt (shear_mod l / density (l_soil l)) in
  let al := impedance l / impedance h in
  forall f, f <> IncomingOnly ->
  calc_accel_tf rs (mkLoc 0 (l_thick l) Within) (mkLoc 0 0 f) = Ok (if Req_EM_T (cos x) 0 then None else Some (RtoC (/ cos x))) /\
  exists tf, calc_accel_tf rs (mkLoc 1 0 Outcrop) (mkLoc 0 0 f) = Ok (Some tf) /\
    Cmod tf = / sqrt (cos x ^ 2 + al ^ 2 * sin x ^ 2).
Proof. exact undamped_layer. Qed.
Print Assumptions C123_undamped.
Example C123_undamped_ex : List.Forall sound am_two /\ same_damping 0 am_two.
Proof. split; [apply C122_stiffening_ex|apply C122_stiffening_ex]. Qed.

(** C123: at the quarter-wavelength frequency of an undamped layer the first is the
    ratio of the impedances and the second has no value. *)
Theorem C123_resonance : forall w l h rs,
  1e-8 < w -> sound l -> sound h -> same_damping 0 [l; h] ->
  calc_waves_python w (map wlayer_of [l; h]) = Ok rs ->
  w * l_thick l / sqrt (shear_mod l / density (l_soil l)) = PI / 2 ->
  calc_accel_tf rs (mkLoc 0 (l_thick l) Within) (mkLoc 0 0 Outcrop) = Ok None /\
  exists tf, calc_accel_tf rs (mkLoc 1 0 Outcrop) (mkLoc 0 0 Outcrop) = Ok (Some tf) /\ Cmod tf = impedance h / impedance l.
Proof. exact resonance. Qed.
Print Assumptions C123_resonance.
Example C123_resonance_ex : 10 * PI * 10 / sqrt (shear_mod (layer_make am_soil 10 200 0) / density am_soil) = PI / 2 /\ 1e-8 < 10 * PI.
Proof.
  rewrite am_mod. unfold density; cbn. replace (200 * 200 / (GRAVITY / GRAVITY)) with (200 * 200) by (field; exact g_ne).
  rewrite sqrt_square by lra. pose proof PI2_1. split; [field|lra].
Qed.

(** C124: a linear-elastic run with reset layers is determined by the description of the
    layers, whatever modulus, damping and strain they hold. *)
Theorem C124_linear : forall m ls ls',
  map description ls = map description ls' -> le_call m true ls = le_call m true ls'.
Proof. exact le_forgets. Qed.
Print Assumptions C124_linear.
Example C124_linear_ex : map description soft_site = map description (map (fun l => set_strain l 0.003) soft_site) /\
  soft_site <> map (fun l => set_strain l 0.003) soft_site.
Proof. split; [reflexivity|]. intros H. apply (f_equal (map strain)) in H. cbn in H. injection H. lra. Qed.

(** C124: so is an equivalent-linear run: its passes and its result. *)
Theorem C124_eql : forall P m lin ls ls',
  map description ls = map description ls' ->
  eql_call P m lin true ls = eql_call P m lin true ls'.
Proof. exact eql_forgets. Qed.
Print Assumptions C124_eql.

(** C124: after a run, any run with reset layers is as if the first had not been made.
    *)
Theorem C124_again : forall P P' m m' lin lin' reset ls t stop ls' wv,
  eql_call P m lin reset ls = (t, Ok (stop, ls', wv)) ->
  eql_call P' m' lin' true ls' = eql_call P' m' lin' true ls /\ le_call m' true ls' = le_call m' true ls.
Proof. exact eql_again. Qed.
Print Assumptions C124_again.
Example C124_again_ex : exists t stop ls' wv, eql_call (with_max rp_params 3) soft_motion soft_input true soft_site = (t, Ok (stop, ls', wv)).
Proof. destruct rp_run as (t & ls' & wv & E & _). now exists t, Exhausted, ls', wv. Qed.

(** C124: the same for the frequency-dependent calculator. *)
Theorem C124_fdm : forall F m lin ls ls',
  map fdescription ls = map fdescription ls' ->
  fdm_call F m lin true ls = fdm_call F m lin true ls'.
Proof. exact fdm_forgets. Qed.
Print Assumptions C124_fdm.

(** C124: after a run of the frequency-dependent calculator the layers have their
    descriptions, and a run of it or of the equivalent-linear calculator with reset
    layers is as if the first had not been made. *)
Theorem C124_fdm_again : forall F F' m m' lin lin' reset ls stop ls' wv,
  fr_end (fdm_call F m lin reset ls) = Ok (stop, ls', wv) ->
  map fdescription ls' = map fdescription ls /\
  fdm_call F' m' lin' true ls' = fdm_call F' m' lin' true ls /\
  forall P, eql_call P (fm_motion m') lin' true (map f_layer ls') = eql_call P (fm_motion m') lin' true (map f_layer ls).
Proof. exact fdm_again. Qed.
Print Assumptions C124_fdm_again.
Example C124_fdm_again_ex : exists stop ls' wv,
  fr_end (fdm_call (dc_fdm ZR15 1) dc_motion soft_input true (map of_layer lin_site)) = Ok (stop, ls', wv).
Proof. destruct lin_run as (wv & stop & ls' & _ & _ & _ & E). now exists stop, ls', wv. Qed.

(** C124: also after a run of the equivalent-linear calculator. *)
Theorem C124_fdm_after_eql : forall F P m m' lin lin' reset ls t stop ls' wv,
  eql_call P m lin reset ls = (t, Ok (stop, ls', wv)) ->
  fdm_call F m' lin' true (map of_layer ls') = fdm_call F m' lin' true (map of_layer ls).
Proof. exact fdm_after_eql. Qed.
Print Assumptions C124_fdm_after_eql.

(** C125: a run that used all its n1 iterations, the last pass not limited, and is
    continued for n2 iterations without resetting the layers makes the passes and gives
    the result of one run with n1 + n2 iterations; the passes of the continuation may
    differ in the recorded maximum strain only. *)
Theorem C125_continues : forall P n1 n2 m lin reset ls t1 ls1 wv1,
  (0 <= n1)%Z -> (0 < n2)%Z ->
  eql_call (with_max P n1) m lin reset ls = (t1, Ok (Exhausted, ls1, wv1)) ->
  (forall st, last_opt t1 = Some st -> st_limited st = false) ->
  exists t2, fst (eql_call (with_max P (n1 + n2)) m lin reset ls) = t1 ++ t2 /\
    Forall2 step_alike t2 (fst (eql_call (with_max P n2) m lin false ls1)) /\
    snd (eql_call (with_max P (n1 + n2)) m lin reset ls) = snd (eql_call (with_max P n2) m lin false ls1).
Proof. exact eql_continues. Qed.
Print Assumptions C125_continues.
Example C125_continues_ex : exists t ls' wv, eql_call (with_max rp_params 3) soft_motion soft_input true soft_site = (t, Ok (Exhausted, ls', wv)) /\
  length t = 3%nat /\ forall st, last_opt t = Some st -> st_limited st = false.
Proof. exact rp_run. Qed.
