(** Properties C147 and C150: energy of responses and motion at low frequencies. *)
From Verif Require Import Common Model.Curve Model.Layer Model.Profile Model.Cplx Model.Waves Model.Eql Model.Averages Model.Output Model.Motion Model.Results.
From Verif Require Import Spec.LayerSpec Spec.ProfileSpec Spec.MotionSpec Spec.OutputSpec Spec.IntensitySpec Spec.WaveSpec Spec.EqlSpec Spec.ResultsSpec Spec.LowSpec.
From Verif Require Import Proof.MotionProps Proof.IntensityProps Proof.EqlRefute Proof.WaveFacts Proof.WaveSplit Proof.EqlFacts Proof.EqlProps Proof.EqlPhysical Proof.EqlResults Proof.EqlKeeps Proof.ResultsProps Proof.ResultsRuns Proof.ResultsDefined Proof.ResultsEx Proof.ResponseEnergy Proof.WaveLow.
From Coq Require Import String List.
From Coquelicot Require Import Coquelicot.
Local Open Scope R_scope.

(** Five metres of soft soil on rock, without damping, and its run with three samples. *)
Definition re_soil : soil := mkSoil 0 "soil"%string GRAVITY None (DConst 0).
Definition re_site : list layer := cons (layer_make re_soil 5 200 0) (cons (layer_make re_soil 0 400 0) nil).
Lemma re_mod t v : shear_mod (layer_make re_soil t v 0) = v * v.
Proof. unfold shear_mod, layer_make, layer_reset, initial_shear_mod, density, iter_new; cbn. field. exact g_ne. Qed.
Lemma re_sound : List.Forall sound re_site.
Proof.
  unfold re_site. repeat (apply Forall_cons; [unfold sound; rewrite re_mod; cbn; unfold GRAVITY; split; [nra|]; split; lra|]). apply Forall_nil.
Qed.
Lemma re_undamped : same_damping 0 re_site.
Proof. apply List.Forall_forall. intros l [<-|[<-|[]]]; unfold limited_damping; cbn; repeat split; intros; lra. Qed.
Lemma re_ran : exists K, ran 0.01 rx_rec None 4 re_site K /\ k_input K = mkLoc 1 0 Outcrop.
Proof.
  destruct rx_motion as [m Hm].
  destruct (waves_sound (as_motion m 10) re_site ltac:(discriminate) re_sound
    (clear_record 0.01 rx_rec None m 4 10 ltac:(lra) Hm rx_length ltac:(lra))) as [wv Hw].
  exists (mkCalc m re_site 3 (mkLoc 1 0 Outcrop) wv). split; [|reflexivity].
  unfold ran; cbn [k_motion k_layers k_waves]. split; [lra|]. split; [exact Hm|]. split; [exact rx_length|]. split; [reflexivity|].
  split; [lra|]. split; [discriminate|]. split; [exact re_sound|]. split; [reflexivity|]. now exists 10.
Qed.

(** C147: if no component of a transfer function is larger than g in magnitude, the sum
    of the squared samples of the response is at most g^2 times that of the padded
    record, and so is the square of its peak. *)
Theorem C147_energy : forall dt a fa m n rec tf ts g,
  new_motion dt a fa = Ok m -> fft_length (length a) fa n -> Z.even n = true ->
  is_padded (Z.to_nat n) a rec -> length tf = length (t_freqs m) -> calc_time_series m (Some (OArray tf)) = Ok ts ->
  List.Forall (fun t => Cmod t <= g) tf ->
  energy ts <= g ^ 2 * energy rec /\ (forall p, is_peak ts p -> p ^ 2 <= g ^ 2 * energy rec).
Proof. exact response_energy. Qed.
Print Assumptions C147_energy.
Example C147_energy_ex : exists m ts, new_motion 0.01 rx_rec (Some 4%Z) = Ok m /\
  let tf := repeat (RtoC (-2)) (length (t_freqs m)) in
  calc_time_series m (Some (OArray tf)) = Ok ts /\ List.Forall (fun t => Cmod t <= 2) tf.
Proof.
  destruct (proj2 (new_motion_defined 0.01 rx_rec (Some 4%Z))) as [m Hm]; [split; [lra|lia]|].
  destruct (response_spectrum 0.01 rx_rec 4 m (repeat (RtoC (-2)) (length (t_freqs m)))) as (ts & rec & H & _);
    [reflexivity|exact Hm|apply repeat_length|].
  exists m, ts. split; [exact Hm|]. split; [exact H|].
  apply List.Forall_forall. intros t Ht. apply repeat_spec in Ht. subst t. rewrite Cmod_R, Rabs_left; lra.
Qed.

(** C147: if no component is smaller than g and the first and last are real, it is at
    least g^2 times that of the record. *)
Theorem C147_energy_low : forall dt a fa m n rec tf ts g t0 t1,
  new_motion dt a fa = Ok m -> fft_length (length a) fa n -> Z.even n = true ->
  is_padded (Z.to_nat n) a rec -> length tf = length (t_freqs m) -> calc_time_series m (Some (OArray tf)) = Ok ts ->
  0 <= g -> List.Forall (fun t => g <= Cmod t) tf -> hd_error tf = Some t0 -> hd_error (rev tf) = Some t1 -> Im t0 = 0 -> Im t1 = 0 ->
  g ^ 2 * energy rec <= energy ts.
Proof. exact response_energy_low. Qed.
Print Assumptions C147_energy_low.

(** C147: so the acceleration series computed at the surface of a site with one damping
    ratio has at most the energy of the outcrop record times the square of the product
    of the impedance increases above, and its peak is bounded by this energy. *)
Theorem C147_surface : forall dt a fa n lsw K d i z f rec ts,
  ran dt a fa n lsw K -> same_damping d lsw ->
  k_input K = mkLoc i z Outcrop -> (i < length lsw)%nat -> 0 <= z -> f <> IncomingOnly ->
  is_padded (Z.to_nat n) a rec -> accel_series K (mkLoc 0 0 f) = Ok (Some ts) ->
  energy ts <= highest_gain (firstn (S i) lsw) ^ 2 * energy rec /\
  (forall p, is_peak ts p -> p ^ 2 <= highest_gain (firstn (S i) lsw) ^ 2 * energy rec).
Proof. exact surface_energy. Qed.
Print Assumptions C147_surface.
Example C147_surface_ex : exists K ts, ran 0.01 rx_rec None 4 re_site K /\ same_damping 0 re_site /\ k_input K = mkLoc 1 0 Outcrop /\
  accel_series K (mkLoc 0 0 Outcrop) = Ok (Some ts).
Proof.
  destruct re_ran as (K & HR & HI). exists K.
  destruct (outputs_defined 0.01 rx_rec None 4 re_site K (mkLoc 0 0 Outcrop) HR) as ((ts & Hts & _) & _);
    try (rewrite ?HI; cbn; first [lia|discriminate]). exists ts. split; [exact HR|]. split; [exact re_undamped|]. now split.
Qed.

(** The same site with layer values computed by hand, for low frequencies. *)
Definition lo_layers : list wlayer := cons (mkWL (RtoC 200) (RtoC 40000) 5) (cons (mkWL (RtoC 400) (RtoC 160000) 0) nil).
Lemma lo_ok : List.Forall (fun l => carries l /\ 0 <= wl_thick l) lo_layers /\ contrasts_within (3 / 2) lo_layers.
Proof.
  assert (N : forall x, x <> 0 -> RtoC x <> RtoC 0) by (intros x Hx; now apply RtoC_neq_0).
  split.
  - unfold lo_layers, carries. repeat (apply Forall_cons; [cbn; repeat split; try (apply N; lra); lra|]). apply Forall_nil.
  - exists (800 / 3). split; [lra|]. unfold lo_layers, cimpedance. cbn [wl_mod wl_vel].
    repeat (apply Forall_cons; [cbn [wl_mod wl_vel]; rewrite Cmod_div, !Cmod_R, !Rabs_pos_eq by (lra || (apply N; lra)); lra|]). apply Forall_nil.
Qed.

(** C150: with impedances within a factor r of each other, the acceleration transfer
    function between any two locations departs from 1 by at most 2 d / (1 - d), where d
    = r (exp ((1 + r) |w| T) - 1) and T is the travel time from the surface to the
    deeper of the two, whenever d < 1; the departure vanishes with the frequency. *)
Theorem C150_rigid : forall w r ls rs time,
  1e-8 < Rabs w -> 1 <= r -> List.Forall (fun l => carries l /\ 0 <= wl_thick l) ls -> contrasts_within r ls ->
  calc_waves_python w ls = Ok rs -> r * departure r w time < 1 ->
  forall i z f j y g, (i < length ls)%nat -> (j < length ls)%nat -> 0 <= z -> 0 <= y -> f <> IncomingOnly -> g <> IncomingOnly ->
  lag ls i z <= time -> lag ls j y <= time ->
  exists tf, calc_accel_tf rs (mkLoc i z f) (mkLoc j y g) = Ok (Some tf) /\
    Cmod (Cminus tf (RtoC 1)) <= 2 * (r * departure r w time) / (1 - r * departure r w time).
Proof. exact rigid_motion. Qed.
Print Assumptions C150_rigid.
Example C150_rigid_ex : exists rs, calc_waves_python 1 lo_layers = Ok rs /\ 1e-8 < Rabs 1 /\
  lag lo_layers 1 0 = 0.025 /\ lag lo_layers 0 5 = 0.025 /\ 3 / 2 * departure (3 / 2) 1 0.025 < 1.
Proof.
  eexists. split; [reflexivity|]. rewrite Rabs_pos_eq by lra. split; [lra|].
  assert (E : forall v t, 0 < v -> slowness (mkWL (RtoC v) (RtoC (v * v)) t) = / v).
  { intros v t Hv. unfold slowness. cbn [wl_vel]. rewrite <- RtoC_inv by lra. unfold Re, Im, RtoC. cbn [fst snd]. rewrite Rabs_R0, Rabs_pos_eq; [lra|].
    left. now apply Rinv_0_lt_compat. }
  assert (E1 : slowness (mkWL (RtoC 200) (RtoC 40000) 5) = / 200) by (replace 40000 with (200 * 200) by lra; apply E; lra).
  split; [|split].
  - unfold lag, lo_layers. cbn [firstn map nth_error wl_thick]. rewrite E1. cbn. lra.
  - unfold lag, lo_layers. cbn [firstn map nth_error]. rewrite E1. cbn. lra.
  - unfold departure. rewrite Rabs_pos_eq by lra. replace ((1 + 3 / 2) * (1 * 0.025)) with (0.0625) by lra.
    assert (exp 0.0625 <= 1.1); [|lra]. pose proof (exp_low (Ropp 0.0625)) as P. rewrite exp_Ropp in P. pose proof (exp_pos 0.0625) as Q.
    apply (Rmult_le_compat_l (exp 0.0625)) in P; [|lra]. rewrite Rinv_r in P by lra. lra.
Qed.
