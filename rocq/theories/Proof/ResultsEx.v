(** A small world for the examples about results at a location. *)
From Verif Require Import Common Model.Curve Model.Layer Model.Profile Model.Cplx Model.Waves Model.Eql.
From Verif Require Import Model.Averages Model.Output Model.Motion Model.Results.
From Verif Require Import Spec.LayerSpec Spec.ProfileSpec Spec.MotionSpec Spec.WaveSpec Spec.EqlSpec Spec.ResultsSpec.
From Verif Require Import Proof.MotionProps Proof.EqlFacts Proof.EqlProps Proof.EqlPhysical Proof.EqlResults Proof.EqlRefute Proof.EqlKeeps
  Proof.ResultsProps Proof.ResultsRuns Proof.ResultsDefined.
From Coq Require Import String List.
From Coquelicot Require Import Complex.
Local Open Scope R_scope.

(** Three samples at 0.01 s, FFT length 4. *)
Definition rx_rec : list R := [1; -2; 3].
Lemma rx_length : fft_length (length rx_rec) None 4.
Proof.
  split; [lia|]. split; [now exists 2%nat|].
  split; [cbn; lia|]. intros [|[|j]] Hj; cbn in Hj; try lia. cbn [Nat.pow]. assert (2 ^ j <> 0)%nat by (apply Nat.pow_nonzero; lia). lia.
Qed.
Lemma rx_motion : exists m, new_motion 0.01 rx_rec None = Ok m.
Proof. apply new_motion_defined. split; [lra|exact I]. Qed.
Lemma rx_scaled c : exists m, new_motion 0.01 (map (Rmult c) rx_rec) None = Ok m.
Proof. apply new_motion_defined. split; [lra|exact I]. Qed.

(** Ten metres of soil with 5 percent damping, 100 kPa of overburden at its base. *)
Definition rx_site : list layer :=
  [layer_make (mkSoil 0 "soil"%string 10 None (DConst 0.05)) 10 200 0.05;
   let r := layer_make (mkSoil 0 "rock"%string 22 None (DConst 0.01)) 0 800 0.01 in
   mkLayer (l_soil r) (l_thick r) 10 100 (l_vs r) (l_dmin r) (l_G r) (l_D r) (l_strain r) (l_smax r) (l_prof r)].
Lemma rx_sound : List.Forall sound rx_site.
Proof.
  unfold rx_site. cbv zeta. constructor; [|constructor; [|constructor]];
    unfold sound, shear_mod, layer_make, layer_reset, initial_shear_mod, density, iter_new, GRAVITY; cbn; lra.
Qed.
Lemma rx_physical : List.Forall physical rx_site.
Proof.
  unfold rx_site. cbv zeta. constructor; [|constructor; [|constructor]];
    unfold physical, positive_modulus, layer_make, layer_reset; cbn; repeat split; try exact I; lra.
Qed.
Lemma rx_ran lin wt : exists K, ran 0.01 rx_rec None 4 rx_site K /\ k_layers K = rx_site /\ k_input K = lin /\ k_wt K = wt.
Proof.
  destruct rx_motion as [m Hm].
  destruct (waves_sound (as_motion m 10) rx_site ltac:(discriminate) rx_sound
    (clear_record 0.01 rx_rec None m 4 10 ltac:(lra) Hm rx_length ltac:(lra))) as [wv Hw].
  exists (mkCalc m rx_site wt lin wv). split; [|now repeat split].
  unfold ran; cbn [k_motion k_layers k_waves]. split; [lra|]. split; [exact Hm|]. split; [exact rx_length|]. split; [reflexivity|].
  split; [lra|]. split; [discriminate|]. split; [exact rx_sound|]. split; [reflexivity|]. now exists 10.
Qed.
Lemma rx_sum rec : is_padded (Z.to_nat 4) rx_rec rec -> Rsum rec <> 0.
Proof.
  intros [L H]. change (Z.to_nat 4) with 4%nat in *. destruct rec as [|a [|b [|c [|d [|e r]]]]]; try discriminate L.
  pose proof (H 0%nat ltac:(lia)) as H0. pose proof (H 1%nat ltac:(lia)) as H1. pose proof (H 2%nat ltac:(lia)) as H2. pose proof (H 3%nat ltac:(lia)) as H3.
  cbn in H0, H1, H2, H3. injection H0 as ->. injection H1 as ->. injection H2 as ->. injection H3 as ->. cbn. lra.
Qed.
Lemma rx_spectra lin : lin = mkLoc 1 0 Outcrop -> exists K xa xb xc,
  ran 0.01 rx_rec None 4 rx_site K /\ k_input K = lin /\
  response_spectrum_at K 0.05 [1; 10] lin = Ok (Some xa) /\ response_spectrum_at K 0.05 [1; 10] (mkLoc 0 5 Within) = Ok (Some xb) /\
  response_spectrum_at K 0.05 [1; 10] (mkLoc 0 0 Outcrop) = Ok (Some xc) /\
  List.Forall (fun x => x <> 0) xa /\ List.Forall (fun x => x <> 0) xb.
Proof.
  intros ->. destruct (rx_ran (mkLoc 1 0 Outcrop) 100) as (K & HR & HL & HI & _).
  assert (Hf : List.Forall (fun f => 0 < f) [1; 10]) by (repeat constructor; lra).
  assert (Hn : forall xs, List.Forall (fun p => 0 < p) xs -> List.Forall (fun p => p <> 0) xs)
    by (intros xs; apply Forall_impl; intros; lra).
  assert (HS : forall loc, (loc_index loc < 2)%nat -> loc_field loc <> IncomingOnly ->
    exists ps, response_spectrum_at K 0.05 [1; 10] loc = Ok (Some ps) /\ List.Forall (fun p => 0 < p) ps).
  { intros loc Hl Hlf. apply (spectrum_nonzero 0.01 rx_rec None 4 rx_site K loc 0.05 [1; 10] HR); rewrite ?HI; cbn [loc_index loc_field]; try assumption; try lra; try reflexivity.
    - cbn; lia.
    - apply rx_sum. }
  destruct (HS (mkLoc 1 0 Outcrop)) as (xa & Ea & Pa); cbn; [lia|discriminate|].
  destruct (HS (mkLoc 0 5 Within)) as (xb & Eb & Pb); cbn; [lia|discriminate|].
  destruct (HS (mkLoc 0 0 Outcrop)) as (xc & Ec & Pc); cbn; [lia|discriminate|].
  exists K, xa, xb, xc. split; [exact HR|]. split; [exact HI|]. split; [exact Ea|]. split; [exact Eb|]. split; [exact Ec|]. split; auto.
Qed.

(** An equivalent-linear run. *)
Definition rx_params : eql_params := mkEql 0.65 0.01 15 None.
Lemma rx_run ls : ls <> [] -> List.Forall physical ls -> exists m t stop ls' wv, new_motion 0.01 rx_rec None = Ok m /\
  eql_call rx_params (as_motion m 10) soft_input true ls = (t, Ok (stop, ls', wv)).
Proof.
  intros Hne HF. destruct rx_motion as [m Hm].
  destruct (eql_record 0.01 rx_rec None m 4 10 rx_params soft_input ls ltac:(lra) Hm rx_length eq_refl ltac:(lra) Hne HF
    ltac:(destruct ls; [contradiction|cbn; lia]) ltac:(discriminate) ltac:(intros x [H _]; discriminate)) as (t & stop & ls' & wv & E).
  now exists m, t, stop, ls', wv.
Qed.
(** Its cyclic stress ratios, for a water table at 3 m. *)
Lemma rx_csr : exists m t stop ls' wv vs l s, new_motion 0.01 rx_rec None = Ok m /\
  eql_call rx_params (as_motion m 10) soft_input true rx_site = (t, Ok (stop, ls', wv)) /\
  csr_values (combine ls' (map (fun l => effective_stress 3 l (l_thick l / 2)) ls')) = Ok vs /\
  nth_error ls' 0 = Some l /\ (1 < length ls')%nat /\ 0 <= shear_mod l /\ effective_stress 3 l (l_thick l / 2) = Ok s /\ 0 < s.
Proof.
  destruct (rx_run rx_site ltac:(discriminate) rx_physical) as (m & t & stop & ls' & wv & Hm & E).
  destruct (eql_keeps _ _ _ _ _ _ _ E) as [_ K]. specialize (K _ _ _ eq_refl).
  destruct (eql_strain_series rx_params m 10 soft_input true rx_site t stop ls' wv 3 ltac:(discriminate) E 0%nat) with (l := match ls' with l :: _ => l | [] => layer_make stiff_soil 0 0 0 end) as (mx & ts & Hx & _).
  { apply (f_equal (@length _)) in K. rewrite !map_length in K. rewrite K. cbn. lia. }
  { destruct ls'; [discriminate K|reflexivity]. }
  destruct ls' as [|l [|b [|c ls']]]; try discriminate K. unfold rx_site in K. cbv zeta in K. cbn [map] in K.
  unfold description in K. cbn [l_soil l_thick l_depth l_svert l_vs l_dmin l_prof layer_make layer_reset] in K. injection K as K1 K2 K3 K4 _ _ _ _ _ _ _ _ _.
  assert (ES : effective_stress 3 l (l_thick l / 2) = Ok (50 - 2 * GRAVITY)).
  { unfold effective_stress, stress_vert_total, pore_pressure. rewrite K1, K2, K3, K4. unfold Rleb. destruct (Rle_dec (10 / 2) 10); [|lra].
    cbn [bind s_unit_wt]. f_equal. rewrite Rmax_left by (unfold GRAVITY; lra). unfold GRAVITY. lra. }
  assert (Ht : t <> []).
  { destruct (eql_stops _ _ _ _ _ _ _ E) as [_ HS]. destruct stop; [destruct HS as (t0 & st & -> & _); now destruct t0|].
    destruct HS as [HS _]. intros ->. discriminate HS. }
  destruct (eql_compatible rx_params _ soft_input true rx_site t stop _ wv ltac:(discriminate) ltac:(discriminate) Ht E) as [_ HC].
  destruct (HC 0%nat _ ltac:(cbn; lia) eq_refl) as (l2 & mx2 & El & _ & _ & _ & _ & Sx & _ & EG & _). injection El as <-.
  assert (HG : 0 <= shear_mod l).
  { rewrite EG. unfold spec_G, soil_behaviour, density, GRAVITY. cbn. lra. }
  do 8 eexists. split; [exact Hm|]. split; [exact E|]. split.
  { cbn [map combine]. unfold csr_values. cbn [removelast csr_entries]. unfold csr_entry, stress_shear_max. rewrite Sx, ES. cbn [option_map bind].
    unfold Reqb. destruct (Req_EM_T _ _) as [Z|]; [unfold GRAVITY in Z; lra|reflexivity]. }
  split; [reflexivity|]. split; [cbn; lia|]. split; [exact HG|]. split; [exact ES|]. unfold GRAVITY. lra.
Qed.

(** On a physical profile the normalised stress is not defined at the surface, nor
    inside the half-space. *)
Lemma normalised_refuted : exists K, ran 0.01 rx_rec None 4 rx_site K /\ k_layers K = rx_site /\ 0 <= k_wt K /\
  k_input K = mkLoc 1 0 Outcrop /\
  (forall ts, stress_series K false true (mkLoc 0 0 Within) <> Ok (Some ts)) /\
  stress_series K false true (mkLoc 1 1 Within) = Err AssertionError /\
  exists ts, stress_series K false false (mkLoc 1 1 Within) = Ok (Some ts).
Proof.
  destruct (rx_ran (mkLoc 1 0 Outcrop) 100) as (K & HR & HL & HI & HW). exists K.
  assert (Hwv : k_waves K <> []).
  { destruct HR as (_ & Hm & _ & _ & _ & _ & _ & _ & v & Hw). pose proof (waves_length _ _ _ _ Hw) as E. intros Z. rewrite Z in E.
    apply (freqs_nonempty _ _ _ _ Hm). now destruct (t_freqs (k_motion K)). }
  assert (Hfr : t_freqs (k_motion K) <> []) by (destruct HR as (_ & Hm & _); exact (freqs_nonempty _ _ _ _ Hm)).
  destruct (outputs_defined 0.01 rx_rec None 4 rx_site K (mkLoc 1 1 Within) HR) as (_ & _ & _ & _ & _ & HSS);
    try (rewrite ?HI; cbn; first [lia|discriminate]).
  destruct (HSS eq_refl false) as (ts & Hts & _).
  split; [exact HR|]. split; [exact HL|]. split; [rewrite HW; lra|]. split; [exact HI|]. split.
  { eapply normalised_surface; try (rewrite ?HL, ?HW); try reflexivity; try assumption; cbn; lra. }
  split; [|now exists ts].
  assert (Ht : exists t, strain_tfs K (mkLoc 1 1 Within) = Ok t).
  { unfold stress_series in Hts. rewrite HL in Hts. cbn [nth_error loc_index rx_site] in Hts. unfold stress_tfs in Hts.
    destruct (strain_tfs K (mkLoc 1 1 Within)) as [t|]; [now exists t|discriminate]. }
  destruct Ht as [t Ht]. eapply normalised_below; [rewrite HL; reflexivity| |exact Ht]. cbn. lra.
Qed.

Lemma rx_depths : depths_cumulative rx_site.
Proof.
  intros above l below E. destruct above as [|a [|b [|c above]]]; cbn [app] in E; unfold rx_site in E; cbv zeta in E.
  - injection E as <- _. reflexivity.
  - injection E as <- <- _. cbn. lra.
  - discriminate E.
  - discriminate E.
Qed.
Lemma rx_max_accel : exists K vs, ran 0.01 rx_rec None 4 rx_site K /\ depths_cumulative (k_layers K) /\
  List.Forall (fun x => 0 < l_thick x) (removelast (k_layers K)) /\ max_accel_values K = Ok vs.
Proof.
  destruct (rx_ran (mkLoc 1 0 Outcrop) 3) as (K & HR & HL & HI & _). exists K.
  assert (HA : forall i, (i < 2)%nat -> exists p, bind (accel_tfs K (k_input K) (mkLoc i 0 Within)) (fun tfs =>
    finite tfs (fun t => calc_peak (k_motion K) (Some (OArray t)))) = Ok p).
  { intros i Hi. destruct (tfs_defined 0.01 rx_rec None 4 rx_site K (k_input K) (mkLoc i 0 Within) HR) as (t & -> & Lt & _);
      try (rewrite ?HI; cbn; first [lia|discriminate]). cbn [bind]. rewrite finite_some.
    destruct (series_defined 0.01 rx_rec None 4 rx_site K t HR Lt) as (ts & _ & Ets & _). unfold calc_peak. rewrite Ets. now eexists. }
  assert (HP : List.Forall (fun x => 0 < l_thick x) (removelast rx_site)) by (cbn; constructor; [cbn; lra|constructor]).
  destruct (HA 0%nat ltac:(lia)) as [p0 E0]. destruct (HA 1%nat ltac:(lia)) as [p1 E1].
  exists [p0; p1]. rewrite HL. split; [exact HR|]. split; [exact rx_depths|]. split; [exact HP|].
  unfold max_accel_values. rewrite HL.
  assert (PD : forall above l below p, rx_site = above ++ l :: below ->
    bind (accel_tfs K (k_input K) (mkLoc (length above) 0 Within)) (fun tfs => finite tfs (fun t => calc_peak (k_motion K) (Some (OArray t)))) = Ok p ->
    peak_at_depth K (l_depth l) = Ok p).
  { intros above l below p E Hp. unfold peak_at_depth. rewrite HL, (top_location rx_site above l below rx_depths HP E). exact Hp. }
  remember rx_site as ls eqn:Els. destruct ls as [|l [|b [|c ls]]]; try discriminate Els.
  unfold top_refs. cbn [map accel_values].
  rewrite (PD [] l [b] p0 eq_refl E0), (PD [l] b [] p1 eq_refl E1). reflexivity.
Qed.
