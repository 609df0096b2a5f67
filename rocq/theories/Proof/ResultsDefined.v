(** The outputs of a run on a sound profile are all defined. *)
From Verif Require Import Common Model.Curve Model.Layer Model.Profile Model.Cplx Model.Waves Model.Eql.
From Verif Require Import Model.Averages Model.Output Model.Motion Model.Results.
From Verif Require Import Spec.ProfileSpec Spec.MotionSpec Spec.WaveSpec Spec.EqlSpec Spec.ResultsSpec.
From Verif Require Import Proof.CommonFacts Proof.MotionFacts Proof.MotionProps Proof.CplxFacts Proof.WaveFacts Proof.WaveProps Proof.WaveEnergy
  Proof.CurveFacts Proof.EqlFacts Proof.EqlProps Proof.EqlPhysical Proof.EqlResults Proof.ResultsProps Proof.ResultsRuns.
From Coquelicot Require Import Complex.
Local Open Scope R_scope.

Lemma wave_any_field rs i z f x : wave_at_location rs (mkLoc i z Outcrop) = Ok (Some x) ->
  exists y, wave_at_location rs (mkLoc i z f) = Ok (Some y).
Proof.
  unfold wave_at_location; cbn [loc_index loc_within loc_field]. destruct (nth_error rs i) as [r|]; [|discriminate].
  unfold wave_at. destruct (r_k r); [|discriminate]. intros _. now eexists.
Qed.

Lemma tfs_defined dt a fa n lsw K lin lout : ran dt a fa n lsw K ->
  (loc_index lin < length lsw)%nat -> loc_field lin <> Within -> (loc_index lout < length lsw)%nat ->
  exists t, accel_tfs K lin lout = Ok (map Some t) /\ length t = length (t_freqs (k_motion K)) /\
    (loc_field lin <> IncomingOnly -> loc_field lout <> IncomingOnly -> nth_error t 0 = Some (RtoC 1)).
Proof.
  intros (Hdt & Hm & Hn & He & Hl & Hne & HF & HL & v & Hw) Hi Hf Ho.
  pose proof (clear_record dt a fa _ n v Hdt Hm Hn Hl) as Hc.
  assert (Mi : moves (k_waves K) lin) by (apply (motion_everywhere _ lsw _ _ Hne HF Hc Hw Hi); intros; contradiction).
  assert (Mo : moves (k_waves K) (mkLoc (loc_index lout) (loc_within lout) Outcrop))
    by (apply (motion_everywhere _ lsw _ _ Hne HF Hc Hw); [exact Ho|cbn; discriminate]).
  unfold accel_tfs. rewrite HL, (proj2 (Nat.ltb_lt _ _) Ho), (proj2 (Nat.ltb_lt _ _) Hi). cbn [andb].
  assert (HM : exists t, mapM (fun rs => calc_accel_tf rs lin lout) (k_waves K) = Ok (map Some t)).
  { unfold moves in *. clear Hw. induction (k_waves K) as [|rs W IH]; cbn [mapM]; [now exists []|].
    inversion Mi as [|? ? (x & Ex & Nx) Mi']; inversion Mo as [|? ? (y & Ey & _) Mo']; subst.
    destruct (IH Mi' Mo') as (t & Et). destruct lout as [io zo fo]. cbn [loc_index loc_within] in *.
    destruct (wave_any_field rs io zo fo y Ey) as (z & Ez).
    rewrite (tf_some rs lin _ z x Ez Ex Nx), Et. cbn [bind]. now exists (Cdiv z x :: t). }
  destruct HM as (t & Et). exists t. split; [exact Et|].
  destruct (mapM_nth _ _ _ Et) as [HLt HN]. rewrite map_length in HLt. pose proof (waves_length _ _ _ _ Hw) as HW.
  split; [congruence|]. intros Fi Fo.
  destruct (mapM_nth _ _ _ Hw) as [HLw HNw].
  destruct (new_motion_inv _ _ _ _ Hm) as (n' & _ & H1 & _ & _ & _ & _ & EF).
  assert (E0 : nth_error (t_freqs (k_motion K)) 0 = Some 0).
  { destruct (frequency_step _ _ _ _ Hm) as (n2 & _ & HS).
    destruct (t_freqs (k_motion K)) as [|f0 fs] eqn:Ef; [exfalso; now apply (freqs_nonempty _ _ _ _ Hm)|].
    cbn. f_equal. rewrite (HS 0%nat f0 eq_refl). cbn. unfold Rdiv. ring. }
  assert (Ew0 : nth_error (m_freqs (as_motion (k_motion K) v)) 0 = Some 0).
  { cbn [as_motion m_freqs]. unfold angular_freqs. rewrite (map_nth_error _ _ _ E0). f_equal. ring. }
  destruct (HNw 0%nat 0 Ew0) as (rs0 & En & Er).
  destruct (numba_sound 0 lsw Hne HF (or_introl eq_refl)) as (rs2 & F1 & F2). assert (rs2 = rs0) by congruence. subst rs2.
  destruct (HN 0%nat rs0 Er) as (o & Eo & Ot).
  rewrite (zero_frequency (map wlayer_of lsw) rs0) in Eo; try assumption; rewrite ?map_length; try assumption.
  - apply Ok_inj in Eo. subst o. destruct t as [|z t]; [discriminate|]. cbn in Ot |- *. now injection Ot as ->.
  - apply Forall_forall. intros x Hx. apply in_map_iff in Hx. destruct Hx as (l & <- & Hin).
    rewrite Forall_forall in HF. now apply sound_vel, HF.
Qed.

(** Twice the time series: the record at even FFT lengths always answers. *)
Lemma series_defined dt a fa n lsw K t : ran dt a fa n lsw K -> length t = length (t_freqs (k_motion K)) ->
  exists ts rec, calc_time_series (k_motion K) (Some (OArray t)) = Ok ts /\ is_padded (Z.to_nat n) a rec /\ length ts = Z.to_nat n /\
  forall k z x y, nth_error t k = Some z -> fourier_sum rec k x -> fourier_sum ts k y ->
    Re y = Re (Cmult z x) /\ Im y = if (Nat.eqb k 0 || Nat.eqb (2 * k) (length ts))%bool then 0 else Im (Cmult z x).
Proof.
  intros (Hdt & Hm & Hn & He & Hl & Hne & HF & HL & v & Hw) Ht.
  exact (response_spectrum dt a n _ t He (length_given _ _ _ _ _ Hm Hn) Ht).
Qed.

Lemma osc_defined dt a fa n lsw K t xi fs : ran dt a fa n lsw K -> length t = length (t_freqs (k_motion K)) ->
  exists ps, calc_osc_accels (k_motion K) fs xi (Some t) = Ok ps /\ length ps = length fs /\
  forall i f0 p, nth_error fs i = Some f0 -> nth_error ps i = Some p ->
    exists ts, calc_time_series (k_motion K) (Some (OArray (map2 Cmult t (map (sdof_tf f0 xi) (t_freqs (k_motion K)))))) = Ok ts /\ is_peak ts p.
Proof.
  intros HR Ht. set (m := k_motion K) in *.
  assert (H1 : forall f0, exists p ts, osc_accel m xi (Some t) f0 = Ok p /\
     calc_time_series m (Some (OArray (map2 Cmult t (map (sdof_tf f0 xi) (t_freqs m))))) = Ok ts /\ is_peak ts p).
  { intros f0. assert (LX : length (map2 Cmult t (map (sdof_tf f0 xi) (t_freqs m))) = length (t_freqs m))
      by (rewrite map2_len; rewrite ?map_length; assumption).
    destruct (series_defined dt a fa n lsw K _ HR LX) as (ts & rec & E & _ & L & _). fold m in E.
    exists (peak_of ts), ts. split; [|split; [exact E|]].
    - unfold osc_accel, np_mul. rewrite map_length, Ht, Nat.eqb_refl. cbn [bind]. unfold calc_peak. now rewrite E.
    - apply peak_of_spec. exact (series_nonempty _ _ _ E). }
  induction fs as [|f0 fs IH]; cbn [calc_osc_accels].
  - exists []. split; [reflexivity|]. split; [reflexivity|]. intros [|i]; discriminate.
  - destruct IH as (ps & Ep & Lp & Hp). destruct (H1 f0) as (p & ts & E1 & E2 & E3). rewrite E1, Ep. cbn [bind].
    exists (p :: ps). split; [reflexivity|]. split; [cbn; now rewrite Lp|]. intros [|i] g r Hg Hr.
    + injection Hg as <-. injection Hr as <-. now exists ts.
    + now apply (Hp i).
Qed.

Theorem outputs_defined dt a fa n lsw K loc : ran dt a fa n lsw K ->
  (loc_index (k_input K) < length lsw)%nat -> loc_field (k_input K) <> Within -> (loc_index loc < length lsw)%nat ->
  (exists ts, accel_series K loc = Ok (Some ts) /\ length ts = Z.to_nat n) /\
  (forall fs, exists vs, fourier_spectrum K None fs loc = Ok (Some vs) /\ length vs = length fs) /\
  (forall xi fs, exists ps, response_spectrum_at K xi fs loc = Ok (Some ps) /\ length ps = length fs) /\
  (forall fs, exists vs, transfer_function K None fs (k_input K) loc = Ok (Some vs) /\ length vs = length fs) /\
  (loc_field loc = Within -> forall pct, exists ts, strain_series K pct loc = Ok ts /\ length ts = Z.to_nat n) /\
  (loc_field loc = Within -> forall damped, exists ts, stress_series K damped false loc = Ok (Some ts) /\ length ts = Z.to_nat n).
Proof.
  intros HR Hi Hf Ho. destruct (tfs_defined dt a fa n lsw K _ loc HR Hi Hf Ho) as (t & Et & Lt & _).
  assert (HS : loc_field loc = Within -> exists s, strain_tfs K loc = Ok s /\ length s = length (t_freqs (k_motion K))).
  { intros Hw. destruct HR as (Hdt & Hm & Hn & He & Hl & Hne & HF & HL & v & Hwv). destruct loc as [i z f]. cbn [loc_field loc_index] in *. subst f.
    destruct (strain_sound (as_motion (k_motion K) v) lsw _ (k_input K) i z Hne HF (clear_record dt a fa _ n v Hdt Hm Hn Hl) Hwv Hi Hf Ho) as (s & Es & Ls).
    exists s. unfold strain_tfs. rewrite HL. split; [exact Es|]. rewrite Ls. cbn. unfold angular_freqs. now rewrite map_length. }
  assert (HRs : forall fs ys, length ys = length (t_freqs (k_motion K)) ->
     exists vs, resample None fs (t_freqs (k_motion K)) ys = Ok vs /\ length vs = length fs).
  { intros fs ys Ly. destruct HR as (Hdt & Hm & _).
    destruct (resample_read_off dt a fa _ fs ys Hdt Hm Ly) as (vs & E & L & _). now exists vs. }
  repeat split.
  - unfold accel_series. rewrite Et. cbn [bind]. rewrite finite_some.
    destruct (series_defined dt a fa n lsw K t HR Lt) as (ts & _ & -> & _ & L & _). now exists ts.
  - intros fs. unfold fourier_spectrum. rewrite Et. cbn [bind]. rewrite finite_some.
    assert (LF : length (fourier_amps (k_motion K)) = length t).
    { destruct HR as (Hdt & Hm & Hn & He & _). destruct (frequency_count _ _ _ _ (length_given _ _ _ _ _ Hm Hn)) as (n' & E & _ & HA & HFr & _). cbn in E. subst n'.
      unfold fourier_amps. rewrite map_length, Lt. symmetry. exact (proj2 HFr He). }
    unfold np_mul. rewrite <- LF, Nat.eqb_refl. cbn [bind].
    destruct (HRs fs (map Cmod (map2 Cmult t (fourier_amps (k_motion K))))) as (vs & -> & L).
    + rewrite map_length, map2_len; congruence.
    + now exists vs.
  - intros xi fs. unfold response_spectrum_at. rewrite Et. cbn [bind]. rewrite finite_some.
    destruct (osc_defined dt a fa n lsw K t xi fs HR Lt) as (ps & -> & L & _). now exists ps.
  - intros fs. unfold transfer_function. rewrite Et. cbn [bind]. rewrite finite_some.
    destruct (HRs fs (map Cmod t)) as (vs & -> & L); [now rewrite map_length|]. now exists vs.
  - intros Hw pct. destruct (HS Hw) as (s & Es & Ls). unfold strain_series. rewrite Es. cbn [bind].
    destruct (series_defined dt a fa n lsw K s HR Ls) as (ts & _ & -> & _ & L & _). cbn [bind]. eexists. split; [reflexivity|].
    destruct pct; [now rewrite map_length|exact L].
  - intros Hw damped. destruct (HS Hw) as (s & Es & Ls). unfold stress_series, stress_tfs.
    destruct (nth_error (k_layers K) (loc_index loc)) as [l|] eqn:El.
    2:{ apply nth_error_None in El. destruct HR as (_ & _ & _ & _ & _ & _ & _ & HL & _). lia. }
    rewrite Es. cbn [bind]. rewrite finite_some.
    destruct (series_defined dt a fa n lsw K (map (fun z => Cmult z (if damped then comp_shear_mod l else RtoC (shear_mod l))) s) HR ltac:(now rewrite map_length))
      as (ts & _ & -> & _ & L & _). now exists ts.
Qed.

(** A record whose samples do not add up to zero has a response spectrum without zeros. *)
Theorem spectrum_nonzero dt a fa n lsw K loc xi fs : ran dt a fa n lsw K ->
  (loc_index (k_input K) < length lsw)%nat -> loc_field (k_input K) = Outcrop -> (loc_index loc < length lsw)%nat ->
  loc_field loc <> IncomingOnly -> 0 < xi -> List.Forall (fun f => 0 < f) fs ->
  (forall rec, is_padded (Z.to_nat n) a rec -> Rsum rec <> 0) ->
  exists ps, response_spectrum_at K xi fs loc = Ok (Some ps) /\ List.Forall (fun p => 0 < p) ps.
Proof.
  intros HR Hi Hf Ho Hfo Hx Hfs Hs.
  destruct (tfs_defined dt a fa n lsw K _ loc HR Hi ltac:(congruence) Ho) as (t & Et & Lt & T0).
  specialize (T0 ltac:(congruence) Hfo).
  destruct (osc_defined dt a fa n lsw K t xi fs HR Lt) as (ps & Ep & L & HP).
  exists ps. unfold response_spectrum_at. rewrite Et. cbn [bind]. rewrite finite_some, Ep. split; [reflexivity|].
  apply Forall_forall. intros p Hp. apply In_nth_error in Hp. destruct Hp as [i Hp].
  destruct (nth_error fs i) as [f0|] eqn:Ef.
  2:{ apply nth_error_None in Ef. assert (i < length ps)%nat by (apply nth_error_Some; congruence). lia. }
  destruct (HP i f0 p Ef Hp) as (ts & Ets & Pk).
  rewrite Forall_forall in Hfs. pose proof (Hfs f0 (nth_error_In _ _ Ef)) as Hf0.
  set (X := map2 Cmult t (map (sdof_tf f0 xi) (t_freqs (k_motion K)))) in *.
  assert (LX : length X = length (t_freqs (k_motion K))) by (unfold X; rewrite map2_len; rewrite ?map_length; assumption).
  destruct (series_defined dt a fa n lsw K X HR LX) as (ts' & rec & Ets' & Prec & Lts & HS).
  assert (ts' = ts) by congruence. subst ts'.
  assert (X0 : nth_error X 0 = Some (RtoC 1)).
  { unfold X. destruct HR as (Hdt & Hm & _). destruct (frequency_step _ _ _ _ Hm) as (n2 & _ & HSt).
    destruct (t_freqs (k_motion K)) as [|g gs] eqn:Eg; [exfalso; now apply (freqs_nonempty _ _ _ _ Hm)|].
    destruct t as [|z t]; [discriminate|]. cbn in T0. injection T0 as ->.
    unfold map2. cbn. rewrite (HSt 0%nat g eq_refl). replace (INR 0 / (IZR n2 * dt)) with 0 by (cbn; unfold Rdiv; ring).
    rewrite (sdof_zero f0 xi Hf0 Hx). now rewrite Cmult_1_r. }
  assert (FS : forall xs, fourier_sum xs 0 (RtoC (Rsum xs))).
  { intros xs. unfold fourier_sum. cbv zeta.
    assert (Z : forall j, 2 * PI * INR j * INR 0 / INR (length xs) = 0) by (intros j; cbn; unfold Rdiv; ring).
    assert (M1 : map (fun j => nth j xs 0 * cos (2 * PI * INR j * INR 0 / INR (length xs))) (seq 0 (length xs)) = xs).
    { apply (nth_ext _ _ 0 0); [now rewrite map_length, seq_length|]. intros k Hk. rewrite map_length, seq_length in Hk.
      rewrite (nth_indep _ 0 (nth 0%nat xs 0 * cos (2 * PI * INR 0 * INR 0 / INR (length xs)))) by (now rewrite map_length, seq_length).
      rewrite (map_nth (fun j => nth j xs 0 * cos (2 * PI * INR j * INR 0 / INR (length xs)))).
      rewrite seq_nth by exact Hk. rewrite Z, cos_0. cbn. ring. }
    rewrite M1. unfold RtoC. f_equal.
    assert (M2 : forall ks, Rsum (map (fun j => nth j xs 0 * sin (2 * PI * INR j * INR 0 / INR (length xs))) ks) = 0).
    { induction ks as [|k ks IH]; [reflexivity|]. cbn [map]. rewrite Rsum_cons, IH, Z, sin_0. ring. }
    rewrite M2. ring. }
  destruct (HS 0%nat _ _ _ X0 (FS rec) (FS ts)) as [HRe _]. rewrite Cmult_1_l in HRe. cbn in HRe.
  assert (Hts : Rsum ts <> 0) by (rewrite HRe; exact (Hs rec Prec)).
  destruct Pk as [(x & _ & ->) Pk2].
  destruct (Rabs_pos x) as [Hp0|Hp0]; [exact Hp0|]. exfalso. apply Hts.
  assert (Z : forall y, In y ts -> y = 0).
  { intros y Hy. specialize (Pk2 y Hy). rewrite <- Hp0 in Pk2. pose proof (Rabs_pos y).
    destruct (Req_dec y 0) as [->|N]; [reflexivity|]. pose proof (Rabs_pos_lt y N). lra. }
  clear -Z. induction ts as [|y ts IH]; [reflexivity|]. rewrite Rsum_cons, (Z y (or_introl eq_refl)), IH; [ring|]. intros z Hz. apply Z. now right.
Qed.
