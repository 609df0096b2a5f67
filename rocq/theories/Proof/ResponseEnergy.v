(** Bounds of the energy and of the peak of responses. *)
From Verif Require Import Common Model.Layer Model.Averages Model.Output Model.Motion Model.Waves Model.Eql Model.Results
  Spec.OutputSpec Spec.MotionSpec Spec.WaveSpec Spec.EqlSpec
  Spec.ResultsSpec Spec.IntensitySpec Proof.CommonFacts Proof.CurveFacts Proof.WaveFacts Proof.WaveProps Proof.OutputValues Proof.MotionFacts
  Proof.MotionProps Proof.EqlFacts Proof.EqlProps Proof.EqlPhysical Proof.ResultsProps Proof.ResultsRuns Proof.ResultsDefined Proof.IntensityProps Proof.WaveBounds.
From Coquelicot Require Import Coquelicot.
Local Open Scope R_scope.

Lemma Cmod_parts (z : C) : Cmod z ^ 2 = Re z * Re z + Im z * Im z.
Proof. unfold Cmod. rewrite <- Rsqr_pow2, Rsqr_sqrt by (apply Rplus_le_le_0_compat; apply pow2_ge_0). unfold Re, Im. ring. Qed.
Lemma fourier_sum_dft xs k h : length xs = (2 * h)%nat -> fourier_sum xs k (dft (2 * h) xs k).
Proof. intros L. unfold fourier_sum. cbv zeta. rewrite L. reflexivity. Qed.

Lemma Rsum_le {A} (f g : A -> R) xs : (forall x, In x xs -> f x <= g x) -> Rsum (map f xs) <= Rsum (map g xs).
Proof.
  induction xs as [|x xs IH]; intros H; [cbn; lra|]. cbn [map]. rewrite !Rsum_cons.
  apply Rplus_le_compat; [apply H; now left|apply IH; intros y Hy; apply H; now right].
Qed.

(** The squared Fourier sums of a response against those of the record. *)
Lemma response_lines dt a fa m n rec tf ts : new_motion dt a fa = Ok m -> fft_length (length a) fa n -> Z.even n = true ->
  is_padded (Z.to_nat n) a rec -> length tf = length (t_freqs m) -> calc_time_series m (Some (OArray tf)) = Ok ts ->
  exists h, (1 <= h)%nat /\ Z.to_nat n = (2 * h)%nat /\ length tf = S h /\ length ts = (2 * h)%nat /\ length rec = (2 * h)%nat /\
  forall k t, nth_error tf k = Some t ->
    let x := dft (2 * h) rec k in let z := dft (2 * h) ts k in
    Re z = Re (Cmult t x) /\ Im z = if (Nat.eqb k 0 || Nat.eqb k h)%bool then 0 else Im (Cmult t x).
Proof.
  intros H Hn He Hp HL Hts. destruct (even_motion _ _ _ _ _ H Hn He) as (h & Hh & En & EI & Hd & Ed & EA & EF).
  destruct (response_spectrum dt a n m tf He (length_given _ _ _ _ _ H Hn) HL) as (ts' & rec' & E & Hp' & L & HS).
  assert (ts' = ts) by congruence. subst ts'. rewrite (is_padded_unique _ _ _ _ Hp' Hp) in HS. clear rec' Hp'.
  assert (LT : length tf = S h) by (rewrite HL, EF, map_length, seq_length; reflexivity).
  assert (LR : length rec = (2 * h)%nat) by (destruct Hp as [G _]; congruence).
  rewrite En in L. exists h. repeat (split; [assumption|]). intros k t Ht x z.
  destruct (HS k t x z Ht (fourier_sum_dft _ _ _ LR) (fourier_sum_dft _ _ _ L)) as [A B]. split; [exact A|]. rewrite B, L.
  replace (Nat.eqb (2 * k) (2 * h)) with (Nat.eqb k h); [reflexivity|].
  destruct (Nat.eqb_spec k h), (Nat.eqb_spec (2 * k) (2 * h)); try reflexivity; lia.
Qed.

Lemma energy_nonneg xs : 0 <= energy xs.
Proof.
  unfold energy. induction xs as [|x xs IH]; [cbn; lra|]. cbn [map]. rewrite Rsum_cons. pose proof (pow2_ge_0 x). lra.
Qed.
Lemma energy_above x xs : In x xs -> x ^ 2 <= energy xs.
Proof.
  induction xs as [|y xs IH]; [contradiction|]. unfold energy. cbn [map]. rewrite Rsum_cons. fold (energy xs).
  pose proof (energy_nonneg xs). pose proof (pow2_ge_0 y). intros [->|Hx]; [lra|]. specialize (IH Hx). lra.
Qed.

Theorem response_energy dt a fa m n rec tf ts g : new_motion dt a fa = Ok m -> fft_length (length a) fa n -> Z.even n = true ->
  is_padded (Z.to_nat n) a rec -> length tf = length (t_freqs m) -> calc_time_series m (Some (OArray tf)) = Ok ts ->
  List.Forall (fun t => Cmod t <= g) tf ->
  energy ts <= g ^ 2 * energy rec /\ (forall p, is_peak ts p -> p ^ 2 <= g ^ 2 * energy rec).
Proof.
  intros H Hn He Hp HL Hts HG. destruct (response_lines _ _ _ _ _ _ _ _ H Hn He Hp HL Hts) as (h & Hh & En & LT & Lt & LR & HS).
  assert (Hp0 : 0 < INR h) by (apply lt_0_INR; lia).
  assert (T : forall k, (k <= h)%nat -> Cmod (dft (2 * h) ts k) ^ 2 <= g ^ 2 * Cmod (dft (2 * h) rec k) ^ 2).
  { intros k Hk. destruct (nth_error tf k) as [t|] eqn:Et.
    2:{ apply nth_error_None in Et. lia. }
    destruct (HS k t Et) as [A B]. rewrite Forall_forall in HG. pose proof (HG t (nth_error_In _ _ Et)) as Ht.
    pose proof (Cmod_ge_0 t). 
    apply Rle_trans with (Cmod (Cmult t (dft (2 * h) rec k)) ^ 2).
    - rewrite !Cmod_parts, A, B. destruct (_ || _)%bool; [|lra]. pose proof (Rle_0_sqr (Im (Cmult t (dft (2 * h) rec k)))) as Q. unfold Rsqr in Q. lra.
    - rewrite Cmod_mult, Rpow_mult_distr. apply Rmult_le_compat_r; [apply pow2_ge_0|]. apply pow_incr. lra. }
  assert (EE : energy ts <= g ^ 2 * energy rec).
  { rewrite (parseval_sum h ts Hh Lt), (parseval_sum h rec Hh LR). unfold Rdiv. rewrite <- Rmult_assoc.
    apply Rmult_le_compat_r; [apply Rlt_le, Rinv_0_lt_compat; lra|].
    rewrite !Rmult_plus_distr_l. apply Rplus_le_compat; [apply Rplus_le_compat; apply T; lia|].
    rewrite (Rmult_comm (g ^ 2)), Rmult_assoc. apply Rmult_le_compat_l; [lra|]. rewrite Rmult_comm, <- Rsum_scal.
    apply Rsum_le. intros k Hk. apply in_seq in Hk. apply T. lia. }
  split; [exact EE|]. intros p [(x & Hx & ->) _]. rewrite pow2_abs. pose proof (energy_above x ts Hx). lra.
Qed.

(** A transfer function that is real at the two ends of the frequency axis. *)
Theorem response_energy_low dt a fa m n rec tf ts g t0 t1 : new_motion dt a fa = Ok m -> fft_length (length a) fa n -> Z.even n = true ->
  is_padded (Z.to_nat n) a rec -> length tf = length (t_freqs m) -> calc_time_series m (Some (OArray tf)) = Ok ts ->
  0 <= g -> List.Forall (fun t => g <= Cmod t) tf -> hd_error tf = Some t0 -> hd_error (rev tf) = Some t1 -> Im t0 = 0 -> Im t1 = 0 ->
  g ^ 2 * energy rec <= energy ts.
Proof.
  intros H Hn He Hp HL Hts G0 HG E0 E1 I0 I1. destruct (response_lines _ _ _ _ _ _ _ _ H Hn He Hp HL Hts) as (h & Hh & En & LT & Lt & LR & HS).
  assert (Hp0 : 0 < INR h) by (apply lt_0_INR; lia).
  assert (N0 : nth_error tf 0 = Some t0) by (destruct tf; [discriminate|exact E0]).
  assert (N1 : nth_error tf h = Some t1).
  { destruct (rev tf) as [|u us] eqn:Er; [discriminate|]. injection E1 as ->.
    assert (Etf : tf = (rev us ++ t1 :: nil)%list) by (rewrite <- (rev_involutive tf), Er; reflexivity).
    assert (Lu : length us = h) by (apply (f_equal (@length C)) in Er; rewrite rev_length, LT in Er; cbn in Er; lia).
    rewrite Etf, nth_error_app2; rewrite rev_length, Lu; [|lia]. now rewrite Nat.sub_diag. }
  assert (D0 : forall xs, length xs = (2 * h)%nat -> forall k, (k = 0 \/ k = h)%nat -> Im (dft (2 * h) xs k) = 0).
  { intros xs Lx k Hk. rewrite dft_eq by exact Hh. unfold Sum. cbn [Im snd].
    rewrite (Rsum_ext _ (fun _ => 0)).
    2:{ intros j _. cbv beta. replace (sin (INR j * ang h (INR k))) with 0; [apply Rmult_0_r|]. destruct Hk as [->| ->].
        - unfold ang. cbn [INR]. replace (INR j * (PI * 0 / INR h)) with 0 by (field; lra). symmetry; apply sin_0.
        - unfold ang. replace (INR j * (PI * INR h / INR h)) with (0 + INR j * PI) by (field; lra).
          clear. induction j as [|j IH]; [cbn [INR]; rewrite Rmult_0_l, Rplus_0_r; symmetry; apply sin_0|].
          rewrite S_INR. replace (0 + (INR j + 1) * PI) with ((0 + INR j * PI) + PI) by ring. rewrite neg_sin, <- IH. ring. }
    assert (Z : forall l : list nat, Rsum (map (fun _ => 0) l) = 0) by (induction l; [reflexivity|cbn [map]; rewrite Rsum_cons, IHl; ring]).
    rewrite Z. ring. }
  assert (T : forall k, (k <= h)%nat -> g ^ 2 * Cmod (dft (2 * h) rec k) ^ 2 <= Cmod (dft (2 * h) ts k) ^ 2).
  { intros k Hk. destruct (nth_error tf k) as [t|] eqn:Et.
    2:{ apply nth_error_None in Et. lia. }
    destruct (HS k t Et) as [A B]. rewrite Forall_forall in HG. pose proof (HG t (nth_error_In _ _ Et)) as Ht.
    apply Rle_trans with (Cmod (Cmult t (dft (2 * h) rec k)) ^ 2).
    - rewrite Cmod_mult, Rpow_mult_distr. apply Rmult_le_compat_r; [apply pow2_ge_0|]. apply pow_incr. lra.
    - rewrite !Cmod_parts, A, B. destruct (Nat.eqb_spec k 0) as [K|_]; [|destruct (Nat.eqb_spec k h) as [K|_]]; cbn [orb]; [| |lra].
      + subst k. assert (t = t0) by congruence. subst t. pose proof (D0 rec LR 0%nat ltac:(now left)) as D.
        replace (Im (Cmult t0 (dft (2 * h) rec 0))) with 0; [lra|]. unfold Cmult. cbn [Im snd]. fold (Im t0) (Re t0).
        fold (Im (dft (2 * h) rec 0)) (Re (dft (2 * h) rec 0)). rewrite D, I0. ring.
      + subst k. assert (t = t1) by congruence. subst t. pose proof (D0 rec LR h ltac:(now right)) as D.
        replace (Im (Cmult t1 (dft (2 * h) rec h))) with 0; [lra|]. unfold Cmult. cbn [Im snd]. fold (Im t1) (Re t1).
        fold (Im (dft (2 * h) rec h)) (Re (dft (2 * h) rec h)). rewrite D, I1. ring. }
  rewrite (parseval_sum h ts Hh Lt), (parseval_sum h rec Hh LR). unfold Rdiv. rewrite <- Rmult_assoc.
  apply Rmult_le_compat_r; [apply Rlt_le, Rinv_0_lt_compat; lra|].
  rewrite !Rmult_plus_distr_l. apply Rplus_le_compat; [apply Rplus_le_compat; apply T; lia|].
  rewrite (Rmult_comm (g ^ 2)), Rmult_assoc. apply Rmult_le_compat_l; [lra|]. rewrite Rmult_comm, <- Rsum_scal.
  apply Rsum_le. intros k Hk. apply in_seq in Hk. apply T. lia.
Qed.

(** ** Whole analyses *)
Lemma highest_gain_ge ls : 1 <= highest_gain ls.
Proof.
  induction ls as [|a ls IH]; [cbn; lra|]. destruct ls as [|b ls]; [cbn; lra|].
  change (highest_gain (a :: b :: ls)) with (Rmax 1 (impedance b / impedance a) * highest_gain (b :: ls)).
  pose proof (Rmax_l 1 (impedance b / impedance a)). nra.
Qed.
Theorem surface_energy dt a fa n lsw K d i z f rec ts : ran dt a fa n lsw K -> same_damping d lsw ->
  k_input K = mkLoc i z Outcrop -> (i < length lsw)%nat -> 0 <= z -> f <> IncomingOnly ->
  is_padded (Z.to_nat n) a rec -> accel_series K (mkLoc 0 0 f) = Ok (Some ts) ->
  energy ts <= highest_gain (firstn (S i) lsw) ^ 2 * energy rec /\
  (forall p, is_peak ts p -> p ^ 2 <= highest_gain (firstn (S i) lsw) ^ 2 * energy rec).
Proof.
  intros HR HD Ek Hi Hz Hf Hp HA.
  assert (H0 : (0 < length lsw)%nat) by lia.
  destruct (tfs_defined dt a fa n lsw K (k_input K) (mkLoc 0 0 f) HR) as (t & Et & Lt & T0); [rewrite Ek; exact Hi|rewrite Ek; discriminate|exact H0|].
  unfold accel_series in HA. rewrite Et in HA. cbn [bind] in HA. rewrite finite_some in HA.
  destruct (calc_time_series (k_motion K) (Some (OArray t))) as [s|] eqn:Es; [|discriminate]. cbn [bind] in HA. injection HA as ->.
  destruct HR as (Hdt & Hm & Hn & He & Hl & Hne & HF & HL & v & Hw).
  refine (response_energy dt a fa _ n rec t ts _ Hm Hn He Hp Lt Es _).
  apply Forall_forall. intros x Hx. apply In_nth_error in Hx. destruct Hx as [j Hj].
  pose proof (highest_gain_ge (firstn (S i) lsw)) as HG.
  pose proof (clear_record dt a fa _ n v Hdt Hm Hn Hl) as Hc.
  unfold accel_tfs in Et. destruct (_ && _)%bool; [|discriminate].
  destruct (mapM_nth _ _ _ Et) as [HLt HN]. destruct (mapM_nth _ _ _ Hw) as [HLw HNw]. rewrite map_length in HLt.
  destruct (nth_error (m_freqs (as_motion (k_motion K) v)) j) as [w|] eqn:Ew.
  2:{ apply nth_error_None in Ew. assert (j < length t)%nat by (apply nth_error_Some; congruence). rewrite HLt in *. lia. }
  destruct (HNw j w Ew) as (rs & En & Er).
  destruct (HN j rs Er) as (o & Eo & Ot). rewrite (map_nth_error Some _ _ Hj) in Ot. injection Ot as <-.
  unfold clear_freqs in Hc. rewrite Forall_forall in Hc. pose proof (Hc w (nth_error_In _ _ Ew)) as Hcw.
  destruct (numba_sound w lsw Hne HF Hcw) as (rs2 & F1 & F2). assert (rs2 = rs) by congruence. subst rs2.
  destruct Hcw as [->|Hcw].
  - rewrite (zero_frequency (map wlayer_of lsw) rs) in Eo; try assumption; rewrite ?map_length; try assumption.
    + apply Ok_inj in Eo. injection Eo as <-. rewrite Cmod_1. exact HG.
    + apply Forall_forall. intros y Hy. apply in_map_iff in Hy. destruct Hy as (l & <- & Hin).
      rewrite Forall_forall in HF. now apply sound_vel, HF.
    + rewrite Ek. exact Hi.
    + rewrite Ek. discriminate.
  - destruct (amplification_bound w d lsw rs Hcw HF HD F2 i z f Hi Hz Hf) as (tf & Etf & Bt & _).
    rewrite Ek in Eo. assert (tf = x) by congruence. subst tf. exact Bt.
Qed.
