(** Theorems about the outputs computed at a location. *)
From Verif Require Import Common Model.Curve Model.Layer Model.Profile Model.Cplx Model.Waves Model.Eql.
From Verif Require Import Model.Averages Model.Output Model.Motion Model.Results.
From Verif Require Import Spec.ProfileSpec Spec.MotionSpec Spec.WaveSpec Spec.EqlSpec Spec.ResultsSpec.
From Verif Require Import Proof.CommonFacts Proof.MotionFacts Proof.MotionProps Proof.CplxFacts Proof.WaveFacts Proof.WaveProps Proof.WaveEnergy
  Proof.CurveFacts Proof.ProfileFacts Proof.ProfileOps Proof.EqlFacts Proof.EqlProps Proof.EqlPhysical Proof.EqlResults Proof.OutputValues.
From Coquelicot Require Import Complex.
From Coq Require Import Sorting.Sorted.
Local Open Scope R_scope.
Local Notation fit := Model.Motion.fit.

(** * Arrays without missing entries *)
Lemma map_opt_some {A} (t : list A) : map_opt (fun x => x) (map Some t) = Some t.
Proof. induction t as [|x t IH]; [reflexivity|]. cbn [map map_opt]. now rewrite IH. Qed.
Lemma finite_some {A} t (f : list C -> res A) : finite (map Some t) f = bind (f t) (fun a => Ok (Some a)).
Proof. unfold finite. now rewrite map_opt_some. Qed.
Lemma map_opt_id_inv {A} (o : list (option A)) t : map_opt (fun x => x) o = Some t -> o = map Some t.
Proof.
  revert t; induction o as [|[x|] o IH]; intros t H; cbn [map_opt] in H; try discriminate.
  - now injection H as <-.
  - destruct (map_opt (fun x => x) o) as [t'|]; [|discriminate]. injection H as <-. cbn. now rewrite (IH t').
Qed.
Lemma finite_inv {A} o (f : list C -> res A) a : finite o f = Ok (Some a) -> exists t, o = map Some t /\ f t = Ok a.
Proof.
  unfold finite. destruct (map_opt (fun x => x) o) as [t|] eqn:E.
  - apply map_opt_id_inv in E. destruct (f t) as [a'|] eqn:Ef; [|discriminate]. cbn [bind]. intros H. injection H as <-.
    exists t. now split.
  - destruct (f _); discriminate.
Qed.

Lemma fft_length_unique k fa n n' : fft_length k fa n -> fft_length k fa n' -> n = n'.
Proof.
  unfold fft_length. destruct fa; [congruence|]. intros [P1 H1] [P2 H2]. pose proof (smallest_power_unique _ _ _ H1 H2). lia.
Qed.

(** * C111: the motion at the input location is the input *)
Lemma self_tfs K loc : (loc_index loc < length (k_layers K))%nat -> moves (k_waves K) loc ->
  accel_tfs K loc loc = Ok (map Some (map (fun _ => RtoC 1) (k_waves K))).
Proof.
  intros Hi HM. unfold accel_tfs. rewrite (proj2 (Nat.ltb_lt _ _) Hi). cbn [andb]. unfold moves in HM.
  induction HM as [|rs wv (x & E & N) HM IH]; [reflexivity|]. cbn [mapM map].
  rewrite (tf_self rs loc x E N). cbn [bind]. now rewrite IH.
Qed.
Lemma ones_length {A B} (xs : list A) (ys : list B) : length xs = length ys ->
  map (fun _ => RtoC 1) xs = map (fun _ => RtoC 1) ys.
Proof. revert ys; induction xs as [|x xs IH]; intros [|y ys] H; try discriminate; [reflexivity|]. cbn. f_equal. apply IH. now injection H. Qed.

Lemma np_interp_const x c pts : pts <> [] -> (forall p, In p pts -> snd p = c) -> np_interp x pts = c.
Proof.
  induction pts as [|[x0 y0] pts IH]; intros Hne Hc; [contradiction|].
  pose proof (Hc _ (or_introl eq_refl)) as E0. cbn in E0. subst y0.
  destruct pts as [|[x1 y1] pts]; [reflexivity|]. rewrite np_interp_cons2.
  pose proof (Hc (x1, y1) (or_intror (or_introl eq_refl))) as E1. cbn in E1. subst y1.
  destruct (Rltb x x1); [|apply IH; [discriminate|intros p Hp; apply Hc; now right]].
  destruct (Rleb x x0); [reflexivity|]. unfold Rdiv. ring.
Qed.

Theorem input_reproduced dt a fa m K : new_motion dt a fa = Ok m -> k_motion K = m ->
  length (k_waves K) = length (t_freqs m) -> (loc_index (k_input K) < length (k_layers K))%nat ->
  moves (k_waves K) (k_input K) ->
  exists n, fft_length (length a) fa n /\ (Z.even n = true ->
    exists ts, accel_series K (k_input K) = Ok (Some ts) /\ is_padded (Z.to_nat n) a ts).
Proof.
  intros H Ek HL Hi HM. destruct (round_trip dt a fa m (Some (OArray (map (fun _ => RtoC 1) (t_freqs m)))) H) as (n & Hn & HR).
  exists n. split; [exact Hn|]. intros He. destruct (HR He ltac:(right; right; reflexivity)) as (ts & E & HP).
  exists ts. split; [|exact HP]. unfold accel_series. rewrite self_tfs by assumption. cbn [bind].
  rewrite finite_some, Ek, (ones_length _ _ HL), E. reflexivity.
Qed.

Theorem input_response dt a fa m K fs xi : new_motion dt a fa = Ok m -> k_motion K = m ->
  length (k_waves K) = length (t_freqs m) -> (loc_index (k_input K) < length (k_layers K))%nat ->
  moves (k_waves K) (k_input K) ->
  response_spectrum_at K xi fs (k_input K) =
    match calc_osc_accels m fs xi None with Ok ps => Ok (Some ps) | Err e => Err e end.
Proof.
  intros H Ek HL Hi HM. unfold response_spectrum_at. rewrite self_tfs by assumption. cbn [bind].
  rewrite finite_some, Ek, (ones_length _ _ HL).
  assert (E : forall gs, calc_osc_accels m gs xi (Some (map (fun _ => RtoC 1) (t_freqs m))) = calc_osc_accels m gs xi None).
  { induction gs as [|f gs IH]; [reflexivity|]. cbn [calc_osc_accels]. rewrite IH. reflexivity. }
  rewrite E. destruct (calc_osc_accels m fs xi None); reflexivity.
Qed.

Theorem self_transfer K loc fs : length (k_waves K) = length (t_freqs (k_motion K)) -> t_freqs (k_motion K) <> [] ->
  (loc_index loc < length (k_layers K))%nat -> moves (k_waves K) loc ->
  transfer_function K None fs loc loc = Ok (Some (map (fun _ => 1) fs)).
Proof.
  intros HL Hne Hi HM. unfold transfer_function. rewrite self_tfs by assumption. cbn [bind].
  rewrite finite_some. unfold resample. rewrite !map_length, HL, Nat.eqb_refl. cbn [bind]. do 2 f_equal.
  apply map_ext. intros f. apply np_interp_const.
  - destruct (t_freqs (k_motion K)); [contradiction|]. destruct (k_waves K); [discriminate HL|]. discriminate.
  - intros [x y] Hp. apply in_combine_r in Hp. apply in_map_iff in Hp. destruct Hp as (z & <- & Hz).
    apply in_map_iff in Hz. destruct Hz as (w & <- & _). cbn. now rewrite Cmod_1.
Qed.

(** ** Physical profiles *)
Lemma clear_record dt a fa m n v : 0 < dt -> new_motion dt a fa = Ok m -> fft_length (length a) fa n -> IZR n * dt <= 6e8 ->
  clear_freqs (as_motion m v).
Proof.
  intros Hdt H Hn Hl. destruct (frequency_step _ _ _ _ H) as (n' & Hn' & HF). rewrite (fft_length_unique _ _ _ _ Hn' Hn) in HF.
  destruct (new_motion_inv _ _ _ _ H) as (n'' & Hn'' & H1 & _). rewrite (fft_length_unique _ _ _ _ Hn'' Hn) in H1. clear n' n'' Hn' Hn''.
  assert (Hp : 1 <= IZR n) by (now apply IZR_le in H1).
  unfold clear_freqs, as_motion, angular_freqs; cbn [m_freqs]. apply Forall_forall. intros w Hw. apply in_map_iff in Hw.
  destruct Hw as (f & <- & Hf). apply In_nth_error in Hf. destruct Hf as [i Hi]. rewrite (HF i f Hi).
  destruct i as [|i]; [left; cbn; unfold Rdiv; ring|right].
  assert (Hi1 : 1 <= INR (S i)) by (rewrite S_INR; pose proof (pos_INR i); lra).
  assert (HD : 0 < IZR n * dt) by nra.
  assert (HP : 3 < PI) by (pose proof PI2_3_2; lra).
  apply (Rmult_lt_reg_r (IZR n * dt)); [exact HD|].
  replace (2 * PI * (INR (S i) / (IZR n * dt)) * (IZR n * dt)) with (2 * PI * INR (S i)) by (field; nra). nra.
Qed.

Lemma motion_everywhere m ls wv loc : ls <> [] -> List.Forall sound ls -> clear_freqs m -> calc_waves m ls = Ok wv ->
  (loc_index loc < length ls)%nat ->
  (loc_field loc = Within -> 0 <= loc_within loc /\ List.Forall (fun l => 0 < damping l) ls) ->
  moves wv loc.
Proof.
  intros Hne HF Hc Hw Hi Hl. unfold moves. apply Forall_forall. intros rs Hrs. apply In_nth_error in Hrs. destruct Hrs as [j Hj].
  destruct (mapM_nth _ _ _ Hw) as [HL HN].
  destruct (nth_error (m_freqs m) j) as [w|] eqn:Ew.
  2:{ apply nth_error_None in Ew. assert (j < length wv)%nat by (apply nth_error_Some; congruence). lia. }
  destruct (HN j w Ew) as (rs' & E & Ej). assert (rs' = rs) by congruence. subst rs'.
  unfold clear_freqs in Hc. rewrite Forall_forall in Hc. pose proof (Hc w (nth_error_In _ _ Ew)) as Hcw.
  destruct (numba_sound w ls Hne HF Hcw) as (rs2 & F1 & F2). assert (rs2 = rs) by congruence. subst rs2.
  destruct Hcw as [->|Hcw].
  - apply zero_rows in F2. unfold wave_at_location. subst rs. rewrite rows_nth, map_length.
    destruct (nth_error ls (loc_index loc)) as [l|] eqn:El.
    2:{ apply nth_error_None in El. lia. }
    rewrite (map_nth_error wlayer_of _ _ El). rewrite nth_error_repeat by exact Hi.
    rewrite Forall_forall in HF. pose proof (sound_vel l (HF l (nth_error_In _ _ El))) as Hv.
    unfold wave_at; cbn [r_k r_a r_b fst snd]. rewrite wave_num_some by assumption.
    assert (Hc0 : cterm (Cdiv (RtoC 0) (wl_vel (wlayer_of l))) (loc_within loc) = RtoC 0)
      by (unfold cterm, Cdiv; ring).
    rewrite Hc0. replace (Copp (RtoC 0)) with (RtoC 0) by ring. rewrite Cexp_0. unfold c_one.
    destruct (loc_field loc); eexists; (split; [reflexivity|]).
    + replace (Cmult (Cmult (RtoC 2) (RtoC 1)) (RtoC 1)) with (RtoC 2) by (now rewrite !Cmult_1_r). apply RtoC_neq_0; lra.
    + replace (Cplus (Cmult (RtoC 1) (RtoC 1)) (Cmult (RtoC 1) (RtoC 1))) with (RtoC 2).
      * apply RtoC_neq_0; lra.
      * rewrite !Cmult_1_r, <- RtoC_plus. apply f_equal. lra.
    + rewrite Cmult_1_r. apply RtoC_neq_0; lra.
  - destruct (loc_field loc) eqn:Ef.
    + apply (upgoing_motion w ls rs Hcw HF F2 loc Hi). congruence.
    + destruct (Hl eq_refl) as [Hz HD]. destruct (nth_error ls (loc_index loc)) as [l|] eqn:El.
      2:{ apply nth_error_None in El. lia. }
      destruct (damped_motion_nonzero w ls rs Hcw HF HD F2 _ l (loc_within loc) El Hz) as (v & Ev & Nv).
      exists v. split; [|exact Nv]. rewrite <- Ev. destruct loc as [ix wi fd]. cbn in *. now subst fd.
    + apply (upgoing_motion w ls rs Hcw HF F2 loc Hi). congruence.
Qed.

Lemma waves_length m v ls wv : calc_waves (as_motion m v) ls = Ok wv -> length wv = length (t_freqs m).
Proof. intros H. destruct (mapM_nth _ _ _ H) as [HL _]. rewrite HL. cbn. unfold angular_freqs. now rewrite map_length. Qed.

(** The record, its response spectrum and its peak come back at the input
    location, whatever soil carries the waves. *)
Theorem input_physical dt a fa m n v ls0 K : 0 < dt -> new_motion dt a fa = Ok m -> fft_length (length a) fa n ->
  Z.even n = true -> IZR n * dt <= 6e8 -> ls0 <> [] -> List.Forall sound ls0 ->
  calc_waves (as_motion m v) ls0 = Ok (k_waves K) -> k_motion K = m -> length (k_layers K) = length ls0 ->
  (loc_index (k_input K) < length ls0)%nat ->
  (loc_field (k_input K) = Within -> 0 <= loc_within (k_input K) /\ List.Forall (fun l => 0 < damping l) ls0) ->
  (exists ts, accel_series K (k_input K) = Ok (Some ts) /\ is_padded (Z.to_nat n) a ts) /\
  (forall fs xi, response_spectrum_at K xi fs (k_input K) =
     match calc_osc_accels m fs xi None with Ok ps => Ok (Some ps) | Err e => Err e end) /\
  (forall fs, transfer_function K None fs (k_input K) (k_input K) = Ok (Some (map (fun _ => 1) fs))).
Proof.
  intros Hdt H Hn He Hl Hne HF Hw Ek HL Hi Hf.
  pose proof (motion_everywhere _ ls0 _ _ Hne HF (clear_record dt a fa m n v Hdt H Hn Hl) Hw Hi Hf) as HM.
  pose proof (waves_length _ _ _ _ Hw) as HW. rewrite <- HL in Hi.
  split; [|split].
  - destruct (input_reproduced dt a fa m K H Ek HW Hi HM) as (n' & Hn' & HR).
    rewrite (fft_length_unique _ _ _ _ Hn' Hn) in HR. exact (HR He).
  - intros fs xi. exact (input_response dt a fa m K fs xi H Ek HW Hi HM).
  - intros fs. apply self_transfer; rewrite ?Ek; try assumption.
    destruct (new_motion_inv _ _ _ _ H) as (n' & _ & H1 & _ & _ & _ & _ & EF). intros E. apply (f_equal (@length R)) in E.
    rewrite EF, map_length, seq_length in E. unfold arange_count in E. cbn [length] in E.
    assert (0 <= (n' + 1) / 2)%Z by (apply Z.div_pos; lia). lia.
Qed.

(** * C115: superposition *)
Lemma nth_comb al be a b c : combines al be a b c -> forall k, nth k c 0 = al * nth k a 0 + be * nth k b 0.
Proof.
  intros (L1 & L2 & H) k. destruct (nth_error a k) as [x|] eqn:Ea.
  - destruct (nth_error b k) as [y|] eqn:Eb.
    + rewrite (nth_error_nth _ _ 0 (H k x y Ea Eb)), (nth_error_nth _ _ 0 Ea), (nth_error_nth _ _ 0 Eb). reflexivity.
    + apply nth_error_None in Eb. assert (k < length a)%nat by (apply nth_error_Some; congruence). lia.
  - apply nth_error_None in Ea. rewrite !nth_overflow by lia. ring.
Qed.
Lemma comb_of_nth al be a b c : length a = length b -> length c = length a ->
  (forall k, nth k c 0 = al * nth k a 0 + be * nth k b 0) -> combines al be a b c.
Proof.
  intros L1 L2 H. split; [exact L1|]. split; [exact L2|]. intros i x y Ha Hb.
  assert (i < length a)%nat by (apply nth_error_Some; congruence).
  rewrite (nth_error_nth' c 0) by lia. f_equal. rewrite H, (nth_error_nth _ _ 0 Ha), (nth_error_nth _ _ 0 Hb). reflexivity.
Qed.
Lemma nth_fit n xs k : nth k (fit n xs) 0 = if (k <? n)%nat then nth k xs 0 else 0.
Proof.
  destruct (fit_padded n xs) as [HL HP]. destruct (Nat.ltb_spec k n) as [L|L].
  - rewrite (nth_error_nth _ _ 0 (HP k L)). destruct (nth_error xs k) as [x|] eqn:E.
    + now rewrite (nth_error_nth _ _ 0 E).
    + apply nth_error_None in E. now rewrite nth_overflow.
  - apply nth_overflow. lia.
Qed.

Definition ccomb (al be : R) (A B D : list C) : Prop :=
  length A = length B /\ length D = length A /\
  forall k, nth k D (RtoC 0) = Cplus (Cmult (RtoC al) (nth k A (RtoC 0))) (Cmult (RtoC be) (nth k B (RtoC 0))).

Lemma dft_comb al be n a b c k : (forall k, nth k c 0 = al * nth k a 0 + be * nth k b 0) ->
  dft n c k = Cplus (Cmult (RtoC al) (dft n a k)) (Cmult (RtoC be) (dft n b k)).
Proof.
  intros H. unfold dft, Cplus, Cmult, RtoC; cbn [fst snd]. apply injective_projections; cbn [fst snd].
  - rewrite !Rmult_0_l, !Rminus_0_r, <- !Rsum_scal, <- Rsum_plus. apply Rsum_ext. intros j _. rewrite H. ring.
  - rewrite !Rmult_0_l, !Rplus_0_r, <- !Ropp_mult_distr_r, <- !Rsum_scal, <- Ropp_plus_distr, <- Rsum_plus. f_equal.
    apply Rsum_ext. intros j _. rewrite H. ring.
Qed.
Lemma inv_comb al be h A B D j : (forall k, nth k D (RtoC 0) = Cplus (Cmult (RtoC al) (nth k A (RtoC 0))) (Cmult (RtoC be) (nth k B (RtoC 0)))) ->
  inv_sample h D j = al * inv_sample h A j + be * inv_sample h B j.
Proof.
  intros H. unfold inv_sample.
  assert (HR : forall k, Re (nth k D (RtoC 0)) = al * Re (nth k A (RtoC 0)) + be * Re (nth k B (RtoC 0)))
    by (intros k; rewrite H; unfold Re, Cplus, Cmult, RtoC; cbn [fst snd]; ring).
  assert (HI : forall k, Im (nth k D (RtoC 0)) = al * Im (nth k A (RtoC 0)) + be * Im (nth k B (RtoC 0)))
    by (intros k; rewrite H; unfold Im, Cplus, Cmult, RtoC; cbn [fst snd]; ring).
  rewrite !HR.
  rewrite (Rsum_ext _ (fun k => al * (Re (nth k A (RtoC 0)) * cos (PI * INR j * INR k / INR h) - Im (nth k A (RtoC 0)) * sin (PI * INR j * INR k / INR h)) +
     be * (Re (nth k B (RtoC 0)) * cos (PI * INR j * INR k / INR h) - Im (nth k B (RtoC 0)) * sin (PI * INR j * INR k / INR h))))
    by (intros k _; rewrite HR, HI; ring).
  rewrite Rsum_plus, !Rsum_scal. unfold Rdiv. ring.
Qed.
Lemma nth_map0 (f : C -> C) xs k : f (RtoC 0) = RtoC 0 -> nth k (map f xs) (RtoC 0) = f (nth k xs (RtoC 0)).
Proof. intros H. rewrite <- (map_nth f), H. reflexivity. Qed.
Lemma nth_map2_mult xs : forall ys k, nth k (map2 Cmult xs ys) (RtoC 0) = Cmult (nth k xs (RtoC 0)) (nth k ys (RtoC 0)).
Proof.
  unfold map2. induction xs as [|x xs IH]; intros [|y ys] [|k]; cbn [combine map nth]; rewrite ?Cmult_0_l, ?Cmult_0_r; try reflexivity.
  apply IH.
Qed.
Lemma map2_len {A B D} (f : A -> B -> D) xs ys : length xs = length ys -> length (map2 f xs ys) = length xs.
Proof. intros H. unfold map2. rewrite map_length, combine_length. lia. Qed.

Lemma np_mul_comb al be t ya yb yd pa pb : ccomb al be ya yb yd -> np_mul t ya = Ok pa -> np_mul t yb = Ok pb ->
  exists pd, np_mul t yd = Ok pd /\ ccomb al be pa pb pd.
Proof.
  intros (L1 & L2 & H) Ha Hb. destruct t as [c|xs]; cbn [np_mul] in *.
  { injection Ha as <-. injection Hb as <-. eexists. split; [reflexivity|]. split; [now rewrite !map_length|]. split; [now rewrite !map_length|].
    intros k. rewrite !(nth_map0 (Cmult c)) by ring. rewrite H. ring. }
  rewrite L2. rewrite <- L1 in Hb. destruct (Nat.eqb_spec (length xs) (length ya)) as [E|E].
  { injection Ha as <-. injection Hb as <-. eexists. split; [reflexivity|]. split; [rewrite !map2_len; lia|]. split; [rewrite !map2_len; lia|].
    intros k. rewrite !nth_map2_mult, H. ring. }
  assert (HS : forall (z za zb : C) k, ya = [za] -> yb = [zb] -> yd = [z] ->
     nth k (map (fun x => Cmult x z) xs) (RtoC 0) =
     Cplus (Cmult (RtoC al) (nth k (map (fun x => Cmult x za) xs) (RtoC 0))) (Cmult (RtoC be) (nth k (map (fun x => Cmult x zb) xs) (RtoC 0)))). 
  { intros z za zb k -> -> ->. pose proof (H 0%nat) as G. cbn [nth] in G.
    rewrite !(nth_map0 (fun x => Cmult x _)) by ring. rewrite G. ring. }
  destruct xs as [|c [|c' xs]].
  - destruct ya as [|za [|za' ya]]; try discriminate; try (now cbn in E).
    destruct yb as [|zb [|zb' yb]]; try discriminate. destruct yd as [|z [|z' yd]]; try discriminate.
    injection Ha as <-. injection Hb as <-. eexists. split; [reflexivity|]. split; [reflexivity|]. split; [reflexivity|].
    intros k. apply (HS z za zb k); reflexivity.
  - injection Ha as <-. injection Hb as <-. eexists. split; [reflexivity|]. split; [now rewrite !map_length|]. split; [now rewrite !map_length|].
    intros k. rewrite !(nth_map0 (Cmult c)) by ring. rewrite H. ring.
  - destruct ya as [|za [|za' ya]]; try discriminate.
    destruct yb as [|zb [|zb' yb]]; try discriminate. destruct yd as [|z [|z' yd]]; try discriminate.
    injection Ha as <-. injection Hb as <-. eexists. split; [reflexivity|]. split; [cbn; now rewrite !map_length|]. split; [cbn; now rewrite !map_length|].
    intros k. apply (HS z za zb k); reflexivity.
Qed.

Lemma irfft_comb al be A B D sa sb : ccomb al be A B D -> irfft A = Ok sa -> irfft B = Ok sb ->
  exists sd, irfft D = Ok sd /\ combines al be sa sb sd.
Proof.
  intros (L1 & L2 & H) Ha Hb. unfold irfft in *. rewrite L2. rewrite <- L1 in Hb.
  destruct (length A) as [|[|h]]; try discriminate. apply Ok_inj in Ha, Hb. subst sa sb. eexists. split; [reflexivity|].
  split; [now rewrite !map_length|]. split; [now rewrite !map_length|]. intros i x y Hx Hy.
  rewrite nth_error_map in Hx, Hy |- *. destruct (nth_error _ i) as [j|]; [|discriminate]. cbn [option_map] in *.
  injection Hx as <-. injection Hy as <-. f_equal. now apply inv_comb.
Qed.

Lemma motion_comb dt al be a b c fa ma mb md : combines al be a b c ->
  new_motion dt a fa = Ok ma -> new_motion dt b fa = Ok mb -> new_motion dt c fa = Ok md ->
  t_freqs mb = t_freqs ma /\ t_freqs md = t_freqs ma /\
  t_dt ma = dt /\ t_dt mb = dt /\ t_dt md = dt /\ dt <> 0 /\ ccomb al be (fourier_amps ma) (fourier_amps mb) (fourier_amps md).
Proof.
  intros HC Ha Hb Hd. pose proof HC as (L1 & L2 & _).
  destruct (new_motion_inv _ _ _ _ Ha) as (n & Na & _ & Hdt & Da & _ & Aa & Fa).
  destruct (new_motion_inv _ _ _ _ Hb) as (n1 & Nb & _ & _ & Db & _ & Ab & Fb).
  destruct (new_motion_inv _ _ _ _ Hd) as (n2 & Nd & _ & _ & Dd & _ & Ad & Fd).
  rewrite <- L1 in Nb. rewrite L2 in Nd. rewrite (fft_length_unique _ _ _ _ Nb Na) in *. rewrite (fft_length_unique _ _ _ _ Nd Na) in *.
  split; [congruence|]. split; [congruence|]. split; [exact Da|]. split; [exact Db|]. split; [exact Dd|]. split; [exact Hdt|].
  unfold fourier_amps. rewrite Da, Db, Dd, Aa, Ab, Ad. split; [now rewrite !map_length|]. split; [now rewrite !map_length|].
  intros k. rewrite !(nth_map0 (Cmult (RtoC dt))) by ring.
  set (N := Z.to_nat n). destruct (Nat.lt_ge_cases k (S (N / 2))) as [L|L].
  - assert (E : forall xs, nth k (map (dft N (fit N xs)) (seq 0 (S (N / 2)))) (RtoC 0) = dft N (fit N xs) k).
    { intros xs. apply nth_error_nth. rewrite (map_nth_error _ _ _ (d := k)); [reflexivity|].
      rewrite (nth_error_nth' _ 0%nat) by (now rewrite seq_length). now rewrite seq_nth. }
    rewrite !E. rewrite (dft_comb al be N (fit N a) (fit N b) (fit N c)); [ring|].
    intros j. rewrite !nth_fit. destruct (j <? N)%nat; [now apply nth_comb|ring].
  - rewrite !nth_overflow by (rewrite map_length, seq_length; lia). ring.
Qed.

Lemma series_comb dt al be a b c fa ma mb md tf sa sb : combines al be a b c ->
  new_motion dt a fa = Ok ma -> new_motion dt b fa = Ok mb -> new_motion dt c fa = Ok md ->
  calc_time_series ma tf = Ok sa -> calc_time_series mb tf = Ok sb ->
  exists sd, calc_time_series md tf = Ok sd /\ combines al be sa sb sd.
Proof.
  intros HC Ha Hb Hd Sa Sb. destruct (motion_comb _ _ _ _ _ _ _ _ _ _ HC Ha Hb Hd) as (_ & _ & Da & Db & Dd & Hdt & HA).
  unfold calc_time_series in *. rewrite Da in Sa. rewrite Db in Sb. rewrite Dd.
  assert (G : forall pa pb pd, ccomb al be pa pb pd -> irfft (map (fun z => Cdiv z (RtoC dt)) pa) = Ok sa ->
     irfft (map (fun z => Cdiv z (RtoC dt)) pb) = Ok sb ->
     exists sd, irfft (map (fun z => Cdiv z (RtoC dt)) pd) = Ok sd /\ combines al be sa sb sd).
  { intros pa pb pd (L1 & L2 & H) Ea Eb. refine (irfft_comb al be _ _ _ _ _ _ Ea Eb).
    split; [now rewrite !map_length|]. split; [now rewrite !map_length|]. intros k.
    rewrite !(nth_map0 (fun z => Cdiv z (RtoC dt))) by (unfold Cdiv; ring). rewrite H. unfold Cdiv. ring. }
  destruct tf as [t|]; cbn [bind] in *.
  - destruct (np_mul t (fourier_amps ma)) as [pa|] eqn:Ea; [|discriminate]. cbn [bind] in Sa.
    destruct (np_mul t (fourier_amps mb)) as [pb|] eqn:Eb; [|discriminate]. cbn [bind] in Sb.
    destruct (np_mul_comb _ _ _ _ _ _ _ _ HA Ea Eb) as (pd & -> & HP). cbn [bind]. exact (G pa pb pd HP Sa Sb).
  - exact (G _ _ _ HA Sa Sb).
Qed.

Lemma finite_comb al be sa sb o (f g h : list C -> res (list R)) :
  (forall t x y, f t = Ok x -> g t = Ok y -> exists z, h t = Ok z /\ combines al be x y z) ->
  finite o f = Ok (Some sa) -> finite o g = Ok (Some sb) ->
  exists sd, finite o h = Ok (Some sd) /\ combines al be sa sb sd.
Proof.
  intros H Ha Hb. destruct (finite_inv _ _ _ Ha) as (t & -> & Fa). destruct (finite_inv _ _ _ Hb) as (t' & Et & Fb).
  assert (t' = t).
  { apply (f_equal (map_opt (fun x => x))) in Et. rewrite !map_opt_some in Et. congruence. }
  subst t'. destruct (H t sa sb Fa Fb) as (z & Ez & HC). exists z. split; [|exact HC]. rewrite finite_some, Ez. reflexivity.
Qed.

Theorem superposition_accel dt al be a b c fa ma mb md : combines al be a b c ->
  new_motion dt a fa = Ok ma -> new_motion dt b fa = Ok mb -> new_motion dt c fa = Ok md ->
  forall K loc sa sb, accel_series (with_motion K ma) loc = Ok (Some sa) -> accel_series (with_motion K mb) loc = Ok (Some sb) ->
  exists sd, accel_series (with_motion K md) loc = Ok (Some sd) /\ combines al be sa sb sd.
Proof.
  intros HC Ha Hb Hd K loc sa sb Ea Eb. unfold accel_series in *.
  change (accel_tfs (with_motion K mb)) with (accel_tfs (with_motion K ma)) in Eb.
  change (accel_tfs (with_motion K md)) with (accel_tfs (with_motion K ma)).
  cbn [with_motion k_motion k_input] in *.
  destruct (accel_tfs (with_motion K ma) (k_input K) loc) as [o|]; [|discriminate]. cbn [bind] in *.
  refine (finite_comb al be sa sb o _ _ _ _ Ea Eb). intros t x y. exact (series_comb dt al be a b c fa ma mb md _ x y HC Ha Hb Hd).
Qed.

Lemma strain_tfs_freqs K m m' loc : t_freqs m' = t_freqs m -> strain_tfs (with_motion K m') loc = strain_tfs (with_motion K m) loc.
Proof. intros H. unfold strain_tfs, as_motion, angular_freqs, calc_strain_tfs. cbn. now rewrite H. Qed.

Theorem superposition_strain dt al be a b c fa ma mb md : combines al be a b c ->
  new_motion dt a fa = Ok ma -> new_motion dt b fa = Ok mb -> new_motion dt c fa = Ok md ->
  forall K pct loc sa sb, strain_series (with_motion K ma) pct loc = Ok sa -> strain_series (with_motion K mb) pct loc = Ok sb ->
  exists sd, strain_series (with_motion K md) pct loc = Ok sd /\ combines al be sa sb sd.
Proof.
  intros HC Ha Hb Hd K pct loc sa sb Ea Eb. unfold strain_series in *.
  destruct (motion_comb _ _ _ _ _ _ _ _ _ _ HC Ha Hb Hd) as (Fb & Fd & _).
  rewrite (strain_tfs_freqs K ma mb loc Fb) in Eb. rewrite (strain_tfs_freqs K ma md loc Fd).
  cbn [with_motion k_motion] in *. destruct (strain_tfs (with_motion K ma) loc) as [t|]; [|discriminate]. cbn [bind] in *.
  destruct (calc_time_series ma (Some (OArray t))) as [x|] eqn:Ex; [|discriminate]. cbn [bind] in Ea.
  destruct (calc_time_series mb (Some (OArray t))) as [y|] eqn:Ey; [|discriminate]. cbn [bind] in Eb.
  destruct (series_comb dt al be a b c fa ma mb md _ x y HC Ha Hb Hd Ex Ey) as (z & -> & HZ). cbn [bind].
  injection Ea as <-. injection Eb as <-. eexists. split; [reflexivity|]. destruct pct; [|exact HZ].
  destruct HZ as (L1 & L2 & H). split; [now rewrite !map_length|]. split; [now rewrite !map_length|].
  intros i u v Hu Hv. rewrite nth_error_map in Hu, Hv |- *.
  destruct (nth_error x i) as [u0|] eqn:Eu; [|discriminate]. destruct (nth_error y i) as [v0|] eqn:Ev; [|discriminate].
  rewrite (H i u0 v0 Eu Ev). cbn [option_map] in *. injection Hu as <-. injection Hv as <-. f_equal. ring.
Qed.

Theorem superposition_stress dt al be a b c fa ma mb md : combines al be a b c ->
  new_motion dt a fa = Ok ma -> new_motion dt b fa = Ok mb -> new_motion dt c fa = Ok md ->
  forall K damped normalized loc sa sb, stress_series (with_motion K ma) damped normalized loc = Ok (Some sa) ->
  stress_series (with_motion K mb) damped normalized loc = Ok (Some sb) ->
  exists sd, stress_series (with_motion K md) damped normalized loc = Ok (Some sd) /\ combines al be sa sb sd.
Proof.
  intros HC Ha Hb Hd K damped normalized loc sa sb Ea Eb. unfold stress_series, stress_tfs in *.
  destruct (motion_comb _ _ _ _ _ _ _ _ _ _ HC Ha Hb Hd) as (Fb & Fd & _).
  rewrite (strain_tfs_freqs K ma mb loc Fb) in Eb. rewrite (strain_tfs_freqs K ma md loc Fd).
  cbn [with_motion k_motion k_layers k_wt] in *. destruct (nth_error (k_layers K) (loc_index loc)) as [l|]; [|discriminate].
  destruct (strain_tfs (with_motion K ma) loc) as [t|]; [|discriminate]. cbn [bind] in *.
  match type of Ea with bind ?x _ = _ => destruct x as [o|]; [|discriminate] end. cbn [bind] in *.
  refine (finite_comb al be sa sb o _ _ _ _ Ea Eb). intros u x y. exact (series_comb dt al be a b c fa ma mb md _ x y HC Ha Hb Hd).
Qed.

(** ** Records that are multiples of each other *)
Lemma peak_scale c ts : peak_of (map (Rmult c) ts) = Rabs c * peak_of ts.
Proof.
  unfold peak_of. induction ts as [|x ts IH]; cbn [map fold_right]; [ring|]. rewrite IH, Rabs_mult.
  rewrite RmaxRmult by apply Rabs_pos. reflexivity.
Qed.
Lemma combines_scale c a b : combines c 0 a a b -> b = map (Rmult c) a.
Proof.
  intros (_ & L & H). apply nth_error_ext. intros i. rewrite nth_error_map. destruct (nth_error a i) as [x|] eqn:E.
  - rewrite (H i x x E E). cbn [option_map]. f_equal. ring.
  - apply nth_error_None in E. cbn [option_map]. apply nth_error_None. lia.
Qed.
Lemma scale_combines c a : combines c 0 a a (map (Rmult c) a).
Proof.
  split; [reflexivity|]. split; [now rewrite map_length|]. intros i x y Hx Hy. rewrite (map_nth_error _ _ _ Hx). f_equal. ring.
Qed.

Lemma series_scale dt c a fa m m' tf s : new_motion dt a fa = Ok m -> new_motion dt (map (Rmult c) a) fa = Ok m' ->
  calc_time_series m tf = Ok s -> calc_time_series m' tf = Ok (map (Rmult c) s).
Proof.
  intros H H' Hs. destruct (series_comb dt c 0 a a _ fa m m m' tf s s (scale_combines c a) H H H' Hs Hs) as (sd & -> & HC).
  f_equal. now apply combines_scale.
Qed.
Lemma osc_scale dt c a fa m m' tf xi fs : new_motion dt a fa = Ok m -> new_motion dt (map (Rmult c) a) fa = Ok m' ->
  forall ps, calc_osc_accels m fs xi tf = Ok ps -> calc_osc_accels m' fs xi tf = Ok (map (Rmult (Rabs c)) ps).
Proof.
  intros H H'. destruct (motion_comb _ _ _ _ _ _ _ _ _ _ (scale_combines c a) H H H') as (_ & EF & _).
  induction fs as [|f fs IH]; intros ps Hp; cbn [calc_osc_accels] in *; [now injection Hp as <-|].
  unfold osc_accel in *. rewrite EF.
  match type of Hp with bind (bind ?x _) _ = _ => destruct x as [t|]; [|discriminate] end. cbn [bind] in *.
  unfold calc_peak in *. destruct (calc_time_series m (Some (OArray t))) as [s|] eqn:Es; [|discriminate].
  rewrite (series_scale dt c a fa m m' _ s H H' Es). cbn [bind] in *. rewrite peak_scale.
  destruct (calc_osc_accels m fs xi tf) as [r|]; [|discriminate]. rewrite (IH r eq_refl). cbn [bind] in *.
  injection Hp as <-. reflexivity.
Qed.

Theorem scaled_response dt c a fa m m' : new_motion dt a fa = Ok m -> new_motion dt (map (Rmult c) a) fa = Ok m' ->
  forall K xi fs loc ps, response_spectrum_at (with_motion K m) xi fs loc = Ok (Some ps) ->
  response_spectrum_at (with_motion K m') xi fs loc = Ok (Some (map (Rmult (Rabs c)) ps)).
Proof.
  intros H H' K xi fs loc ps Hp. unfold response_spectrum_at in *.
  change (accel_tfs (with_motion K m')) with (accel_tfs (with_motion K m)). cbn [with_motion k_motion k_input] in *.
  destruct (accel_tfs _ (k_input K) loc) as [o|]; [|discriminate]. cbn [bind] in *.
  destruct (finite_inv _ _ _ Hp) as (t & -> & Ht). rewrite finite_some, (osc_scale dt c a fa m m' _ xi fs H H' ps Ht). reflexivity.
Qed.

Lemma np_interp_scale c x pts : np_interp x (map (fun p => (fst p, c * snd p)) pts) = c * np_interp x pts.
Proof.
  induction pts as [|[x0 y0] pts IH]; [cbn; ring|]. destruct pts as [|[x1 y1] pts]; [reflexivity|].
  cbn [map fst snd] in *. rewrite !np_interp_cons2. destruct (Rltb x x1); [|exact IH].
  destruct (Rleb x x0); [reflexivity|]. unfold Rdiv. ring.
Qed.
Lemma combine_scale c (xs ys : list R) : combine xs (map (Rmult c) ys) = map (fun p => (fst p, c * snd p)) (combine xs ys).
Proof. revert ys; induction xs as [|x xs IH]; intros [|y ys]; [reflexivity..|]. cbn. now rewrite IH. Qed.

Theorem scaled_fourier dt c a fa m m' : new_motion dt a fa = Ok m -> new_motion dt (map (Rmult c) a) fa = Ok m' ->
  forall K fs loc ps, fourier_spectrum (with_motion K m) None fs loc = Ok (Some ps) ->
  fourier_spectrum (with_motion K m') None fs loc = Ok (Some (map (Rmult (Rabs c)) ps)).
Proof.
  intros H H' K fs loc ps Hp. destruct (motion_comb _ _ _ _ _ _ _ _ _ _ (scale_combines c a) H H H') as (_ & EF & _ & _ & _ & _ & HA).
  unfold fourier_spectrum in *.
  change (accel_tfs (with_motion K m')) with (accel_tfs (with_motion K m)). cbn [with_motion k_motion k_input] in *.
  destruct (accel_tfs _ (k_input K) loc) as [o|]; [|discriminate]. cbn [bind] in *.
  destruct (finite_inv _ _ _ Hp) as (t & -> & Ht). rewrite finite_some.
  destruct (np_mul (OArray t) (fourier_amps m)) as [p|] eqn:Ep; [|discriminate]. cbn [bind] in Ht.
  destruct (np_mul_comb _ _ _ _ _ _ _ _ HA Ep Ep) as (q & -> & (_ & Lq & Hq)). cbn [bind].
  unfold resample in *. rewrite EF, !map_length in *. rewrite Lq. destruct (Nat.eqb _ _); [|discriminate]. cbn [bind].
  injection Ht as <-. do 2 f_equal. rewrite map_map. apply map_ext. intros f. rewrite <- np_interp_scale, <- combine_scale. do 2 f_equal.
  apply nth_error_ext. intros k. rewrite !nth_error_map. destruct (nth_error q k) as [z|] eqn:Ez.
  - assert (k < length q)%nat by (apply nth_error_Some; congruence).
    rewrite (nth_error_nth' p (RtoC 0)) by lia. cbn [option_map]. f_equal.
    pose proof (Hq k) as G. rewrite (nth_error_nth _ _ (RtoC 0) Ez) in G. subst z.
    rewrite <- Cmod_R, <- Cmod_mult. f_equal. ring.
  - apply nth_error_None in Ez. rewrite (proj2 (nth_error_None p k)) by lia. reflexivity.
Qed.

(** ** Multiples of a transfer function *)
Lemma series_tf_scale m t c s : calc_time_series m (Some (OArray t)) = Ok s ->
  calc_time_series m (Some (OArray (map (fun z => Cmult z (RtoC c)) t))) = Ok (map (Rmult c) s).
Proof.
  unfold calc_time_series. intros H. destruct (np_mul (OArray t) (fourier_amps m)) as [p|] eqn:Ep; [|discriminate]. cbn [bind] in H.
  assert (E : np_mul (OArray (map (fun z => Cmult z (RtoC c)) t)) (fourier_amps m) = Ok (map (fun z => Cmult z (RtoC c)) p)).
  { cbn [np_mul] in *. rewrite map_length. destruct (Nat.eqb (length t) (length (fourier_amps m))).
    - injection Ep as <-. f_equal. unfold map2. generalize (fourier_amps m) as ys. clear. induction t as [|x t IH]; intros [|y ys]; [reflexivity..|].
      cbn [map combine]. rewrite IH. f_equal. cbn [fst snd]. ring.
    - destruct t as [|x [|x' t]]; cbn [map].
      + destruct (fourier_amps m) as [|y [|y' ys]]; try discriminate. now injection Ep as <-.
      + injection Ep as <-. f_equal. rewrite map_map. apply map_ext. intros z. ring.
      + destruct (fourier_amps m) as [|y [|y' ys]]; try discriminate. injection Ep as <-. f_equal. cbn [map]. rewrite !map_map.
        f_equal; [ring|]. f_equal; [ring|]. apply map_ext. intros z. ring. }
  rewrite E. cbn [bind].
  destruct (irfft_comb c 0 (map (fun z => Cdiv z (RtoC (t_dt m))) p) (map (fun z => Cdiv z (RtoC (t_dt m))) p)
     (map (fun z => Cdiv z (RtoC (t_dt m))) (map (fun z => Cmult z (RtoC c)) p)) s s) as (sd & -> & HC); try assumption.
  - split; [reflexivity|]. split; [now rewrite !map_length|]. intros k.
    rewrite !(nth_map0 (fun z => Cdiv z (RtoC (t_dt m)))) by (unfold Cdiv; ring).
    rewrite (nth_map0 (fun z => Cmult z (RtoC c))) by ring. unfold Cdiv. ring.
  - f_equal. now apply combines_scale.
Qed.

Lemma series_nonempty m tf s : calc_time_series m tf = Ok s -> s <> [].
Proof.
  unfold calc_time_series. match goal with |- bind ?x _ = _ -> _ => destruct x as [p|]; [|discriminate] end. cbn [bind].
  unfold irfft. destruct (length _) as [|[|h]]; try discriminate. intros H E. apply Ok_inj in H. subst s.
  apply (f_equal (@length R)) in E. rewrite map_length, seq_length in E. cbn in E. lia.
Qed.
Lemma is_peak_scale c ts p : is_peak ts p -> is_peak (map (Rmult c) ts) (Rabs c * p).
Proof.
  intros [(x & Hx & ->) HB]. split.
  - exists (c * x). split; [now apply in_map|]. now rewrite Rabs_mult.
  - intros y Hy. apply in_map_iff in Hy. destruct Hy as (z & <- & Hz). rewrite Rabs_mult.
    apply Rmult_le_compat_l; [apply Rabs_pos|now apply HB].
Qed.

(** * C112: the outputs of an equivalent-linear run agree with the layers *)
Theorem eql_strain_series P m v lin reset ls t stop ls' wv wt : ls <> [] ->
  eql_call P (as_motion m v) lin reset ls = (t, Ok (stop, ls', wv)) ->
  let K := mkCalc m ls' wt lin wv in
  forall i l, (S i < length ls')%nat -> nth_error ls' i = Some l ->
  exists mx ts, l_smax l = Some mx /\ strain_series K false (mkLoc i (l_thick l / 2) Within) = Ok ts /\ is_peak ts mx.
Proof.
  intros Hne H K i l Hi Hl.
  destruct (call_loop P _ lin reset ls t _ H) as [(_ & e & E & _)|(wv0 & out & Ew & El & Er)]; [discriminate|].
  destruct out as [[[stop2 ls2] wv2]|e]; cbn [bind] in Er; [|discriminate].
  destruct (set_strain_maxs (as_motion m v) (length ls2) wv2 lin 0 (removelast ls2)) as [upd|e] eqn:Es; cbn [bind] in Er; [|discriminate].
  injection Er as <- E2 <-. destruct (set_maxs_nth _ _ _ _ _ _ _ Es) as [M1 M2].
  assert (HL : length ls' = length ls2 /\ nth_error upd i = Some l).
  { destruct (last_opt ls2) as [b|] eqn:Eb.
    - pose proof (length_removelast _ _ Eb) as R. rewrite E2, app_length in *. cbn [length] in *. split; [lia|].
      rewrite nth_error_app1 in Hl by lia. exact Hl.
    - apply last_opt_none in Eb. subst ls2. cbn in M1. destruct upd; [|discriminate]. rewrite E2 in Hi. cbn in Hi. lia. }
  destruct HL as [HL Hu].
  assert (Hj : exists l2, nth_error (removelast ls2) i = Some l2).
  { destruct (nth_error (removelast ls2) i) as [l2|] eqn:E; [now exists l2|]. apply nth_error_None in E.
    assert (i < length upd)%nat by (apply nth_error_Some; congruence). lia. }
  destruct Hj as [l2 Hl2]. destruct (M2 i l2 Hl2) as (mx & C1 & C2). cbn [Nat.add] in C1.
  assert (El2 : l = set_strain_max l2 mx) by congruence.
  exists mx. unfold calc_strain_max in C1.
  assert (Et : l_thick l = l_thick l2) by (rewrite El2; reflexivity). rewrite Et.
  unfold strain_series, strain_tfs. cbn [K k_motion k_layers k_waves k_input]. rewrite HL.
  change (calc_strain_tfs (as_motion m 0)) with (calc_strain_tfs (as_motion m v)).
  destruct (calc_strain_tfs (as_motion m v) (length ls2) wv lin (mkLoc i (l_thick l2 / 2) Within)) as [tf|]; [|discriminate].
  cbn [bind] in *. cbn [as_motion m_peak] in C1. unfold calc_peak in C1.
  destruct (calc_time_series m (Some (OArray tf))) as [ts|] eqn:Ets; [|discriminate]. cbn [bind] in *. injection C1 as <-.
  exists ts. split; [now rewrite El2|]. split; [reflexivity|]. apply peak_of_spec. exact (series_nonempty _ _ _ Ets).
Qed.

Lemma strain_gives_stress K l loc s ts : nth_error (k_layers K) (loc_index loc) = Some l ->
  strain_series K false loc = Ok ts ->
  stress_series K false false loc = Ok (Some (map (Rmult (shear_mod l)) ts)) /\
  (effective_stress (k_wt K) l (loc_within loc) = Ok s -> s <> 0 ->
   stress_series K false true loc = Ok (Some (map (Rmult (shear_mod l / s)) ts))).
Proof.
  intros Hl Ht. unfold strain_series in Ht. unfold stress_series, stress_tfs. rewrite Hl.
  destruct (strain_tfs K loc) as [t|]; [|discriminate]. cbn [bind] in *.
  destruct (calc_time_series (k_motion K) (Some (OArray t))) as [u|] eqn:Eu; [|discriminate]. cbn [bind] in Ht. injection Ht as <-.
  split.
  - rewrite finite_some, (series_tf_scale _ _ _ _ Eu). reflexivity.
  - intros Es Hs. rewrite Es. cbn [bind].
    replace (map (fun z => cdivx z (RtoC s)) (map (fun z => Cmult z (RtoC (shear_mod l))) t))
      with (map Some (map (fun z => Cmult z (RtoC (shear_mod l / s))) t)).
    + rewrite finite_some, (series_tf_scale _ _ _ _ Eu). reflexivity.
    + rewrite !map_map. apply map_ext. intros z. rewrite cdivx_some by (now apply RtoC_neq_0). f_equal.
      rewrite RtoC_div by exact Hs. unfold Cdiv. ring.
Qed.

(** C112: weight above the point less the weight of the water above it. *)
Theorem effective_value wt l z s : effective_stress wt l z = Ok s <->
  z <= l_thick l /\
  (l_depth l + z <= wt -> s = l_svert l + z * s_unit_wt (l_soil l)) /\
  (wt <= l_depth l + z -> s = l_svert l + z * s_unit_wt (l_soil l) - GRAVITY * (l_depth l + z - wt)).
Proof.
  unfold effective_stress, stress_vert_total, pore_pressure, Rleb. destruct (Rle_dec z (l_thick l)) as [L|N]; cbn [bind].
  - split.
    + intros H. injection H as <-. split; [exact L|]. split; intros W; [rewrite Rmax_right by lra; ring|rewrite Rmax_left by lra; ring].
    + intros (_ & A & B). f_equal. destruct (Rle_dec (l_depth l + z) wt) as [W|W].
      * rewrite (A W), Rmax_right by lra. ring.
      * rewrite B by lra. rewrite Rmax_left by lra. ring.
  - split; [discriminate|]. intros [L _]. lra.
Qed.

Theorem eql_csr P m v lin reset ls t stop ls' wv wt vs : ls <> [] ->
  eql_call P (as_motion m v) lin reset ls = (t, Ok (stop, ls', wv)) ->
  csr_values (combine ls' (map (fun l => effective_stress wt l (l_thick l / 2)) ls')) = Ok vs ->
  let K := mkCalc m ls' wt lin wv in
  forall i l s, (S i < length ls')%nat -> nth_error ls' i = Some l -> 0 <= shear_mod l ->
  effective_stress wt l (l_thick l / 2) = Ok s -> 0 < s ->
  exists ts p, stress_series K false true (mkLoc i (l_thick l / 2) Within) = Ok (Some ts) /\ is_peak ts p /\
    nth_error vs (S i) = Some (Some (0.65 * p)).
Proof.
  intros Hne H HV K i l s Hi Hl HG Hs Hs0.
  destruct (eql_strain_series P m v lin reset ls t stop ls' wv wt Hne H i l Hi Hl) as (mx & ts & E1 & E2 & E3). fold K in E2.
  destruct (strain_gives_stress K l (mkLoc i (l_thick l / 2) Within) s ts Hl E2) as [_ G].
  exists (map (Rmult (shear_mod l / s)) ts), (Rabs (shear_mod l / s) * mx).
  split; [apply G; [exact Hs|lra]|]. split; [now apply is_peak_scale|].
  rewrite Rabs_pos_eq by (apply Rmult_le_pos; [exact HG|left; now apply Rinv_0_lt_compat]).
  replace (shear_mod l / s * mx) with (shear_mod l * mx / s) by (unfold Rdiv; ring).
  apply (csr_content ls' _ vs HV i l s mx); [|exact E1|lra].
  rewrite nth_removelast_lt by (rewrite combine_length, map_length; lia).
  rewrite <- Hs. apply nth_error_combine; [exact Hl|]. exact (map_nth_error (fun l => effective_stress wt l (l_thick l / 2)) _ _ Hl).
Qed.

(** * C113: ratios of response spectra *)
Lemma ratio_entries xs : forall ys, length xs = length ys -> List.Forall (fun x => x <> 0) xs ->
  map2 (fun y x => div_opt y x) ys xs = map Some (map2 (fun y x => y / x) ys xs).
Proof.
  unfold map2. induction xs as [|x xs IH]; intros [|y ys] HL HF; try discriminate; [reflexivity|].
  inversion HF as [|? ? Hx HF']; subst. cbn [combine map fst snd]. rewrite IH; [|now injection HL|exact HF'].
  f_equal. unfold div_opt. destruct (Reqb x 0) eqn:E; [apply Reqb_true in E; contradiction|reflexivity].
Qed.
Lemma osc_length m fs xi tf ps : calc_osc_accels m fs xi tf = Ok ps -> length ps = length fs.
Proof.
  revert ps; induction fs as [|f fs IH]; intros ps H; cbn [calc_osc_accels] in H; [now injection H as <-|].
  destruct (osc_accel m xi tf f); [|discriminate]. cbn [bind] in H. destruct (calc_osc_accels m fs xi tf) as [r|]; [|discriminate].
  cbn [bind] in H. injection H as <-. cbn. f_equal. now apply IH.
Qed.
Lemma response_length K xi fs loc ps : response_spectrum_at K xi fs loc = Ok (Some ps) -> length ps = length fs.
Proof.
  unfold response_spectrum_at. destruct (accel_tfs K (k_input K) loc) as [o|]; [|discriminate]. cbn [bind]. intros H.
  destruct (finite_inv _ _ _ H) as (t & _ & Ht). exact (osc_length _ _ _ _ _ Ht).
Qed.
Lemma ratio_values K xi fs la lb xa xb : response_spectrum_at K xi fs la = Ok (Some xa) ->
  response_spectrum_at K xi fs lb = Ok (Some xb) -> List.Forall (fun x => x <> 0) xa ->
  spectrum_ratio K xi fs la lb = Ok (Some (map Some (map2 (fun y x => y / x) xb xa))).
Proof.
  intros Ha Hb HF. unfold spectrum_ratio. rewrite Ha, Hb. cbn [bind opt_bind]. do 2 f_equal. apply ratio_entries; [|exact HF].
  rewrite (response_length _ _ _ _ _ Ha), (response_length _ _ _ _ _ Hb). reflexivity.
Qed.
Lemma map2_nth {A B D} (f : A -> B -> D) xs : forall ys i x y, nth_error xs i = Some x -> nth_error ys i = Some y ->
  nth_error (map2 f xs ys) i = Some (f x y).
Proof.
  unfold map2. induction xs as [|x0 xs IH]; intros [|y0 ys] [|i] x y Hx Hy; try discriminate; cbn [combine map nth_error fst snd] in *.
  - congruence.
  - exact (IH ys i x y Hx Hy).
Qed.

Theorem ratio_laws K xi fs la lb lc xa xb xc :
  response_spectrum_at K xi fs la = Ok (Some xa) -> response_spectrum_at K xi fs lb = Ok (Some xb) ->
  response_spectrum_at K xi fs lc = Ok (Some xc) -> List.Forall (fun x => x <> 0) xa -> List.Forall (fun x => x <> 0) xb ->
  spectrum_ratio K xi fs la la = Ok (Some (map (fun _ => Some 1) fs)) /\
  exists rab rba rbc rac, spectrum_ratio K xi fs la lb = Ok (Some (map Some rab)) /\
    spectrum_ratio K xi fs lb la = Ok (Some (map Some rba)) /\
    spectrum_ratio K xi fs lb lc = Ok (Some (map Some rbc)) /\
    spectrum_ratio K xi fs la lc = Ok (Some (map Some rac)) /\
    forall i, (i < length fs)%nat -> exists p q r s, nth_error rab i = Some p /\ nth_error rba i = Some q /\
      nth_error rbc i = Some r /\ nth_error rac i = Some s /\ p * q = 1 /\ p * r = s.
Proof.
  intros Ha Hb Hc Na Nb.
  pose proof (response_length _ _ _ _ _ Ha) as LA. pose proof (response_length _ _ _ _ _ Hb) as LB. pose proof (response_length _ _ _ _ _ Hc) as LC.
  split.
  - rewrite (ratio_values K xi fs la la xa xa Ha Ha Na). do 2 f_equal. clear - LA Na. revert fs LA.
    unfold map2. induction Na as [|x xs Hx HF IH]; intros [|f fs] HL; try discriminate; [reflexivity|]. cbn [combine map fst snd].
    rewrite (IH fs) by (now injection HL). do 2 f_equal. field. exact Hx.
  - eexists _, _, _, _. split; [exact (ratio_values K xi fs la lb xa xb Ha Hb Na)|]. split; [exact (ratio_values K xi fs lb la xb xa Hb Ha Nb)|].
    split; [exact (ratio_values K xi fs lb lc xb xc Hb Hc Nb)|]. split; [exact (ratio_values K xi fs la lc xa xc Ha Hc Na)|].
    intros i Hi. destruct (nth_error xa i) as [x|] eqn:Ex; [|apply nth_error_None in Ex; lia].
    destruct (nth_error xb i) as [y|] eqn:Ey; [|apply nth_error_None in Ey; lia].
    destruct (nth_error xc i) as [z|] eqn:Ez; [|apply nth_error_None in Ez; lia].
    exists (y / x), (x / y), (z / y), (z / x). rewrite Forall_forall in Na, Nb.
    pose proof (Na x (nth_error_In _ _ Ex)). pose proof (Nb y (nth_error_In _ _ Ey)).
    repeat split; try (now apply map2_nth); field; auto.
Qed.

(** A multiple of the record has the same ratios. *)
Theorem ratio_scaled dt c a fa m m' : c <> 0 -> new_motion dt a fa = Ok m -> new_motion dt (map (Rmult c) a) fa = Ok m' ->
  forall K xi fs la lb rs, spectrum_ratio (with_motion K m) xi fs la lb = Ok (Some rs) ->
  spectrum_ratio (with_motion K m') xi fs la lb = Ok (Some rs).
Proof.
  intros Hc H H' K xi fs la lb rs HR. unfold spectrum_ratio in *.
  destruct (response_spectrum_at (with_motion K m) xi fs la) as [[xa|]|] eqn:Ea; cbn [bind opt_bind] in HR; try discriminate.
  2:{ destruct (response_spectrum_at (with_motion K m) xi fs lb); discriminate. }
  destruct (response_spectrum_at (with_motion K m) xi fs lb) as [[xb|]|] eqn:Eb; cbn [bind opt_bind] in HR; try discriminate.
  rewrite (scaled_response dt c a fa m m' H H' K xi fs la xa Ea), (scaled_response dt c a fa m m' H H' K xi fs lb xb Eb).
  cbn [bind opt_bind]. injection HR as <-. do 2 f_equal. clear - Hc. unfold map2. revert xa.
  induction xb as [|y xb IH]; intros [|x xa]; [reflexivity..|]. cbn [map combine fst snd]. rewrite IH. f_equal.
  assert (Rabs c <> 0) by (now apply Rabs_no_R0). unfold div_opt.
  destruct (Reqb x 0) eqn:E1, (Reqb (Rabs c * x) 0) eqn:E2; try reflexivity.
  - apply Reqb_true in E1. subst x. rewrite Rmult_0_r, Reqb_refl in E2. discriminate.
  - apply Reqb_true in E2. apply Reqb_false in E1. exfalso. apply Rmult_integral in E2. tauto.
  - apply Reqb_false in E1. f_equal. field. tauto.
Qed.

(** * C114: values between the frequencies of the motion *)
Lemma interp_read_off xs ys x : length xs = length ys -> xsorted (combine xs ys) -> xs <> [] ->
  read_off xs ys x (np_interp x (combine xs ys)).
Proof.
  intros HL HS Hne. split; [|split].
  - intros x0 y0 Hx Hy Hle. destruct xs as [|a xs]; [discriminate|]. destruct ys as [|b ys]; [discriminate|].
    injection Hx as ->. injection Hy as ->. cbn [combine] in *. now apply np_interp_left.
  - intros x1 y1 Hx Hy Hle. apply (np_interp_right x _ x1 y1 HS); [|exact Hle].
    clear - HL Hx Hy. revert ys HL Hx Hy. induction xs as [|a xs IH]; intros [|b ys] HL Hx Hy; try discriminate.
    destruct xs as [|a' xs], ys as [|b' ys]; try discriminate.
    + injection Hx as ->. injection Hy as ->. reflexivity.
    + change (last_opt (combine (a' :: xs) (b' :: ys)) = Some (x1, y1)). apply IH; [cbn in *; lia|exact Hx|exact Hy].
  - intros i x0 x1 y0 y1 H0 H1 G0 G1 Hx.
    pose proof (nth_error_combine _ _ _ _ _ H0 G0) as C0. pose proof (nth_error_combine _ _ _ _ _ H1 G1) as C1.
    rewrite (np_interp_mid x _ i x0 y0 x1 y1 HS C0 C1 Hx).
    assert (Hlt : x0 < x1).
    { clear - HS C0 C1. revert i C0 C1. induction HS as [|p l HS IH HF]; intros [|i] C0 C1; try discriminate.
      - injection C0 as ->. rewrite Forall_forall in HF. change (nth_error l 0 = Some (x1, y1)) in C1. exact (HF _ (nth_error_In _ _ C1)).
      - exact (IH i C0 C1). }
    exists ((x - x0) / (x1 - x0)). split; [|split; field; lra].
    split; [apply Rmult_le_pos; [lra|left; apply Rinv_0_lt_compat; lra]|].
    apply (Rmult_le_reg_r (x1 - x0)); [lra|]. unfold Rdiv. rewrite Rmult_assoc, Rinv_l; lra.
Qed.

Lemma freqs_increasing dt a fa m : 0 < dt -> new_motion dt a fa = Ok m -> StronglySorted Rlt (t_freqs m).
Proof.
  intros Hdt H. destruct (new_motion_inv _ _ _ _ H) as (n & _ & Hn & _ & _ & _ & _ & EF). rewrite EF.
  assert (Hs : 0 < 1 / (2 * dt * (IZR n / 2))).
  { assert (0 < IZR n) by (apply IZR_lt; lia). apply Rdiv_lt_0_compat; [lra|]. nra. }
  set (c := 1 / (2 * dt * (IZR n / 2))) in *. clearbody c. clear - Hs.
  generalize 0%nat as s. induction (arange_count n) as [|k IH]; intros s; cbn [seq map]; constructor; [apply IH|].
  apply Forall_forall. intros x Hx. apply in_map_iff in Hx. destruct Hx as (j & <- & Hj). apply in_seq in Hj.
  apply Rmult_lt_compat_l; [exact Hs|]. apply lt_INR. lia.
Qed.
Lemma freqs_nonempty dt a fa m : new_motion dt a fa = Ok m -> t_freqs m <> [].
Proof.
  intros H. destruct (new_motion_inv _ _ _ _ H) as (n' & _ & H1 & _ & _ & _ & _ & EF). intros E. apply (f_equal (@length R)) in E.
  rewrite EF, map_length, seq_length in E. unfold arange_count in E. cbn [length] in E.
  assert (0 <= (n' + 1) / 2)%Z by (apply Z.div_pos; lia). lia.
Qed.

Lemma resample_read_off dt a fa m fs ys : 0 < dt -> new_motion dt a fa = Ok m -> length ys = length (t_freqs m) ->
  exists vs, resample None fs (t_freqs m) ys = Ok vs /\ length vs = length fs /\
  forall i f v, nth_error fs i = Some f -> nth_error vs i = Some v -> read_off (t_freqs m) ys f v.
Proof.
  intros Hdt H HL. unfold resample. rewrite HL, Nat.eqb_refl. eexists. split; [reflexivity|]. split; [now rewrite map_length|].
  intros i f v Hf Hv. rewrite (map_nth_error _ _ _ Hf) in Hv. injection Hv as <-.
  apply interp_read_off; [symmetry; exact HL|apply xsorted_pairs; [symmetry; exact HL|exact (freqs_increasing _ _ _ _ Hdt H)]|exact (freqs_nonempty _ _ _ _ H)].
Qed.

Theorem transfer_read_off dt a fa m K t fs lin lout : 0 < dt -> new_motion dt a fa = Ok m -> k_motion K = m ->
  length (k_waves K) = length (t_freqs m) -> accel_tfs K lin lout = Ok (map Some t) ->
  exists vs cs, transfer_function K None fs lin lout = Ok (Some vs) /\
    transfer_function_complex K fs lin lout = Ok (Some cs) /\
    length vs = length fs /\ length cs = length fs /\
    forall i f v z, nth_error fs i = Some f -> nth_error vs i = Some v -> nth_error cs i = Some z ->
      read_off (t_freqs m) (map Cmod t) f v /\ read_off (t_freqs m) (map Re t) f (Re z) /\ read_off (t_freqs m) (map Im t) f (Im z).
Proof.
  intros Hdt H Ek HW HT.
  assert (LT : length t = length (t_freqs m)).
  { unfold accel_tfs in HT. destruct (_ && _)%bool; [|discriminate]. destruct (mapM_nth _ _ _ HT) as [HL _].
    rewrite map_length in HL. lia. }
  destruct (resample_read_off dt a fa m fs (map Cmod t) Hdt H ltac:(rewrite map_length; exact LT)) as (vs & E1 & L1 & R1).
  destruct (resample_read_off dt a fa m fs (map Re t) Hdt H ltac:(rewrite map_length; exact LT)) as (re & E2 & L2 & R2).
  destruct (resample_read_off dt a fa m fs (map Im t) Hdt H ltac:(rewrite map_length; exact LT)) as (im & E3 & L3 & R3).
  exists vs, (combine re im). unfold transfer_function, transfer_function_complex. rewrite HT, Ek. cbn [bind]. rewrite !finite_some, E1, E2, E3. cbn [bind].
  split; [reflexivity|]. split; [reflexivity|]. split; [exact L1|]. split; [change (@length (R * R) (combine re im) = length fs); rewrite combine_length; lia|].
  intros i f v z Hf Hv Hz.
  destruct (nth_error re i) as [x|] eqn:Ex; [|apply nth_error_None in Ex; assert (i < length fs)%nat by (apply nth_error_Some; congruence); lia].
  destruct (nth_error im i) as [y|] eqn:Ey; [|apply nth_error_None in Ey; assert (i < length fs)%nat by (apply nth_error_Some; congruence); lia].
  assert (G : Some z = Some (x, y)) by (rewrite <- Hz; exact (nth_error_combine _ _ _ _ _ Ex Ey)). injection G as ->. cbn [Re Im fst snd].
  split; [exact (R1 i f v Hf Hv)|]. split; [exact (R2 i f x Hf Ex)|exact (R3 i f y Hf Ey)].
Qed.

(** The Fourier amplitudes: the modulus of the transfer function times that of the
    record's own Fourier sum (times the time step). *)
Theorem fourier_read_off dt a n m K t fs loc : 0 < dt -> Z.even n = true -> new_motion dt a (Some n) = Ok m -> k_motion K = m ->
  length (k_waves K) = length (t_freqs m) -> accel_tfs K (k_input K) loc = Ok (map Some t) ->
  exists rec amps vs, is_padded (Z.to_nat n) a rec /\ length amps = length (t_freqs m) /\
    (forall k z x, nth_error t k = Some z -> fourier_sum rec k x -> nth_error amps k = Some (Cmod z * (dt * Cmod x))) /\
    fourier_spectrum K None fs loc = Ok (Some vs) /\ length vs = length fs /\
    forall i f v, nth_error fs i = Some f -> nth_error vs i = Some v -> read_off (t_freqs m) amps f v.
Proof.
  intros Hdt He H Ek HW HT.
  assert (LT : length t = length (t_freqs m)).
  { unfold accel_tfs in HT. destruct (_ && _)%bool; [|discriminate]. destruct (mapM_nth _ _ _ HT) as [HL _].
    rewrite map_length in HL. lia. }
  destruct (frequency_count _ _ _ _ H) as (n' & E & Hn & HA & HF & _). cbn in E. subst n'. pose proof (proj2 HF He) as LF.
  destruct (new_motion_inv _ _ _ _ H) as (n' & E & _ & _ & Ed & _ & EA & _). cbn in E. subst n'.
  destruct (even_half n Hn He) as (h & Hh & En & Ez).
  assert (LA : length (fourier_amps m) = length t) by (unfold fourier_amps; rewrite map_length; lia).
  assert (LP : length (map Cmod (map2 Cmult t (fourier_amps m))) = length (t_freqs m)) by (rewrite map_length, map2_len; lia).
  destruct (resample_read_off dt a (Some n) m fs _ Hdt H LP) as (vs & E1 & L1 & R1).
  exists (fit (Z.to_nat n) a), (map Cmod (map2 Cmult t (fourier_amps m))), vs.
  split; [apply fit_padded|]. split; [exact LP|]. split.
  - intros k z x Hz Hx. assert (Hk : (k < length t)%nat) by (apply nth_error_Some; congruence).
    assert (Ex : nth_error (fourier_amps m) k = Some (Cmult (RtoC dt) x)).
    { unfold fourier_amps. rewrite Ed. apply map_nth_error. rewrite EA.
      rewrite (map_nth_error _ _ _ (d := k)).
      - f_equal. unfold fourier_sum in Hx. cbv zeta in Hx. destruct (fit_padded (Z.to_nat n) a) as [Lf _]. rewrite Lf in Hx.
        symmetry. exact Hx.
      - rewrite EA, map_length, seq_length in LF.
        rewrite (nth_error_nth' _ 0%nat) by (rewrite seq_length; lia). rewrite seq_nth by lia. reflexivity. }
    rewrite (map_nth_error Cmod _ _ (map2_nth Cmult t _ k _ _ Hz Ex)). f_equal. rewrite !Cmod_mult, Cmod_R, (Rabs_pos_eq dt) by lra. reflexivity.
  - split; [|split; [exact L1|exact R1]]. unfold fourier_spectrum. rewrite HT, Ek. cbn [bind]. rewrite finite_some. unfold np_mul.
    rewrite LA, Nat.eqb_refl. cbn [bind]. rewrite E1. reflexivity.
Qed.

(** * C116: normalised stresses *)
Theorem normalised_surface K damped l : nth_error (k_layers K) 0 = Some l -> l_depth l = 0 -> l_svert l = 0 -> 0 <= l_thick l ->
  0 <= k_wt K -> k_waves K <> [] -> t_freqs (k_motion K) <> [] ->
  forall ts, stress_series K damped true (mkLoc 0 0 Within) <> Ok (Some ts).
Proof.
  intros Hl Hd Hs Ht Hw Hwv Hf ts H. unfold stress_series in H. cbn [loc_index loc_within] in H. rewrite Hl in H.
  unfold stress_tfs in H. destruct (strain_tfs K (mkLoc 0 0 Within)) as [t|] eqn:Et; [|discriminate]. cbn [bind] in H.
  unfold effective_stress, stress_vert_total in H. rewrite (proj2 (Rleb_true _ _) Ht) in H. cbn [bind] in H.
  assert (E0 : l_svert l + 0 * s_unit_wt (l_soil l) - pore_pressure (k_wt K) (l_depth l + 0) = 0).
  { rewrite Hd, Hs. unfold pore_pressure. rewrite Rmax_right by lra. ring. }
  rewrite E0 in H. destruct (finite_inv _ _ _ H) as (u & Eu & _).
  assert (Lt : t <> []).
  { unfold strain_tfs, calc_strain_tfs in Et. cbn [loc_field] in Et. destruct (_ && _)%bool; [|discriminate].
    destruct (mapM_nth _ _ _ Et) as [HL _]. rewrite combine_length in HL. cbn in HL. unfold angular_freqs in HL. rewrite map_length in HL.
    destruct (k_waves K); [contradiction|]. destruct (t_freqs (k_motion K)); [contradiction|]. destruct t; [discriminate|discriminate]. }
  destruct t as [|z t]; [contradiction|]. cbn [map] in Eu. unfold cdivx in Eu at 1.
  destruct (Ceq_dec (RtoC 0) (RtoC 0)); [|contradiction]. destruct u; discriminate.
Qed.

Theorem normalised_below K damped l loc t : nth_error (k_layers K) (loc_index loc) = Some l -> l_thick l < loc_within loc ->
  strain_tfs K loc = Ok t -> stress_series K damped true loc = Err AssertionError.
Proof.
  intros Hl Hw Ht. unfold stress_series, stress_tfs. rewrite Hl, Ht. cbn [bind]. unfold effective_stress, stress_vert_total.
  destruct (Rleb (loc_within loc) (l_thick l)) eqn:E; [apply Rleb_true in E; lra|]. reflexivity.
Qed.

Theorem normalised_inside K damped l loc s ts : nth_error (k_layers K) (loc_index loc) = Some l ->
  stress_series K damped false loc = Ok (Some ts) -> effective_stress (k_wt K) l (loc_within loc) = Ok s -> s <> 0 ->
  stress_series K damped true loc = Ok (Some (map (Rmult (1 / s)) ts)).
Proof.
  intros Hl H Hs Hs0. unfold stress_series in *. rewrite Hl in *. destruct (stress_tfs K damped l loc) as [t|]; [|discriminate].
  cbn [bind] in *. rewrite Hs. cbn [bind]. rewrite finite_some in H.
  destruct (calc_time_series (k_motion K) (Some (OArray t))) as [u|] eqn:Eu; [|discriminate]. cbn [bind] in H. injection H as <-.
  replace (map (fun z => cdivx z (RtoC s)) t) with (map Some (map (fun z => Cmult z (RtoC (1 / s))) t)).
  - rewrite finite_some, (series_tf_scale _ _ _ _ Eu). reflexivity.
  - rewrite map_map. apply map_ext. intros z. rewrite cdivx_some by (now apply RtoC_neq_0). f_equal.
    rewrite RtoC_div by exact Hs0. unfold Cdiv. ring.
Qed.

(** * C117: the profile of peak accelerations *)
Lemma top_location ls above l below : depths_cumulative ls -> List.Forall (fun x => 0 < l_thick x) (removelast ls) ->
  ls = above ++ l :: below -> lookup_view ls (l_depth l) = Ok (length above, 0).
Proof.
  intros HD HP E.
  assert (Hall : forall xs y ys zs, ls = xs ++ y :: ys ++ zs -> zs <> [] -> 0 < l_thick y).
  { intros xs y ys zs -> Hz. rewrite Forall_forall in HP. apply HP. rewrite removelast_app by discriminate.
    apply in_or_app. right. change (y :: ys ++ zs) with ((y :: ys) ++ zs). rewrite removelast_app by exact Hz. now left. }
  assert (Hpos : forall xs, (exists ys, ls = xs ++ ys /\ ys <> []) -> 0 <= total_thick xs).
  { induction xs as [|x xs IH] using rev_ind; intros (ys & Ey & Hy); [cbn; lra|].
    rewrite <- app_assoc in Ey. assert (0 < l_thick x) by (apply (Hall xs x [] ys Ey Hy)).
    assert (0 <= total_thick xs) by (apply IH; exists ([x] ++ ys); split; [exact Ey|discriminate]).
    rewrite total_thick_app. unfold total_thick at 2. cbn. lra. }
  assert (Ed : l_depth l = total_thick above) by (now apply (HD above l below)).
  assert (H0 : 0 <= l_depth l) by (rewrite Ed; apply Hpos; exists (l :: below); split; [exact E|discriminate]).
  assert (Hne : ls <> []) by (rewrite E; now destruct above).
  destruct (lookup_view_spec ls (l_depth l) Hne HD H0) as (i & u & HL & (ab & l' & be & E' & Ei & Et & Hu & Hb)).
  rewrite HL. rewrite Ed in Et.
  assert (Hcmp : ab = above /\ l' = l).
  { pose proof E' as G. rewrite E in G. destruct (Nat.lt_trichotomy (length above) (length ab)) as [L|[L|L]].
    - exfalso. assert (exists mid, ab = above ++ l :: mid).
      { clear - G L. revert ab G L. induction above as [|x above IH]; intros [|y ab] G L; cbn in L; try lia; cbn [app] in G.
        - injection G as -> G. now exists ab.
        - injection G as -> G. destruct (IH ab G ltac:(lia)) as [mid ->]. now exists mid. }
      destruct H as [mid ->]. rewrite total_thick_app, total_thick_cons in Et.
      assert (0 < l_thick l) by (apply (Hall above l mid (l' :: be)); [rewrite E', <- app_assoc; reflexivity|discriminate]).
      assert (0 <= total_thick mid).
      { clear - Hall E'. assert (HH : forall xs pre, ls = pre ++ xs ++ l' :: be -> 0 <= total_thick xs).
        { induction xs as [|x xs IH]; intros pre Ex; [cbn; lra|]. rewrite total_thick_cons.
          assert (0 < l_thick x) by (apply (Hall pre x xs (l' :: be)); [exact Ex|discriminate]).
          assert (0 <= total_thick xs) by (apply (IH (pre ++ [x])); rewrite <- app_assoc; exact Ex). lra. }
        apply (HH mid (above ++ [l])). rewrite E', <- !app_assoc. reflexivity. }
      lra.
    - clear - G L. revert ab G L. induction above as [|x above IH]; intros [|y ab] G L; cbn in L; try lia; cbn [app] in G.
      + injection G as -> _. now split.
      + injection G as -> G. destruct (IH ab G ltac:(lia)) as [-> ->]. now split.
    - exfalso. assert (exists mid, above = ab ++ l' :: mid).
      { clear - G L. revert above G L. induction ab as [|x ab IH]; intros [|y above] G L; cbn in L; try lia; cbn [app] in G.
        - injection G as -> G. now exists above.
        - injection G as -> G. destruct (IH above G ltac:(lia)) as [mid ->]. now exists mid. }
      destruct H as [mid ->]. rewrite total_thick_app, total_thick_cons in Et.
      assert (be <> []).
      { intros ->. rewrite <- app_assoc in G. apply app_inv_head in G. cbn in G. injection G as G. now destruct mid. }
      specialize (Hb H).
      assert (0 <= total_thick mid).
      { assert (HH : forall xs pre, ls = pre ++ xs ++ l :: below -> 0 <= total_thick xs).
        { clear - Hall. induction xs as [|x xs IH]; intros pre Ex; [cbn; lra|]. rewrite total_thick_cons.
          assert (0 < l_thick x) by (apply (Hall pre x xs (l :: below)); [exact Ex|discriminate]).
          assert (0 <= total_thick xs) by (apply (IH (pre ++ [x])); rewrite <- app_assoc; exact Ex). lra. }
        apply (HH mid (ab ++ [l'])). rewrite E, <- !app_assoc. reflexivity. }
      lra. }
  destruct Hcmp as [-> _]. subst i. f_equal. f_equal. lra.
Qed.

Lemma accel_values_nth acc ds vs i d : accel_values acc ds = Ok vs -> nth_error ds i = Some d ->
  exists c, acc d = Ok c /\ nth_error vs i = Some c.
Proof.
  revert vs i; induction ds as [|x ds IH]; intros vs [|i] H Hd; try discriminate; cbn [accel_values] in H;
    destruct (acc x) as [c|] eqn:E; try discriminate; cbn [bind] in H; destruct (accel_values acc ds) as [r|] eqn:Er; try discriminate;
    cbn [bind] in H; injection H as <-; cbn [nth_error] in *.
  - injection Hd as <-. exists c. now split.
  - exact (IH r i eq_refl Hd).
Qed.

Theorem max_accel_peaks K vs : depths_cumulative (k_layers K) -> List.Forall (fun x => 0 < l_thick x) (removelast (k_layers K)) ->
  max_accel_values K = Ok vs -> length vs = length (k_layers K) /\
  forall i c, nth_error vs i = Some c ->
    match c with
    | Some p => exists ts, accel_series K (mkLoc i 0 Within) = Ok (Some ts) /\ is_peak ts p
    | None => accel_series K (mkLoc i 0 Within) = Ok None
    end.
Proof.
  intros HD HP H. unfold max_accel_values in H. pose proof (accel_lengths _ _ _ H) as HL. unfold top_refs in HL. rewrite map_length in HL.
  split; [exact HL|]. intros i c Hc. destruct (nth_error (k_layers K) i) as [l|] eqn:El.
  2:{ apply nth_error_None in El. assert (i < length vs)%nat by (apply nth_error_Some; congruence). lia. }
  destruct (accel_values_nth _ _ _ i (l_depth l) H (map_nth_error l_depth _ _ El)) as (c' & Ec & Ec'). assert (c' = c) by congruence. subst c'.
  destruct (nth_error_split _ _ El) as (above & below & Es & Ei). subst i.
  unfold peak_at_depth in Ec. rewrite (top_location _ above l below HD HP Es) in Ec. cbn [bind fst snd] in Ec.
  unfold accel_series. destruct (accel_tfs K (k_input K) (mkLoc (length above) 0 Within)) as [o|]; [|discriminate]. cbn [bind] in *.
  unfold finite in *. destruct (map_opt (fun x => x) o) as [t|]; unfold calc_peak in Ec.
  - destruct (calc_time_series (k_motion K) (Some (OArray t))) as [ts|] eqn:Ets; [|discriminate]. cbn [bind] in *. injection Ec as <-.
    exists ts. split; [reflexivity|]. apply peak_of_spec. exact (series_nonempty _ _ _ Ets).
  - destruct (calc_time_series (k_motion K) (Some (OArray (map (fun _ => RtoC 0) o)))) as [ts|]; [|discriminate]. cbn [bind] in *.
    injection Ec as <-. reflexivity.
Qed.
