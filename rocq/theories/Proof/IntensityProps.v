(** Intensity measures of motions: scaling, delays, velocity and energy. *)
From Verif Require Import Common Model.Layer Model.Averages Model.Output Model.Motion Spec.OutputSpec Spec.MotionSpec
  Spec.ResultsSpec Spec.IntensitySpec Proof.CommonFacts Proof.CurveFacts Proof.WaveFacts Proof.OutputValues Proof.MotionFacts
  Proof.MotionProps Proof.ResultsProps.
From Coq Require Import Permutation.
From Coquelicot Require Import Coquelicot.
Local Open Scope R_scope.

(** ** Scaling *)
Lemma area_scale c dt ys : area dt (map (Rmult c) ys) = c * area dt ys.
Proof.
  induction ys as [|a ys IH]; [cbn; ring|]. destruct ys as [|b ys]; [cbn; ring|].
  cbn [map] in *. change (area dt (c * a :: c * b :: map (Rmult c) ys)) with (dt * (c * a + c * b) / 2 + area dt (c * b :: map (Rmult c) ys)).
  rewrite IH. change (area dt (a :: b :: ys)) with (dt * (a + b) / 2 + area dt (b :: ys)). field.
Qed.
Theorem intensity_scaled dt c a fa m m' tf : new_motion dt a fa = Ok m -> new_motion dt (map (Rmult c) a) fa = Ok m' ->
  (forall p, calc_peak m tf = Ok p -> calc_peak m' tf = Ok (Rabs c * p)) /\
  (forall p, calc_pgv m tf = Ok p -> calc_pgv m' tf = Ok (Rabs c * p)) /\
  (forall p, motion_arias m tf = Ok p -> motion_arias m' tf = Ok (c ^ 2 * p)) /\
  (forall p, motion_cav m tf = Ok p -> motion_cav m' tf = Ok (Rabs c * p)).
Proof.
  intros H H'. destruct (motion_comb _ _ _ _ _ _ _ _ _ _ (scale_combines c a) H H H') as (_ & EF & Ed & _ & Ed' & _).
  assert (P : forall tf p, calc_peak m tf = Ok p -> calc_peak m' tf = Ok (Rabs c * p)).
  { intros t p. unfold calc_peak. destruct (calc_time_series m t) as [s|] eqn:E; [|discriminate]. cbn [bind].
    intros G. injection G as <-. rewrite (series_scale dt c a fa m m' t s H H' E). cbn [bind]. now rewrite peak_scale. }
  split; [intros p; apply P|]. split; [|split].
  - intros p. unfold calc_pgv. assert (ET : tf_av m' = tf_av m) by (unfold tf_av; now rewrite EF). rewrite ET.
    destruct (np_mul _ (tf_av m)) as [t|]; [|discriminate]. cbn [bind].
    destruct (calc_peak m (Some (OArray t))) as [q|] eqn:E; [|discriminate]. cbn [bind]. intros G. injection G as <-.
    rewrite (P _ _ E). cbn [bind]. f_equal. ring.
  - intros p. unfold motion_arias. destruct (calc_time_series m _) as [s|] eqn:E; [|discriminate]. cbn [bind].
    intros G. injection G as <-. rewrite (series_scale dt c a fa m m' _ s H H' E). cbn [bind]. f_equal.
    unfold calc_arias_intensity. rewrite Ed, Ed', !trapezoid_area, map_map.
    rewrite (map_ext (fun x => (c * x) ^ 2) (fun x => c ^ 2 * x ^ 2)) by (intros; ring).
    rewrite <- (map_map (fun x => x ^ 2) (Rmult (c ^ 2))), area_scale. ring.
  - intros p. unfold motion_cav. destruct (calc_time_series m _) as [s|] eqn:E; [|discriminate]. cbn [bind].
    intros G. injection G as <-. rewrite (series_scale dt c a fa m m' _ s H H' E). cbn [bind]. f_equal.
    unfold calc_cav. rewrite Ed, Ed', !trapezoid_area, map_map.
    rewrite (map_ext (fun x => Rabs (c * x)) (fun x => Rabs c * Rabs x)) by (intros; apply Rabs_mult).
    rewrite <- (map_map Rabs (Rmult (Rabs c))), area_scale. ring.
Qed.

(** ** Energy *)
Lemma energy_nth xs : energy xs = Rsum (map (fun j => nth j xs 0 * nth j xs 0) (seq 0 (length xs))).
Proof.
  unfold energy. induction xs as [|x xs IH]; [reflexivity|]. cbn [map length seq]. rewrite !Rsum_cons, IH. cbn [nth].
  rewrite <- seq_shift, map_map. ring.
Qed.
Lemma parseval_sum h xs : (1 <= h)%nat -> length xs = (2 * h)%nat ->
  energy xs = (Cmod (dft (2 * h) xs 0) ^ 2 + Cmod (dft (2 * h) xs h) ^ 2 +
               2 * Rsum (map (fun k => Cmod (dft (2 * h) xs k) ^ 2) (seq 1 (h - 1)))) / (2 * INR h).
Proof.
  intros Hh HL. rewrite energy_nth, HL. assert (Hp : 0 < INR h) by (apply lt_0_INR; lia).
  assert (CM : forall z : C, Cmod z ^ 2 = Re z * Re z + Im z * Im z).
  { intros z. unfold Cmod. rewrite <- Rsqr_pow2, Rsqr_sqrt by (apply Rplus_le_le_0_compat; apply pow2_ge_0). unfold Re, Im. ring. }
  rewrite (Rsum_ext (fun j => nth j xs 0 * nth j xs 0)
    (fun j => Rsum (map (fun k => wt h k / (2 * INR h) * (Re (dft (2 * h) xs k) * (nth j xs 0 * cos (INR k * ang h (INR j))) -
       Im (dft (2 * h) xs k) * (nth j xs 0 * sin (INR k * ang h (INR j))))) (seq 0 (S h))))).
  2:{ intros j Hj. apply in_seq in Hj. rewrite <- (inverse_of_transform h Hh xs j) at 1 by lia.
      rewrite inv_sample_eq by exact Hh. unfold Rdiv. rewrite Rmult_assoc, (Rmult_comm _ (/ (2 * INR h) * nth j xs 0)), <- Rsum_scal.
      apply Rsum_ext. intros k Hk. apply in_seq in Hk.
      rewrite (nth_indep _ (RtoC 0) (dft (2 * h) xs 0)) by (rewrite map_length, seq_length; lia).
      rewrite map_nth, seq_nth, Nat.add_0_l by lia. ring. }
  rewrite Rsum_swap.
  rewrite (Rsum_ext _ (fun k => wt h k * (Cmod (dft (2 * h) xs k) ^ 2 / (2 * INR h)))).
  2:{ intros k _. rewrite Rsum_scal. rewrite CM.
      set (z := dft (2 * h) xs k). 
      assert (E : Rsum (map (fun a => Re z * (nth a xs 0 * cos (INR k * ang h (INR a))) - Im z * (nth a xs 0 * sin (INR k * ang h (INR a)))) (seq 0 (2 * h))) =
        Re z * Re z + Im z * Im z).
      { transitivity (Re z * Sum (2 * h) (fun a => nth a xs 0 * cos (INR a * ang h (INR k))) +
                      Im z * - Sum (2 * h) (fun a => nth a xs 0 * sin (INR a * ang h (INR k)))).
        - unfold Sum. rewrite Ropp_mult_distr_r_reverse, Ropp_mult_distr_l. rewrite <- !Rsum_scal, <- Rsum_plus. apply Rsum_ext. intros a _.
          replace (INR a * ang h (INR k)) with (INR k * ang h (INR a)) by (unfold ang; field; lra). ring.
        - unfold z. rewrite !dft_eq by exact Hh. cbn [Re Im fst snd]. reflexivity. }
      rewrite E. field. lra. }
  rewrite half_split by exact Hh. unfold Sum1. unfold Rdiv. rewrite (Rsum_ext (fun k => Cmod (dft (2 * h) xs k) ^ 2 * / (2 * INR h))
    (fun k => / (2 * INR h) * Cmod (dft (2 * h) xs k) ^ 2)) by (intros; ring). rewrite Rsum_scal. ring.
Qed.

Lemma even_motion dt a fa m n : new_motion dt a fa = Ok m -> fft_length (length a) fa n -> Z.even n = true ->
  exists h, (1 <= h)%nat /\ Z.to_nat n = (2 * h)%nat /\ IZR n = 2 * INR h /\ dt <> 0 /\ t_dt m = dt /\
  t_amps m = map (dft (2 * h) (fit (2 * h) a)) (seq 0 (S h)) /\
  t_freqs m = map (fun k => INR k / (2 * INR h * dt)) (seq 0 (S h)).
Proof.
  intros H Hn He. destruct (new_motion_inv _ _ _ _ H) as (n' & Hn' & H1 & Hd & Ed & _ & EA & EF).
  rewrite (fft_length_unique _ _ _ _ Hn' Hn) in *. clear n' Hn'. destruct (even_half n H1 He) as (h & Hh & En & Ez).
  assert (EI : IZR n = 2 * INR h) by (rewrite Ez, mult_IZR, <- INR_IZR_INZ; reflexivity).
  assert (0 < INR h) by (apply lt_0_INR; lia).
  exists h. split; [exact Hh|]. split; [exact En|]. split; [exact EI|]. split; [exact Hd|]. split; [exact Ed|]. split.
  - rewrite EA, En. do 2 f_equal. rewrite Nat.mul_comm, Nat.div_mul by lia. reflexivity.
  - rewrite EF. unfold arange_count. replace (Z.to_nat (1 + (n + 1) / 2)) with (S h).
    + apply map_ext. intros k. rewrite EI. field. split; [exact Hd|lra].
    + rewrite Ez. replace (2 * Z.of_nat h + 1)%Z with (1 + Z.of_nat h * 2)%Z by lia. rewrite Z.div_add by lia. change (1 / 2)%Z with 0%Z. lia.
Qed.

Lemma area_ends dt x xs y : area dt (x :: xs ++ y :: nil) = dt * Rsum (x :: xs ++ y :: nil) - dt * (x + y) / 2.
Proof.
  revert x; induction xs as [|z xs IH]; intros x.
  - cbn. field.
  - cbn [app]. change (area dt (x :: z :: xs ++ y :: nil)) with (dt * (x + z) / 2 + area dt (z :: xs ++ y :: nil)). rewrite IH.
    rewrite !Rsum_cons. field.
Qed.
Theorem parseval dt a fa m n rec : new_motion dt a fa = Ok m -> fft_length (length a) fa n -> Z.even n = true ->
  is_padded (Z.to_nat n) a rec ->
  exists F0 Fs Fn, fourier_amps m = F0 :: Fs ++ Fn :: nil /\
    dt * energy rec = (Cmod F0 ^ 2 + Cmod Fn ^ 2 + 2 * Rsum (map (fun F => Cmod F ^ 2) Fs)) / (IZR n * dt).
Proof.
  intros H Hn He Hp. destruct (even_motion _ _ _ _ _ H Hn He) as (h & Hh & En & EI & Hd & Ed & EA & _).
  rewrite En in Hp. rewrite (is_padded_unique _ _ _ _ Hp (fit_padded _ _)). clear rec Hp. set (r := fit (2 * h) a) in *.
  exists (Cmult dt (dft (2 * h) r 0)), (map (fun k => Cmult dt (dft (2 * h) r k)) (seq 1 (h - 1))), (Cmult dt (dft (2 * h) r h)).
  assert (Hp : 0 < INR h) by (apply lt_0_INR; lia). split.
  - unfold fourier_amps. rewrite EA, Ed, map_map. replace (S h) with (1 + ((h - 1) + 1))%nat by lia. rewrite !seq_app, !map_app. cbn [seq map app Nat.add].
    repeat f_equal. lia.
  - rewrite (parseval_sum h r Hh (proj1 (fit_padded _ _))), map_map, EI.
    assert (CM : forall z, Cmod (Cmult dt z) ^ 2 = dt ^ 2 * Cmod z ^ 2).
    { intros z. rewrite Cmod_mult, Cmod_R, Rpow_mult_distr, pow2_abs. reflexivity. }
    rewrite !CM, (Rsum_ext (fun k => Cmod (Cmult dt (dft (2 * h) r k)) ^ 2) (fun k => dt ^ 2 * Cmod (dft (2 * h) r k) ^ 2)) by (intros; apply CM).
    rewrite Rsum_scal. field. split; [exact Hd|lra].
Qed.
Theorem arias_energy dt a fa m n rec x y : new_motion dt a fa = Ok m -> fft_length (length a) fa n -> Z.even n = true ->
  is_padded (Z.to_nat n) a rec -> hd_error rec = Some x -> hd_error (rev rec) = Some y ->
  motion_arias m None = Ok (PI * GRAVITY / 2 * (dt * energy rec - dt * (x ^ 2 + y ^ 2) / 2)).
Proof.
  intros H Hn He Hp Hx Hy. destruct (round_trip dt a fa m (Some (OScalar (RtoC 1))) H) as (n' & Hn' & G).
  rewrite (fft_length_unique _ _ _ _ Hn' Hn) in G. destruct (G He (or_intror (or_introl eq_refl))) as (ts & E & Hts).
  rewrite (is_padded_unique _ _ _ _ Hts Hp) in E. unfold motion_arias, one_or. rewrite E. cbn [bind]. f_equal.
  destruct (new_motion_inv _ _ _ _ H) as (_ & _ & _ & _ & Ed & _). rewrite Ed.
  destruct (even_motion _ _ _ _ _ H Hn He) as (h & Hh & En & _). destruct Hp as [HL _]. rewrite En in HL.
  destruct rec as [|x' rec]; [cbn in HL; lia|]. injection Hx as <-.
  destruct rec as [|y' rec] using rev_ind; [cbn in HL; lia|]. clear IHrec. cbn [rev] in Hy. rewrite rev_app_distr in Hy. injection Hy as <-.
  unfold calc_arias_intensity. rewrite trapezoid_area. cbn [map]. rewrite map_app. cbn [map]. rewrite area_ends. f_equal.
  unfold energy. cbn [map]. rewrite map_app. cbn [map]. reflexivity.
Qed.

(** ** Delays *)
Definition turn (h k : nat) : C := (cos (PI * INR k / INR h), - sin (PI * INR k / INR h)).
Lemma dft_later h xs k : (1 <= h)%nat -> (length xs < 2 * h)%nat ->
  dft (2 * h) (0 :: xs) k = Cmult (turn h k) (dft (2 * h) xs k).
Proof.
  intros Hh HL. assert (Hp : 0 < INR h) by (apply lt_0_INR; lia). rewrite !dft_eq by exact Hh. unfold Sum.
  replace (2 * h)%nat with (1 + (2 * h - 1))%nat at 1 2 by lia. replace (2 * h)%nat with ((2 * h - 1) + 1)%nat at 3 4 by lia.
  rewrite !seq_app, !map_app, !Rsum_app. cbn [seq map Nat.add nth]. rewrite !Rsum_cons. cbn [Rsum fold_right].
  rewrite (nth_overflow xs) by lia. rewrite <- seq_shift, !map_map. cbn [nth].
  rewrite (Rsum_ext (fun x => nth x xs 0 * cos (INR (S x) * ang h (INR k)))
    (fun x => cos (PI * INR k / INR h) * (nth x xs 0 * cos (INR x * ang h (INR k))) + - sin (PI * INR k / INR h) * (nth x xs 0 * sin (INR x * ang h (INR k))))).
  2:{ intros x _. rewrite S_INR. replace ((INR x + 1) * ang h (INR k)) with (INR x * ang h (INR k) + PI * INR k / INR h) by (unfold ang; field; lra). rewrite cos_plus. ring. }
  rewrite (Rsum_ext (fun x => nth x xs 0 * sin (INR (S x) * ang h (INR k)))
    (fun x => cos (PI * INR k / INR h) * (nth x xs 0 * sin (INR x * ang h (INR k))) + sin (PI * INR k / INR h) * (nth x xs 0 * cos (INR x * ang h (INR k))))).
  2:{ intros x _. rewrite S_INR. replace ((INR x + 1) * ang h (INR k)) with (INR x * ang h (INR k) + PI * INR k / INR h) by (unfold ang; field; lra). rewrite sin_plus. ring. }
  rewrite !Rsum_plus, !Rsum_scal. unfold turn, Cmult; cbn [fst snd]. f_equal; ring.
Qed.

(** Every value turned, the samples are one step later. *)
Definition turned (h : nat) (A A' : list C) : Prop := length A' = length A /\ forall k, nth k A' (RtoC 0) = Cmult (turn h k) (nth k A (RtoC 0)).
Lemma inv_turned h A A' j j' : (1 <= h)%nat -> turned h A A' -> (j' = S j \/ (j' = 0%nat /\ j = (2 * h - 1)%nat)) ->
  inv_sample h A' j' = inv_sample h A j.
Proof.
  intros Hh [_ HT] Hj. assert (Hp : 0 < INR h) by (apply lt_0_INR; lia). rewrite !inv_sample_eq by exact Hh. f_equal. apply Rsum_ext. intros k _.
  rewrite HT. set (z := nth k A (RtoC 0)). f_equal.
  assert (E : exists c : nat, INR k * ang h (INR j') = INR k * ang h (INR j) + PI * INR k / INR h - 2 * PI * INR c).
  { destruct Hj as [->|[-> ->]].
    - exists 0%nat. rewrite S_INR. unfold ang. cbn [INR]. field. lra.
    - exists k. rewrite minus_INR, mult_INR by lia. unfold ang. cbn [INR]. field. lra. }
  destruct E as [c ->]. rewrite cos_minus, sin_minus, cos_2pi_nat, sin_2pi_nat, cos_plus, sin_plus.
  unfold turn, Cmult, Re, Im; cbn [fst snd]. set (t := PI * INR k / INR h).
  pose proof (sin2_cos2 t) as S1. unfold Rsqr in S1. set (c0 := cos t) in *. set (s0 := sin t) in *.
  set (cc := cos (INR k * ang h (INR j))). set (ss := sin (INR k * ang h (INR j))).
  transitivity ((fst z * cc - snd z * ss) * (s0 * s0 + c0 * c0)); [ring|rewrite S1; ring].
Qed.
Lemma samples_later h A A' : (1 <= h)%nat -> turned h A A' ->
  one_later (map (inv_sample h A) (seq 0 (2 * h))) (map (inv_sample h A') (seq 0 (2 * h))).
Proof.
  intros Hh HT. exists (map (inv_sample h A) (seq 0 (2 * h - 1))), (inv_sample h A (2 * h - 1)). split.
  - replace (2 * h)%nat with ((2 * h - 1) + 1)%nat at 1 by lia. rewrite seq_app, map_app. reflexivity.
  - replace (2 * h)%nat with (1 + (2 * h - 1))%nat at 1 by lia. rewrite seq_app, map_app. cbn [seq map app Nat.add]. f_equal.
    + apply inv_turned; [exact Hh|exact HT|right; now split].
    + rewrite <- seq_shift, map_map. apply map_ext. intros j. apply inv_turned; [exact Hh|exact HT|now left].
Qed.
Lemma np_mul_turned h t A A' : (1 <= h)%nat -> length A = S h -> turned h A A' ->
  match np_mul t A, np_mul t A' with
  | Ok P, Ok P' => length P = S h /\ turned h P P'
  | Err e, Err e' => e = e'
  | _, _ => False
  end.
Proof.
  intros Hh HL [HL' HT]. destruct t as [c|xs]; cbn [np_mul].
  - split; [now rewrite map_length|]. split; [now rewrite !map_length|]. intros k. rewrite !nth_map0, HT by ring. ring.
  - rewrite HL'. destruct (Nat.eqb_spec (length xs) (length A)) as [E|E].
    + split; [rewrite map2_len by congruence; congruence|]. split; [rewrite !map2_len by congruence; congruence|]. intros k. rewrite !nth_map2_mult, HT. ring.
    + destruct A as [|z1 [|z2 A]]; [cbn in HL; lia|cbn in HL; lia|]. destruct A' as [|w1 [|w2 A']]; [discriminate HL'|discriminate HL'|].
      destruct xs as [|c [|c' xs]]; [reflexivity| |reflexivity].
      split; [now rewrite map_length|]. split; [now rewrite !map_length|]. intros k. rewrite !nth_map0, HT by ring. ring.
Qed.
Lemma calc_time_series_eq m tf : calc_time_series m tf = bind (np_mul (one_or tf) (fourier_amps m)) (fun A => irfft (map (fun z => Cdiv z (RtoC (t_dt m))) A)).
Proof.
  unfold calc_time_series. destruct tf as [t|]; [reflexivity|]. cbn. f_equal. f_equal. rewrite <- (map_id (fourier_amps m)) at 1.
  apply map_ext. intros z. ring.
Qed.
Lemma motion_given dt a fa n : fft_length (length a) fa n -> new_motion dt a (Some n) = new_motion dt a fa.
Proof.
  intros H. unfold new_motion. destruct fa as [z|].
  - cbn in H. now subst z.
  - destruct H as [H0 H]. rewrite <- (smallest_power_unique _ _ _ H (next_length_spec _)), Z2Nat.id by exact H0. reflexivity.
Qed.
Lemma one_step dt a n m m' : new_motion dt a (Some n) = Ok m -> new_motion dt (0 :: a) (Some n) = Ok m' -> Z.even n = true ->
  (Z.of_nat (length a) < n)%Z -> t_freqs m' = t_freqs m /\ t_dt m' = t_dt m /\ forall tf,
  match calc_time_series m tf, calc_time_series m' tf with
  | Ok ts, Ok ts' => one_later ts ts'
  | Err e, Err e' => e = e'
  | _, _ => False
  end.
Proof.
  intros H H' He HL. destruct (even_motion _ _ _ _ n H eq_refl He) as (h & Hh & En & EI & Hd & Ed & EA & EF).
  destruct (even_motion _ _ _ _ n H' eq_refl He) as (h' & Hh' & En' & EI' & _ & Ed' & EA' & EF').
  assert (h' = h) by lia. subst h'. split; [congruence|]. split; [congruence|]. intros tf. rewrite !calc_time_series_eq.
  assert (T : turned h (fourier_amps m) (fourier_amps m')).
  { unfold fourier_amps. rewrite EA, EA', Ed, Ed'. split; [now rewrite !map_length|]. intros k. rewrite !nth_map0 by ring.
    destruct (Nat.lt_ge_cases k (S h)) as [L|L].
    - rewrite !(nth_indep _ (RtoC 0) (dft (2 * h) (fit (2 * h) a) 0)) by (rewrite map_length, seq_length; lia).
      rewrite (map_nth (dft (2 * h) (fit (2 * h) a))).
      rewrite (nth_indep _ _ (dft (2 * h) (fit (2 * h) (0 :: a)) 0)) by (rewrite map_length, seq_length; lia).
      rewrite (map_nth (dft (2 * h) (fit (2 * h) (0 :: a)))), !seq_nth by lia. rewrite Nat.add_0_l.
      assert (ED : forall xs, (length xs <= 2 * h)%nat -> dft (2 * h) (fit (2 * h) xs) k = dft (2 * h) xs k).
      { intros xs Hx. unfold dft. f_equal; [|f_equal]; apply Rsum_ext; intros j Hj; apply in_seq in Hj; rewrite nth_fit;
          destruct (Nat.ltb_spec j (2 * h)); try reflexivity; lia. }
      rewrite !ED by (cbn [length]; lia). rewrite dft_later by lia. ring.
    - rewrite !nth_overflow by (rewrite map_length, seq_length; lia). ring. }
  assert (LA : length (fourier_amps m) = S h) by (unfold fourier_amps; now rewrite map_length, EA, map_length, seq_length).
  pose proof (np_mul_turned h (one_or tf) _ _ Hh LA T) as G.
  destruct (np_mul (one_or tf) (fourier_amps m)) as [P|e], (np_mul (one_or tf) (fourier_amps m')) as [P'|e']; cbn [bind]; try contradiction; [|exact G].
  destruct G as [LP [LP' TP]]. rewrite (response_of m P h), (response_of m' P' h); try congruence.
  apply samples_later; [exact Hh|]. split; [now rewrite !map_length|]. intros k. rewrite Ed, Ed'.
  rewrite !nth_map0 by (unfold Cdiv; ring). rewrite TP. unfold Cdiv. ring.
Qed.
Theorem delayed dt a fa fa' n s m m' : new_motion dt a fa = Ok m -> new_motion dt (repeat 0 s ++ a) fa' = Ok m' ->
  fft_length (length a) fa n -> fft_length (s + length a) fa' n -> Z.even n = true -> (Z.of_nat (s + length a) <= n)%Z ->
  t_freqs m' = t_freqs m /\ t_dt m' = t_dt m /\ forall tf,
  match calc_time_series m tf, calc_time_series m' tf with
  | Ok ts, Ok ts' => later s ts ts'
  | Err e, Err e' => e = e'
  | _, _ => False
  end.
Proof.
  intros H H' Hn Hn' He HL. rewrite <- (motion_given _ _ _ _ Hn) in H.
  rewrite <- (motion_given _ _ _ n) in H' by (now rewrite app_length, repeat_length). clear Hn Hn' fa fa'.
  revert m' H' HL; induction s as [|s IH]; intros m' H' HL.
  - cbn [repeat app] in H'. assert (m' = m) by congruence. subst m'. split; [reflexivity|]. split; [reflexivity|]. intros tf.
    destruct (calc_time_series m tf); [constructor|reflexivity].
  - assert (D : exists m1, new_motion dt (repeat 0 s ++ a) (Some n) = Ok m1).
    { apply new_motion_defined. apply (new_motion_defined dt a (Some n)). now exists m. }
    destruct D as [m1 H1]. destruct (IH m1 H1 ltac:(lia)) as (F1 & D1 & G1).
    destruct (one_step _ _ _ _ _ H1 H' He) as (F2 & D2 & G2); [rewrite app_length, repeat_length; lia|].
    split; [congruence|]. split; [congruence|]. intros tf. specialize (G1 tf). specialize (G2 tf).
    destruct (calc_time_series m tf) as [ts|e], (calc_time_series m1 tf) as [ts1|e1], (calc_time_series m' tf) as [ts'|e']; try contradiction; [|congruence].
    now apply (later_S _ _ ts1).
Qed.
Lemma peak_later s xs ys : later s xs ys -> peak_of ys = peak_of xs.
Proof.
  assert (P : forall xs ys, Permutation xs ys -> peak_of xs = peak_of ys).
  { intros l l' HP. unfold peak_of. induction HP as [|x l l' HP IH|x y l|l l' l'' _ IH1 _ IH2]; [reflexivity|cbn; now rewrite IH| |congruence].
    cbn [map fold_right]. rewrite !Rmax_assoc, (Rmax_comm (Rabs y)). reflexivity. }
  induction 1 as [|s xs ys zs _ IH (l & x & -> & ->)]; [reflexivity|]. rewrite <- IH. apply P.
  apply Permutation_cons_append.
Qed.
Theorem delay_invisible dt a fa fa' n s m m' : new_motion dt a fa = Ok m -> new_motion dt (repeat 0 s ++ a) fa' = Ok m' ->
  fft_length (length a) fa n -> fft_length (s + length a) fa' n -> Z.even n = true -> (Z.of_nat (s + length a) <= n)%Z ->
  (forall tf, calc_peak m' tf = calc_peak m tf) /\ (forall tf, calc_pgv m' tf = calc_pgv m tf) /\
  (forall fs xi tf, calc_osc_accels m' fs xi tf = calc_osc_accels m fs xi tf).
Proof.
  intros H H' Hn Hn' He HL. destruct (delayed _ _ _ _ _ _ _ _ H H' Hn Hn' He HL) as (EF & ED & G).
  assert (P : forall tf, calc_peak m' tf = calc_peak m tf).
  { intros tf. specialize (G tf). unfold calc_peak. destruct (calc_time_series m tf), (calc_time_series m' tf); cbn [bind]; try contradiction; [|congruence].
    f_equal. now apply (peak_later s). }
  split; [exact P|]. split.
  - intros tf. unfold calc_pgv, tf_av. rewrite EF. destruct (np_mul _ _); [|reflexivity]. cbn [bind]. now rewrite P.
  - intros fs xi tf. induction fs as [|f fs IH]; [reflexivity|]. cbn [calc_osc_accels]. rewrite IH.
    replace (osc_accel m' xi tf f) with (osc_accel m xi tf f); [reflexivity|]. unfold osc_accel. rewrite EF.
    destruct (np_mul _ _); [|reflexivity]. cbn [bind]. now rewrite P.
Qed.

(** ** Velocity *)
Lemma harmonic_derive (T : R) (l : list nat) (c s : nat -> R) t : T <> 0 -> (forall k, In k l -> k <> 0%nat) ->
  is_derive (fun t => Rsum (map (fun k => - s k / (2 * PI * INR k / T) * cos (2 * PI * INR k * t / T) + c k / (2 * PI * INR k / T) * sin (2 * PI * INR k * t / T)) l)) t
    (Rsum (map (fun k => c k * cos (2 * PI * INR k * t / T) + s k * sin (2 * PI * INR k * t / T)) l)).
Proof.
  intros HT Hl. induction l as [|k l IH].
  - cbn. apply (is_derive_const 0 t).
  - cbn [map]. apply (is_derive_ext (fun t => (- s k / (2 * PI * INR k / T) * cos (2 * PI * INR k * t / T) + c k / (2 * PI * INR k / T) * sin (2 * PI * INR k * t / T)) +
      Rsum (map (fun k => - s k / (2 * PI * INR k / T) * cos (2 * PI * INR k * t / T) + c k / (2 * PI * INR k / T) * sin (2 * PI * INR k * t / T)) l))).
    { intros u. now rewrite Rsum_cons. }
    rewrite Rsum_cons. apply (is_derive_plus (K := R_AbsRing) (V := R_NormedModule)).
    + assert (INR k <> 0) by (apply not_0_INR, Hl; now left). pose proof PI_neq0.
      auto_derive; [trivial|]. unfold Rdiv. set (x := 2 * PI * INR k * t * / T). generalize (cos x), (sin x). intros X Y. field. repeat split; assumption.
    + apply IH. intros j Hj. apply Hl. now right.
Qed.

(** The acceleration and the velocity of a record: the harmonics below the highest frequency. *)
Definition acc_of (h : nat) (T : R) (xs : list R) (t : R) : R :=
  Rsum (map (fun k => Re (dft (2 * h) xs k) / INR h * cos (2 * PI * INR k * t / T) + - Im (dft (2 * h) xs k) / INR h * sin (2 * PI * INR k * t / T)) (seq 1 (h - 1))).
Definition vel_of (h : nat) (T : R) (xs : list R) (t : R) : R :=
  Rsum (map (fun k => - (- Im (dft (2 * h) xs k) / INR h) / (2 * PI * INR k / T) * cos (2 * PI * INR k * t / T) +
                      Re (dft (2 * h) xs k) / INR h / (2 * PI * INR k / T) * sin (2 * PI * INR k * t / T)) (seq 1 (h - 1))).
Lemma alternating_cos j : cos (PI * INR j) = alternating j.
Proof.
  unfold alternating. induction j as [|j IH]; [cbn; now rewrite Rmult_0_r, cos_0|].
  rewrite S_INR, Rmult_plus_distr_l, Rmult_1_r, neg_cos, IH, Nat.even_succ, <- Nat.negb_even. destruct (Nat.even j); cbn; ring.
Qed.
Lemma dft_ends h xs : (1 <= h)%nat -> length xs = (2 * h)%nat ->
  Re (dft (2 * h) xs 0) = 2 * INR h * mean_of xs /\ Re (dft (2 * h) xs h) = 2 * INR h * alternating_mean xs /\ Im (dft (2 * h) xs h) = 0.
Proof.
  intros Hh HL. assert (Hp : 0 < INR h) by (apply lt_0_INR; lia). rewrite !dft_eq by exact Hh. cbn [Re Im fst snd]. unfold Sum.
  unfold mean_of, alternating_mean. rewrite HL, mult_INR. change (INR 2) with 2.
  assert (EA : forall j, INR j * ang h (INR h) = PI * INR j) by (intros j; unfold ang; field; lra). split; [|split].
  - replace (2 * INR h * (Rsum xs / (2 * INR h))) with (Rsum xs) by (field; lra). rewrite <- HL. clear HL. rewrite (Rsum_ext _ (fun j => nth j xs 0)).
    + f_equal. induction xs as [|x xs IH]; [reflexivity|]. cbn [length seq map nth]. f_equal. rewrite <- seq_shift, map_map. exact IH.
    + intros j _. unfold ang. cbn [INR]. replace (INR j * (PI * 0 / INR h)) with 0 by (field; lra). rewrite cos_0. ring.
  - replace (2 * INR h * (Rsum (map (fun j => alternating j * nth j xs 0) (seq 0 (2 * h))) / (2 * INR h))) with
      (Rsum (map (fun j => alternating j * nth j xs 0) (seq 0 (2 * h)))) by (field; lra).
    apply Rsum_ext. intros j _. rewrite EA, alternating_cos. ring.
  - rewrite Rsum_zero; [ring|]. intros j _. rewrite EA, sin_pi_nat. ring.
Qed.
Lemma acc_samples h dt xs j : (1 <= h)%nat -> dt <> 0 -> length xs = (2 * h)%nat -> (j < 2 * h)%nat ->
  acc_of h (2 * INR h * dt) xs (dt * INR j) = nth j xs 0 - mean_of xs - alternating j * alternating_mean xs.
Proof.
  intros Hh Hd HL Hj. assert (Hp : 0 < INR h) by (apply lt_0_INR; lia).
  rewrite <- (inverse_of_transform h Hh xs j Hj). unfold inv_sample. destruct (dft_ends h xs Hh HL) as (E0 & Eh & _).
  assert (N : forall k, (k <= h)%nat -> nth k (map (dft (2 * h) xs) (seq 0 (S h))) (RtoC 0) = dft (2 * h) xs k).
  { intros k Hk. rewrite (nth_indep _ (RtoC 0) (dft (2 * h) xs 0)) by (rewrite map_length, seq_length; lia). rewrite map_nth, seq_nth by lia. reflexivity. }
  rewrite !N by lia. rewrite E0, Eh, alternating_cos.
  rewrite (Rsum_ext _ (fun k => INR h * (Re (dft (2 * h) xs k) / INR h * cos (2 * PI * INR k * (dt * INR j) / (2 * INR h * dt)) +
      - Im (dft (2 * h) xs k) / INR h * sin (2 * PI * INR k * (dt * INR j) / (2 * INR h * dt))))).
  2:{ intros k Hk. apply in_seq in Hk. rewrite !N by lia.
      replace (2 * PI * INR k * (dt * INR j) / (2 * INR h * dt)) with (PI * INR j * INR k / INR h) by (field; split; [exact Hd|lra]).
      field. lra. }
  rewrite Rsum_scal. unfold acc_of. set (X := Rsum _). field. lra.
Qed.
Lemma velocity_series dt a fa m n h : 0 < dt -> new_motion dt a fa = Ok m -> fft_length (length a) fa n -> Z.even n = true ->
  Z.to_nat n = (2 * h)%nat -> IZR n * dt <= 6e8 ->
  calc_time_series m (Some (OArray (map (Cmult (RtoC 1)) (tf_av m)))) =
  Ok (map (fun j => vel_of h (2 * INR h * dt) (fit (2 * h) a) (dt * INR j)) (seq 0 (2 * h))).
Proof.
  intros Hdt H Hn He Eh Hl. destruct (even_motion _ _ _ _ _ H Hn He) as (h' & Hh & En & EI & Hd & Ed & EA & EF).
  assert (h' = h) by lia. subst h'. assert (Hp : 0 < INR h) by (apply lt_0_INR; lia). set (xs := fit (2 * h) a) in *.
  assert (HL : length xs = (2 * h)%nat) by apply fit_padded.
  assert (LA : length (fourier_amps m) = S h) by (unfold fourier_amps; now rewrite map_length, EA, map_length, seq_length).
  assert (LT : length (map (Cmult (RtoC 1)) (tf_av m)) = S h) by (unfold tf_av; now rewrite !map_length, EF, map_length, seq_length).
  unfold calc_time_series, np_mul. rewrite LT, LA, Nat.eqb_refl. cbn [bind].
  rewrite (response_of m _ h); [|congruence|exact Hh|rewrite map2_len; congruence]. f_equal. apply map_ext_in. intros j Hj. apply in_seq in Hj.
  set (B := map (fun z => Cdiv z (RtoC (t_dt m))) (map2 Cmult (map (Cmult (RtoC 1)) (tf_av m)) (fourier_amps m))).
  assert (NB : forall k, (k <= h)%nat -> nth k B (RtoC 0) = Cmult (nth k (tf_av m) (RtoC 0)) (dft (2 * h) xs k)).
  { intros k Hk. unfold B. rewrite nth_map0 by (unfold Cdiv; ring). rewrite nth_map2_mult, nth_map0 by ring.
    unfold fourier_amps. rewrite nth_map0 by ring. rewrite EA.
    rewrite (nth_indep (map (dft (2 * h) xs) (seq 0 (S h))) (RtoC 0) (dft (2 * h) xs 0)) by (rewrite map_length, seq_length; lia). rewrite (map_nth (dft (2 * h) xs)), seq_nth, Nat.add_0_l by lia.
    rewrite Ed. rewrite <- (dt_cancel dt (Cmult (nth k (tf_av m) (RtoC 0)) (dft (2 * h) xs k)) Hd). f_equal. ring. }
  assert (NT : forall k, (k <= h)%nat -> nth k (tf_av m) (RtoC 0) = if Nat.eqb k 0 then RtoC 0 else (0, - / (2 * PI * INR k / (2 * INR h * dt)))).
  { intros k Hk. unfold tf_av. rewrite EF, map_map.
    set (g := fun x => if isclose (2 * PI * (INR x / (2 * INR h * dt))) 0 then RtoC 0 else (RtoC 1 / (RtoC (2 * PI * (INR x / (2 * INR h * dt))) * Ci))%C).
    rewrite (nth_indep _ (RtoC 0) (g 0%nat)) by (rewrite map_length, seq_length; lia). rewrite map_nth, seq_nth, Nat.add_0_l by lia. unfold g, isclose, Rleb.
    destruct k as [|k]; cbn [Nat.eqb].
    - cbn [INR]. replace (2 * PI * (0 / (2 * INR h * dt)) - 0) with 0 by (field; split; [exact Hd|lra]). rewrite Rabs_R0.
      destruct (Rle_dec 0 (1e-8 + 1e-5 * 0)); [reflexivity|lra].
    - assert (P0 : 0 < 2 * PI * INR (S k) / (2 * INR h * dt)).
      { pose proof PI_RGT_0. assert (0 < INR (S k)) by (apply lt_0_INR; lia). apply Rdiv_lt_0_compat; [apply Rmult_lt_0_compat; lra|apply Rmult_lt_0_compat; lra]. }
      assert (P1 : 1e-8 < 2 * PI * INR (S k) / (2 * INR h * dt)).
      { assert (1 <= INR (S k)) by (rewrite S_INR; pose proof (pos_INR k); lra). assert (3 < PI) by (pose proof PI2_3_2; lra).
        rewrite EI in Hl. assert (0 < 2 * INR h * dt) by (apply Rmult_lt_0_compat; lra).
        apply (Rmult_lt_reg_r (2 * INR h * dt)); [assumption|].
        replace (2 * PI * INR (S k) / (2 * INR h * dt) * (2 * INR h * dt)) with (2 * PI * INR (S k)) by (field; lra). nra. }
      replace (2 * PI * (INR (S k) / (2 * INR h * dt))) with (2 * PI * INR (S k) / (2 * INR h * dt)) by (unfold Rdiv; ring).
      set (w := 2 * PI * INR (S k) / (2 * INR h * dt)) in *. rewrite Rminus_0_r, Rabs_pos_eq by lra. rewrite Rabs_R0.
      destruct (Rle_dec w (1e-8 + 1e-5 * 0)); [lra|]. clearbody w.
      unfold Cdiv, Cinv, Cmult, Ci, RtoC; cbn [fst snd]. apply injective_projections; cbn [fst snd]; field; lra. }
  unfold inv_sample. rewrite !NB by lia. rewrite !NT by lia. destruct (Nat.eqb_spec h 0) as [G|_]; [lia|]. cbn [Nat.eqb].
  destruct (dft_ends h xs Hh HL) as (_ & _ & EI0).
  replace (Re (Cmult (RtoC 0) (dft (2 * h) xs 0))) with 0 by (unfold Cmult, RtoC, Re; cbn [fst snd]; ring).
  replace (Re (Cmult (0, - / (2 * PI * INR h / (2 * INR h * dt))) (dft (2 * h) xs h))) with 0.
  2:{ unfold Cmult, Re in *; cbn [fst snd]. unfold Im in EI0. rewrite EI0. ring. }
  rewrite (Rsum_ext _ (fun k => INR h * (- (- Im (dft (2 * h) xs k) / INR h) / (2 * PI * INR k / (2 * INR h * dt)) * cos (2 * PI * INR k * (dt * INR j) / (2 * INR h * dt)) +
                      Re (dft (2 * h) xs k) / INR h / (2 * PI * INR k / (2 * INR h * dt)) * sin (2 * PI * INR k * (dt * INR j) / (2 * INR h * dt))))).
  2:{ intros k Hk. apply in_seq in Hk. rewrite !NB, !NT by lia. destruct (Nat.eqb_spec k 0) as [G|_]; [lia|].
      replace (2 * PI * INR k * (dt * INR j) / (2 * INR h * dt)) with (PI * INR j * INR k / INR h) by (field; split; [exact Hd|lra]).
      unfold Cmult, Re, Im; cbn [fst snd]. set (w := 2 * PI * INR k / (2 * INR h * dt)). unfold Rdiv. 
      transitivity (INR h * / INR h * (snd (dft (2 * h) xs k) * / w * cos (PI * INR j * INR k * / INR h) + fst (dft (2 * h) xs k) * / w * sin (PI * INR j * INR k * / INR h)));
        [rewrite Rinv_r by lra; ring|ring]. }
  rewrite Rsum_scal. unfold vel_of. set (X := Rsum _). field. lra.
Qed.
Theorem pgv_velocity dt a fa m n rec : 0 < dt -> new_motion dt a fa = Ok m -> fft_length (length a) fa n -> Z.even n = true ->
  IZR n * dt <= 6e8 -> is_padded (Z.to_nat n) a rec ->
  exists acc v p, harmonics (IZR n * dt) (Z.to_nat n / 2) acc /\ harmonics (IZR n * dt) (Z.to_nat n / 2) v /\
    (forall t, is_derive v t (acc t)) /\
    (forall j, (j < Z.to_nat n)%nat -> acc (dt * INR j) = nth j rec 0 - mean_of rec - alternating j * alternating_mean rec) /\
    calc_pgv m None = Ok p /\ is_peak (map (fun j => 100 * GRAVITY * v (dt * INR j)) (seq 0 (Z.to_nat n))) p.
Proof.
  intros Hdt H Hn He Hl Hp. destruct (even_motion _ _ _ _ _ H Hn He) as (h & Hh & En & EI & Hd & Ed & EA & EF).
  rewrite En in Hp. rewrite (is_padded_unique _ _ _ _ Hp (fit_padded _ _)). rewrite En, EI.
  replace (2 * h / 2)%nat with h by (rewrite Nat.mul_comm, Nat.div_mul; lia).
  set (xs := fit (2 * h) a). assert (HL : length xs = (2 * h)%nat) by apply fit_padded. assert (H0 : 0 < INR h) by (apply lt_0_INR; lia).
  exists (acc_of h (2 * INR h * dt) xs), (vel_of h (2 * INR h * dt) xs). eexists. split; [|split; [|split; [|split; [|split]]]].
  - exists (fun k => Re (dft (2 * h) xs k) / INR h), (fun k => - Im (dft (2 * h) xs k) / INR h). reflexivity.
  - eexists (fun k => - (- Im (dft (2 * h) xs k) / INR h) / (2 * PI * INR k / (2 * INR h * dt))), (fun k => Re (dft (2 * h) xs k) / INR h / (2 * PI * INR k / (2 * INR h * dt))). reflexivity.
  - intros t. apply (harmonic_derive (2 * INR h * dt) (seq 1 (h - 1)) (fun k => Re (dft (2 * h) xs k) / INR h) (fun k => - Im (dft (2 * h) xs k) / INR h)).
    + apply Rmult_integral_contrapositive_currified; lra.
    + intros k Hk. apply in_seq in Hk. lia.
  - intros j Hj. now apply acc_samples.
  - unfold calc_pgv. cbn [np_mul bind]. unfold calc_peak. rewrite (velocity_series dt a fa m n h) by assumption. cbn [bind]. reflexivity.
  - replace (map (fun j => 100 * GRAVITY * vel_of h (2 * INR h * dt) xs (dt * INR j)) (seq 0 (2 * h))) with
      (map (Rmult (GRAVITY * 100)) (map (fun j => vel_of h (2 * INR h * dt) xs (dt * INR j)) (seq 0 (2 * h)))).
    2:{ rewrite map_map. apply map_ext. intros j. ring. }
    assert (G0 : 0 < GRAVITY) by (unfold GRAVITY; lra).
    rewrite <- (Rabs_pos_eq (GRAVITY * 100)) at 2 by lra. apply is_peak_scale. apply peak_of_spec.
    destruct h; [lia|discriminate].
Qed.
(** No velocity: a constant and an alternation. *)
Theorem pgv_zero dt a fa m n rec : 0 < dt -> new_motion dt a fa = Ok m -> fft_length (length a) fa n -> Z.even n = true ->
  IZR n * dt <= 6e8 -> is_padded (Z.to_nat n) a rec ->
  (calc_pgv m None = Ok 0 <-> exists x y, forall j, (j < Z.to_nat n)%nat -> nth j rec 0 = x + alternating j * y).
Proof.
  intros Hdt H Hn He Hl Hp. destruct (even_motion _ _ _ _ _ H Hn He) as (h & Hh & En & EI & Hd & Ed & EA & EF).
  rewrite En in Hp. rewrite (is_padded_unique _ _ _ _ Hp (fit_padded _ _)). rewrite En.
  set (xs := fit (2 * h) a). assert (HL : length xs = (2 * h)%nat) by apply fit_padded. assert (H0 : 0 < INR h) by (apply lt_0_INR; lia).
  assert (G0 : 0 < GRAVITY) by (unfold GRAVITY; lra). pose proof PI_RGT_0 as HPI.
  assert (EP : calc_pgv m None = Ok (GRAVITY * 100 * peak_of (map (fun j => vel_of h (2 * INR h * dt) xs (dt * INR j)) (seq 0 (2 * h))))).
  { unfold calc_pgv. cbn [np_mul bind]. unfold calc_peak. rewrite (velocity_series dt a fa m n h) by assumption. reflexivity. }
  rewrite EP. split.
  - intros E. injection E as E. assert (PZ : peak_of (map (fun j => vel_of h (2 * INR h * dt) xs (dt * INR j)) (seq 0 (2 * h))) = 0) by (destruct (Rmult_integral _ _ E) as [G|G]; [lra|exact G]).
    destruct (peak_of_spec (map (fun j => vel_of h (2 * INR h * dt) xs (dt * INR j)) (seq 0 (2 * h)))) as [_ PB]; [destruct h; [lia|discriminate]|].
    rewrite PZ in PB.
    assert (VZ : forall j, (j < 2 * h)%nat -> vel_of h (2 * INR h * dt) xs (dt * INR j) = 0).
    { intros j Hj. assert (G := PB _ (in_map (fun j => vel_of h (2 * INR h * dt) xs (dt * INR j)) _ j (proj2 (in_seq _ _ _) (conj (Nat.le_0_l j) Hj)))).
      cbn beta in G. destruct (Req_dec (vel_of h (2 * INR h * dt) xs (dt * INR j)) 0) as [Z|Z]; [exact Z|]. apply Rabs_pos_lt in Z. lra. }
    (* the coefficients of the velocity are those of its samples *)
    set (A := map (fun k => ((Im (dft (2 * h) xs k) / (2 * PI * INR k / (2 * INR h * dt))), - (Re (dft (2 * h) xs k) / (2 * PI * INR k / (2 * INR h * dt)))) : C) (seq 0 (S h))).
    assert (NA : forall k, (k <= h)%nat -> nth k A (RtoC 0) = ((Im (dft (2 * h) xs k) / (2 * PI * INR k / (2 * INR h * dt))), - (Re (dft (2 * h) xs k) / (2 * PI * INR k / (2 * INR h * dt))))).
    { intros k Hk. unfold A. match goal with |- nth _ (map ?f _) _ = _ => rewrite (nth_indep _ (RtoC 0) (f 0%nat)) by (rewrite map_length, seq_length; lia) end.
      rewrite (map_nth (fun k => ((Im (dft (2 * h) xs k) / (2 * PI * INR k / (2 * INR h * dt))), - (Re (dft (2 * h) xs k) / (2 * PI * INR k / (2 * INR h * dt)))) : C)), seq_nth by lia. reflexivity. }
    destruct (dft_ends h xs Hh HL) as (_ & _ & EI0).
    assert (IA : forall j, (j < 2 * h)%nat -> inv_sample h A j = Im (dft (2 * h) xs 0) / (2 * PI * INR 0 / (2 * INR h * dt)) / (2 * INR h)).
    { intros j Hj. unfold inv_sample. rewrite !NA by lia. cbn [Re fst]. change (Re (Im (dft (2 * h) xs h) / (2 * PI * INR h / (2 * INR h * dt)), - (Re (dft (2 * h) xs h) / (2 * PI * INR h / (2 * INR h * dt))))) with (Im (dft (2 * h) xs h) / (2 * PI * INR h / (2 * INR h * dt))).
      rewrite EI0. rewrite (Rsum_ext _ (fun k => INR h * (- (- Im (dft (2 * h) xs k) / INR h) / (2 * PI * INR k / (2 * INR h * dt)) * cos (2 * PI * INR k * (dt * INR j) / (2 * INR h * dt)) +
                      Re (dft (2 * h) xs k) / INR h / (2 * PI * INR k / (2 * INR h * dt)) * sin (2 * PI * INR k * (dt * INR j) / (2 * INR h * dt))))).
      2:{ intros k Hk. apply in_seq in Hk. rewrite !NA by lia. cbn [Re Im fst snd].
          replace (2 * PI * INR k * (dt * INR j) / (2 * INR h * dt)) with (PI * INR j * INR k / INR h) by (field; split; [exact Hd|lra]).
          set (w := 2 * PI * INR k / (2 * INR h * dt)). unfold Rdiv, Re, Im. cbn [fst snd].
          transitivity (INR h * / INR h * (snd (dft (2 * h) xs k) * / w * cos (PI * INR j * INR k * / INR h) + fst (dft (2 * h) xs k) * / w * sin (PI * INR j * INR k * / INR h)));
            [rewrite Rinv_r by lra; ring|ring]. }
      rewrite Rsum_scal. change (Rsum _) with (vel_of h (2 * INR h * dt) xs (dt * INR j)). rewrite VZ by exact Hj. unfold Rdiv, Re. cbn [fst]. ring. }
    assert (IM0 : Im (dft (2 * h) xs 0) = 0).
    { rewrite dft_eq by exact Hh. cbn [Im snd]. unfold Sum. rewrite Rsum_zero; [ring|]. intros j _. unfold ang. cbn [INR]. replace (INR j * (PI * 0 / INR h)) with 0 by (field; lra). rewrite sin_0. ring. }
    assert (FZ : forall k, In k (seq 1 (h - 1)) -> Re (dft (2 * h) xs k) = 0 /\ Im (dft (2 * h) xs k) = 0).
    { intros k Hk. apply in_seq in Hk. pose proof (transform_of_inverse h Hh A k ltac:(lia)) as G.
      assert (Wp : 0 < 2 * PI * INR k / (2 * INR h * dt)).
      { assert (0 < INR k) by (apply lt_0_INR; lia). apply Rdiv_lt_0_compat; [apply Rmult_lt_0_compat; lra|apply Rmult_lt_0_compat; lra]. }
      rewrite (map_ext_in _ (fun _ => 0)) in G.
      2:{ intros j Hj. apply in_seq in Hj. rewrite IA, IM0 by lia. unfold Rdiv. ring. }
      destruct (Nat.eqb_spec k 0) as [|_]; [lia|]. destruct (Nat.eqb_spec k h) as [|_]; [lia|]. cbn [orb] in G. rewrite NA in G by lia. cbn [Re Im fst snd] in G.
      assert (Z0 : dft (2 * h) (map (fun _ => 0) (seq 0 (2 * h))) k = (0, 0)).
      { assert (N0 : forall j, nth j (map (fun _ => 0) (seq 0 (2 * h))) 0 = 0) by (intros j; apply (map_nth (fun _ : nat => 0) (seq 0 (2 * h)) 0%nat)).
        unfold dft. rewrite !Rsum_zero by (intros j _; rewrite N0; ring). now rewrite Ropp_0. }
      rewrite Z0 in G. set (w := 2 * PI * INR k / (2 * INR h * dt)) in *.
      assert (G1 : 0 = Im (dft (2 * h) xs k) / w) by (apply (f_equal fst) in G; exact G).
      assert (G2 : 0 = - (Re (dft (2 * h) xs k) / w)) by (apply (f_equal snd) in G; exact G).
      split.
      - apply (Rmult_eq_reg_r (/ w)); [|apply Rinv_neq_0_compat; lra]. unfold Rdiv in G2. lra.
      - apply (Rmult_eq_reg_r (/ w)); [|apply Rinv_neq_0_compat; lra]. unfold Rdiv in G1. lra. }
    exists (mean_of xs), (alternating_mean xs). intros j Hj. pose proof (acc_samples h dt xs j Hh Hd HL Hj) as G.
    unfold acc_of in G. rewrite Rsum_zero in G; [lra|]. intros k Hk. destruct (FZ k Hk) as [-> ->]. unfold Rdiv. ring.
  - intros (x & y & E). 
    assert (FZ : forall k, In k (seq 1 (h - 1)) -> Re (dft (2 * h) xs k) = 0 /\ Im (dft (2 * h) xs k) = 0).
    { intros k Hk. apply in_seq in Hk. rewrite dft_eq by exact Hh. cbn [Re Im fst snd]. unfold Sum. 
      assert (C1 := full_diff h Hh k 0 ltac:(lia) ltac:(lia)). assert (S1 := full_sin_diff h Hh k 0 ltac:(lia) ltac:(lia)).
      assert (C2 := full_diff h Hh k h ltac:(lia) ltac:(lia)). assert (S2 := full_sin_diff h Hh k h ltac:(lia) ltac:(lia)).
      destruct (Nat.eqb_spec k 0) as [|_]; [lia|]. destruct (Nat.eqb_spec k h) as [|_]; [lia|]. unfold Sum in *.
      assert (EA1 : forall j, INR j * ang h (INR k - INR 0) = INR j * ang h (INR k)) by (intros j; unfold ang; cbn [INR]; field; lra).
      assert (EA2 : forall j, INR j * ang h (INR k - INR h) = INR j * ang h (INR k) - PI * INR j) by (intros j; unfold ang; field; lra).
      rewrite (Rsum_ext (fun j => nth j xs 0 * cos (INR j * ang h (INR k))) (fun j => x * cos (INR j * ang h (INR k - INR 0)) + y * cos (INR j * ang h (INR k - INR h)))).
      2:{ intros j Hj. apply in_seq in Hj. rewrite E by lia. rewrite EA1, EA2, cos_minus, sin_pi_nat, alternating_cos. ring. }
      rewrite (Rsum_ext (fun j => nth j xs 0 * sin (INR j * ang h (INR k))) (fun j => x * sin (INR j * ang h (INR k - INR 0)) + y * sin (INR j * ang h (INR k - INR h)))).
      2:{ intros j Hj. apply in_seq in Hj. rewrite E by lia. rewrite EA1, EA2, sin_minus, sin_pi_nat, alternating_cos. ring. }
      rewrite !Rsum_plus, !Rsum_scal, C1, C2, S1, S2. split; ring. }
    rewrite (map_ext (fun j => vel_of h (2 * INR h * dt) xs (dt * INR j)) (fun _ => 0)).
    + replace (peak_of (map (fun _ => 0) (seq 0 (2 * h)))) with 0; [now rewrite Rmult_0_r|]. unfold peak_of. generalize (seq 0 (2 * h)). intros l.
      induction l as [|z l IH]; [reflexivity|]. cbn [map fold_right]. rewrite <- IH, Rabs_R0, Rmax_left; [reflexivity|lra].
    + intros j. unfold vel_of. apply Rsum_zero. intros k Hk. destruct (FZ k Hk) as [-> ->]. unfold Rdiv. ring.
Qed.
(** The alternation is lost. *)
Theorem pgv_loses : exists m, new_motion 0.01 (1 :: -1 :: nil) None = Ok m /\ mean_of (1 :: -1 :: nil) = 0 /\
  calc_peak m None = Ok 1 /\ calc_pgv m None = Ok 0.
Proof.
  destruct (proj2 (new_motion_defined 0.01 (1 :: -1 :: nil) None)) as [m H]; [split; [lra|exact I]|]. exists m. split; [exact H|].
  assert (Hn : fft_length 2 None 2%Z).
  { split; [lia|]. split; [now exists 1%nat|]. split; [cbn; lia|]. intros j Hj. exact Hj. }
  assert (HP : is_padded 2 (1 :: -1 :: nil) (1 :: -1 :: nil)).
  { split; [reflexivity|]. intros [|[|j]] Hj; [reflexivity|reflexivity|lia]. }
  split; [unfold mean_of; cbn; field|]. split.
  - destruct (round_trip _ _ _ m None H) as (n' & Hn' & G). rewrite (fft_length_unique _ _ _ _ Hn' Hn) in G.
    destruct (G eq_refl (or_introl eq_refl)) as (ts & E & HT). rewrite (is_padded_unique _ _ _ _ HT HP) in E.
    unfold calc_peak. rewrite E. cbn. f_equal. rewrite Rabs_R1, Rabs_left by lra.
    rewrite (Rmax_left (- -1) 0) by lra. rewrite Rmax_left by lra. reflexivity.
  - apply (pgv_zero 0.01 (1 :: -1 :: nil) None m 2 (1 :: -1 :: nil)); try assumption; try lra; try reflexivity.
    exists 0, 1. intros [|[|j]] Hj; cbn; [lra|lra|]. change (Z.to_nat 2) with 2%nat in Hj. lia.
Qed.

(** ** Cumulative absolute velocity *)
Theorem cav_sum dt a fa m n rec x y : new_motion dt a fa = Ok m -> fft_length (length a) fa n -> Z.even n = true ->
  is_padded (Z.to_nat n) a rec -> hd_error rec = Some x -> hd_error (rev rec) = Some y ->
  motion_cav m None = Ok (GRAVITY * (dt * Rsum (map Rabs rec) - dt * (Rabs x + Rabs y) / 2)).
Proof.
  intros H Hn He Hp Hx Hy. destruct (round_trip dt a fa m (Some (OScalar (RtoC 1))) H) as (n' & Hn' & G).
  rewrite (fft_length_unique _ _ _ _ Hn' Hn) in G. destruct (G He (or_intror (or_introl eq_refl))) as (ts & E & Hts).
  rewrite (is_padded_unique _ _ _ _ Hts Hp) in E. unfold motion_cav, one_or. rewrite E. cbn [bind]. f_equal.
  destruct (new_motion_inv _ _ _ _ H) as (_ & _ & _ & _ & Ed & _). rewrite Ed.
  destruct (even_motion _ _ _ _ _ H Hn He) as (h & Hh & En & _). destruct Hp as [HL _]. rewrite En in HL.
  destruct rec as [|x' rec]; [cbn in HL; lia|]. injection Hx as <-.
  destruct rec as [|y' rec] using rev_ind; [cbn in HL; lia|]. clear IHrec. cbn [rev] in Hy. rewrite rev_app_distr in Hy. injection Hy as <-.
  unfold calc_cav. rewrite trapezoid_area. cbn [map]. rewrite map_app. cbn [map]. rewrite area_ends. reflexivity.
Qed.
