(** The strain spectra of the frequency-dependent calculator. *)
From Verif Require Import Common Proof.CommonFacts Model.Curve Model.Layer Model.Eql Model.Text Model.Fdm
  Spec.LayerSpec Spec.FdmSpec Proof.HyperbolicFacts.
From Coq Require Import Ascii.
Local Open Scope R_scope.

Lemma map_opt_len {A B} (f : A -> option B) xs : forall ys, map_opt f xs = Some ys -> length ys = length xs.
Proof.
  induction xs as [|x xs IH]; intros ys H; cbn [map_opt] in H; [now injection H as <-|].
  destruct (f x); [|discriminate]. cbn [opt_bind] in H. destruct (map_opt f xs) as [zs|]; [|discriminate].
  injection H as <-. cbn. now rewrite (IH zs eq_refl).
Qed.
Lemma map_opt_nth {A B} (f : A -> option B) xs : forall ys, map_opt f xs = Some ys ->
  forall i x, nth_error xs i = Some x -> exists y, f x = Some y /\ nth_error ys i = Some y.
Proof.
  induction xs as [|x xs IH]; intros ys H i z Hz; cbn [map_opt] in H; [now destruct i|].
  destruct (f x) as [y|] eqn:E; [|discriminate]. cbn [opt_bind] in H. destruct (map_opt f xs) as [zs|]; [|discriminate].
  injection H as <-. destruct i as [|i]; cbn [nth_error] in *; [injection Hz as <-; now exists y|]. now apply (IH zs).
Qed.

Lemma nth_in_range {A B} (xs : list A) (ys : list B) i y : length xs = length ys ->
  nth_error ys i = Some y -> exists x, nth_error xs i = Some x.
Proof.
  intros HL H. destruct (nth_error xs i) as [x|] eqn:E; [now exists x|].
  apply nth_error_None in E. assert (nth_error ys i <> None) by congruence. apply nth_error_Some in H0. lia.
Qed.

Lemma fold_max_ge xs : forall a, a <= fold_left Rmax xs a /\ List.Forall (fun x => x <= fold_left Rmax xs a) xs.
Proof.
  induction xs as [|x xs IH]; intros a; cbn [fold_left]; [split; [lra|constructor]|].
  destruct (IH (Rmax a x)) as [H1 H2]. pose proof (Rmax_l a x). pose proof (Rmax_r a x).
  split; [lra|]. constructor; [lra|exact H2].
Qed.
Lemma fold_max_in xs : forall a, fold_left Rmax xs a = a \/ In (fold_left Rmax xs a) xs.
Proof.
  induction xs as [|x xs IH]; intros a; cbn [fold_left]; [now left|].
  destruct (IH (Rmax a x)) as [H|H]; [|right; now right].
  rewrite H. destruct (Rle_dec a x); [rewrite Rmax_right by lra; right; now left|rewrite Rmax_left by lra; now left].
Qed.
Lemma np_max_spec xs m : np_max xs = Ok m -> In m xs /\ List.Forall (fun x => x <= m) xs.
Proof.
  destruct xs as [|x xs]; cbn [np_max]; [discriminate|]. intros H. injection H as <-. split.
  - destruct (fold_max_in xs x) as [H|H]; [left; now rewrite H|now right].
  - destruct (fold_max_ge xs x). now constructor.
Qed.
Lemma np_max_ok xs : xs <> [] -> exists m, np_max xs = Ok m.
Proof. destruct xs; [congruence|]. intros _. now eexists. Qed.

Lemma max_backwards_len xs : length (max_backwards xs) = length xs.
Proof. induction xs as [|x xs IH]; [reflexivity|]. cbn [max_backwards]. destruct (max_backwards xs); cbn in *; lia. Qed.
Lemma max_backwards_spec xs : forall i y, nth_error (max_backwards xs) i = Some y ->
  (exists j, (i <= j)%nat /\ nth_error xs j = Some y) /\
  (forall j x, (i <= j)%nat -> nth_error xs j = Some x -> x <= y).
Proof.
  induction xs as [|x xs IH]; intros i y H; [now destruct i|]. cbn [max_backwards] in H.
  destruct (max_backwards xs) as [|z zs] eqn:E.
  { assert (xs = []) as -> by (apply length_zero_iff_nil; rewrite <- max_backwards_len, E; reflexivity).
    destruct i as [|[|i]]; cbn in H; try discriminate. injection H as <-. split; [exists 0%nat; now split|].
    intros [|[|j]] w Hj Hw; cbn in Hw; try discriminate. injection Hw as <-. lra. }
  destruct (IH 0%nat z eq_refl) as [(j0 & _ & E0) M0].
  destruct i as [|i]; cbn [nth_error] in H.
  - injection H as <-. split.
    + destruct (Rle_dec x z); [rewrite Rmax_right by lra; now exists (S j0); split; [lia|]|].
      rewrite Rmax_left by lra. now exists 0%nat.
    + intros [|j] w Hj Hw; cbn [nth_error] in Hw; [injection Hw as <-; apply Rmax_l|].
      pose proof (M0 j w ltac:(lia) Hw). pose proof (Rmax_r x z). lra.
  - destruct (IH i y H) as [(j & Hj & Ej) M]. split; [exists (S j); split; [lia|exact Ej]|].
    intros [|k] w Hk Hw; [lia|]. cbn [nth_error] in Hw. apply (M k); [lia|exact Hw].
Qed.
Lemma max_backwards_falls xs : never_rises (max_backwards xs).
Proof.
  intros i j x y Hij Hx Hy. destruct (max_backwards_spec xs j y Hy) as [(k & Hk & Ek) _].
  destruct (max_backwards_spec xs i x Hx) as [_ M]. apply (M k); [lia|exact Ek].
Qed.

(** Scaling by the largest entry. *)
Lemma scaled_spec eff xs ss : scaled_by_max eff xs = Ok (Some ss) ->
  exists mx, np_max xs = Ok mx /\ mx <> 0 /\ length ss = length xs /\
    forall i x, nth_error xs i = Some x -> nth_error ss i = Some (eff * x / mx).
Proof.
  unfold scaled_by_max. destruct (np_max xs) as [mx|e] eqn:E; [|discriminate]. cbn [bind]. intros H. injection H as H.
  exists mx. split; [reflexivity|].
  assert (N : mx <> 0).
  { destruct xs as [|x xs]; [discriminate|]. cbn [map_opt] in H. unfold div_opt at 1 in H.
    destruct (Reqb mx 0) eqn:Z; [discriminate|]. intros ->. rewrite Reqb_refl in Z. discriminate. }
  split; [exact N|]. split; [now apply map_opt_len in H|].
  intros i x Hx. destruct (map_opt_nth _ _ _ H i x Hx) as (y & Ey & Hy). rewrite div_opt_ne in Ey by exact N. congruence.
Qed.
Lemma scaled_bounds eff xs ss : 0 <= eff -> List.Forall (fun x => 0 <= x) xs -> scaled_by_max eff xs = Ok (Some ss) ->
  List.Forall (fun s => 0 <= s <= eff) ss /\ exists i, nth_error ss i = Some eff /\
    exists x, nth_error xs i = Some x /\ List.Forall (fun y => y <= x) xs.
Proof.
  intros He HF H. destruct (scaled_spec _ _ _ H) as (mx & Em & N & HL & HN).
  destruct (np_max_spec _ _ Em) as [Hin Hmax]. rewrite Forall_forall in HF, Hmax.
  assert (Hpos : 0 < mx) by (pose proof (HF mx Hin); lra). split.
  - apply Forall_forall. intros s Hs. destruct (In_nth_error _ _ Hs) as [i Hi].
    destruct (nth_in_range xs ss i s) as [x Hx]; [now symmetry|exact Hi|].
    rewrite (HN i x Hx) in Hi. injection Hi as <-. pose proof (HF x (nth_error_In _ _ Hx)). pose proof (Hmax x (nth_error_In _ _ Hx)).
    split; [apply Rmult_le_pos; [nra|left; now apply Rinv_0_lt_compat]|].
    apply (Rmult_le_reg_r mx); [exact Hpos|]. unfold Rdiv. rewrite Rmult_assoc, Rinv_l by lra. nra.
  - destruct (In_nth_error _ _ Hin) as [i Hi]. exists i. split; [rewrite (HN i mx Hi); f_equal; field; lra|].
    exists mx. split; [exact Hi|]. apply Forall_forall. exact Hmax.
Qed.

(** The shape of Kausel and Assimaki. *)
Lemma eps_pos : 0 < EPS.
Proof. unfold EPS. apply Rinv_0_lt_compat, pow_lt. lra. Qed.
Lemma eps_small : EPS <= 1.
Proof. unfold EPS. rewrite <- Rinv_1. apply Rinv_le_contravar; [lra|]. apply pow_R1_Rle. lra. Qed.
Lemma ka02_shape_range a b f s : ka02_shape a b f = Some s -> 0 <= s <= 1.
Proof.
  unfold ka02_shape. pose proof eps_pos as P.
  assert (Q : forall x, 0 <= Rmin 1 (exp (- a * f) / Rmax EPS x) <= 1).
  { intros x. pose proof (exp_pos (- a * f)). pose proof (Rmax_l EPS x). split; [|apply Rmin_l].
    apply Rmin_glb; [lra|]. left. apply Rdiv_lt_0_compat; lra. }
  destruct (Rltb 0 f). { intros H. injection H as <-. apply Q. }
  destruct (Reqb f 0); [|discriminate]. intros H. injection H as <-.
  destruct (Rltb b 0); [|apply Q]. split; [apply Rmin_glb; lra|apply Rmin_l].
Qed.
Lemma ka02_shape_zero a b : 0 <= b -> ka02_shape a b 0 = Some 1.
Proof.
  intros H. unfold ka02_shape. unfold Rltb at 1. destruct (Rlt_dec 0 0); [lra|]. rewrite Reqb_refl.
  unfold Rltb. destruct (Rlt_dec b 0); [lra|]. f_equal. rewrite Rmult_0_r, exp_0.
  pose proof eps_pos. pose proof eps_small.
  assert (E : Rmax EPS (if Reqb b 0 then 1 else 0) <= 1). { destruct (Reqb b 0); apply Rmax_lub; lra. }
  pose proof (Rmax_l EPS (if Reqb b 0 then 1 else 0)). apply Rmin_left.
  apply (Rmult_le_reg_r (Rmax EPS (if Reqb b 0 then 1 else 0))); [lra|].
  unfold Rdiv. rewrite Rmult_assoc, Rinv_l by lra. lra.
Qed.
Lemma ka02_shape_negative a b : b < 0 -> ka02_shape a b 0 = Some 0.
Proof.
  intros H. unfold ka02_shape. unfold Rltb at 1. destruct (Rlt_dec 0 0); [lra|]. rewrite Reqb_refl.
  unfold Rltb. destruct (Rlt_dec b 0); [|lra]. f_equal. apply Rmin_right. lra.
Qed.
Lemma ka02_shape_falls a b f g s t : 0 <= a -> 0 <= b -> f <= g ->
  ka02_shape a b f = Some s -> ka02_shape a b g = Some t -> t <= s.
Proof.
  intros Ha Hb Hfg Hs Ht.
  destruct (Req_dec f 0) as [->|Nf].
  { rewrite ka02_shape_zero in Hs by exact Hb. injection Hs as <-. apply ka02_shape_range in Ht. lra. }
  assert (Pf : 0 < f). { unfold ka02_shape in Hs. unfold Rltb at 1 in Hs. destruct (Rlt_dec 0 f); [assumption|].
    unfold Reqb at 1 in Hs. destruct (Req_EM_T f 0); [lra|discriminate]. }
  unfold ka02_shape in Hs, Ht. unfold Rltb at 1 in Hs. unfold Rltb at 1 in Ht.
  destruct (Rlt_dec 0 f); [|lra]. destruct (Rlt_dec 0 g); [|lra]. injection Hs as <-. injection Ht as <-.
  apply Rmin_glb; [apply Rmin_l|]. eapply Rle_trans; [apply Rmin_r|].
  pose proof eps_pos. pose proof (Rmax_l EPS (Rpower f b)). pose proof (Rmax_l EPS (Rpower g b)).
  unfold Rdiv. apply Rmult_le_compat.
  - left. apply exp_pos.
  - left. apply Rinv_0_lt_compat. lra.
  - destruct (Req_dec (- a * g) (- a * f)) as [->|]; [lra|]. left. apply exp_increasing. nra.
  - apply Rinv_le_contravar; [lra|]. apply Rmax_lub; [apply Rmax_l|]. eapply Rle_trans; [|apply Rmax_r].
    destruct (Req_dec f g) as [->|]; [lra|]. destruct (Req_dec b 0) as [->|]; [rewrite !Rpower_O by lra; lra|].
    left. unfold Rpower. apply exp_increasing. apply Rmult_lt_compat_l; [lra|]. apply ln_increasing; lra.
Qed.

Lemma ka02_spec lsq freqs fas eff ss : ka02 lsq freqs fas eff = Some ss ->
  exists avg a b, avg <> 0 /\ length ss = length freqs /\
    (exists rows logs, lsq rows logs = (a, b)) /\
    avg = trapz freqs (Averages.map2 Rmult freqs fas) / trapz freqs fas /\
    forall i f, nth_error freqs i = Some f -> exists s, ka02_shape a b (f / avg) = Some s /\ nth_error ss i = Some (eff * s).
Proof.
  unfold ka02. destruct (div_opt _ (trapz freqs fas)) as [avg|] eqn:Ea; [|discriminate]. cbn [opt_bind].
  destruct (div_opt _ avg) as [savg|]; [|discriminate]. cbn [opt_bind].
  destruct (map_opt (fun f => div_opt f avg) freqs) as [fs|] eqn:Ef; [|discriminate]. cbn [opt_bind].
  match goal with |- opt_bind ?x _ = _ -> _ => destruct x as [rows|]; [|discriminate] end. cbn [opt_bind].
  match goal with |- opt_bind ?x _ = _ -> _ => destruct x as [logs|]; [|discriminate] end. cbn [opt_bind].
  destruct (lsq rows logs) as [a b] eqn:Eab. cbn [fst snd].
  destruct (map_opt (ka02_shape a b) fs) as [shape|] eqn:Esh; [|discriminate]. cbn [opt_bind].
  intros H. injection H as <-. exists avg, a, b.
  assert (Eavg : avg = trapz freqs (Averages.map2 Rmult freqs fas) / trapz freqs fas).
  { unfold div_opt in Ea. destruct (Reqb _ 0); [discriminate|]. now injection Ea as <-. }
  assert (HL : length (map (fun s => eff * s) shape) = length freqs).
  { rewrite map_length, (map_opt_len _ _ _ Esh), (map_opt_len _ _ _ Ef). reflexivity. }
  assert (N : avg <> 0).
  { destruct freqs as [|f freqs].
    - cbn in Ea. unfold div_opt in Ea. rewrite Reqb_refl in Ea. discriminate.
    - cbn [map_opt] in Ef. unfold div_opt at 1 in Ef. destruct (Reqb avg 0) eqn:Z; [discriminate|].
      intros ->. rewrite Reqb_refl in Z. discriminate. }
  split; [exact N|]. split; [exact HL|]. split; [now exists rows, logs|]. split; [exact Eavg|].
  intros i f Hf. destruct (map_opt_nth _ _ _ Ef i f Hf) as (q & Eq & Hq). rewrite div_opt_ne in Eq by exact N.
  injection Eq as <-. destruct (map_opt_nth _ _ _ Esh i _ Hq) as (s & Es & Hs).
  exists s. split; [exact Es|]. now apply map_nth_error.
Qed.

Lemma text_eqb_eq a : forall b, text_eqb a b = true <-> a = b.
Proof.
  induction a as [|x a IH]; intros [|y b]; cbn; split; try discriminate; try reflexivity.
  - rewrite andb_true_iff, Ascii.eqb_eq, IH. intros [-> ->]. reflexivity.
  - intros H. injection H as -> ->. rewrite andb_true_iff, Ascii.eqb_eq, IH. now split.
Qed.
Lemma starts_spec p s : starts p s = true <-> exists r, s = p ++ r.
Proof.
  unfold starts. rewrite text_eqb_eq. split.
  - intros H. exists (skipn (length p) s). rewrite H at 1. symmetry. apply firstn_skipn.
  - intros [r ->]. rewrite firstn_app, firstn_all, Nat.sub_diag. cbn. now rewrite app_nil_r.
Qed.

(** All methods: between zero and the effective strain. *)
Lemma spectrum_bounds F freqs fas eff ss : 0 <= eff -> List.Forall (fun x => 0 <= x) fas ->
  (forall b, List.Forall (fun x => 0 <= x) (x_smooth F b freqs fas)) ->
  strain_spectrum F freqs fas eff = Ok (Some ss) -> List.Forall (fun s => 0 <= s <= eff) ss.
Proof.
  intros He HF HS. unfold strain_spectrum. destruct (text_eqb _ KA02).
  { intros H. injection H as H. destruct (ka02_spec _ _ _ _ _ H) as (avg & a & b & _ & HL & _ & _ & HN).
    apply Forall_forall. intros s Hs. destruct (In_nth_error _ _ Hs) as [i Hi].
    destruct (nth_in_range freqs ss i s) as [f Hf]; [now symmetry|exact Hi|].
    destruct (HN i f Hf) as (q & Eq & Hq). rewrite Hq in Hi. injection Hi as <-. apply ka02_shape_range in Eq. nra. }
  destruct (starts KO _).
  - destruct (py_float _) as [bw|e]; [|discriminate]. cbn [bind].
    destruct (scaled_by_max _ _) as [[zs|]|e] eqn:E; try discriminate. cbn [bind opt_bind]. intros H. injection H as <-.
    destruct (scaled_bounds _ _ _ He (HS bw) E) as [B _]. apply Forall_forall. intros s Hs.
    destruct (In_nth_error _ _ Hs) as [i Hi]. destruct (max_backwards_spec _ _ _ Hi) as [(j & _ & Ej) _].
    rewrite Forall_forall in B. apply B. now apply nth_error_In with j.
  - intros H. now apply (scaled_bounds _ _ _ He HF H).
Qed.

Lemma not_ka02_ko b : text_eqb (KO ++ b) KA02 = false.
Proof. reflexivity. Qed.

(** Smoothed spectra: never increasing with frequency, from the effective strain. *)
Lemma spectrum_ko F b freqs fas eff ss : x_method F = KO ++ b -> 0 <= eff ->
  (forall w, List.Forall (fun x => 0 <= x) (x_smooth F w freqs fas)) ->
  strain_spectrum F freqs fas eff = Ok (Some ss) -> never_rises ss /\ nth_error ss 0 = Some eff.
Proof.
  intros HM He HS. unfold strain_spectrum. rewrite HM, not_ka02_ko.
  replace (starts KO (KO ++ b)) with true by (symmetry; apply starts_spec; now exists b).
  destruct (py_float _) as [bw|e]; [|discriminate]. cbn [bind].
  destruct (scaled_by_max _ _) as [[zs|]|e] eqn:E; try discriminate. cbn [bind opt_bind]. intros H. injection H as <-.
  split; [apply max_backwards_falls|].
  destruct (scaled_bounds _ _ _ He (HS bw) E) as [B (i & Hi & _)].
  destruct (max_backwards zs) as [|y ys] eqn:Em.
  { assert (zs = []) as -> by (apply length_zero_iff_nil; rewrite <- max_backwards_len, Em; reflexivity). now destruct i. }
  cbn [nth_error]. assert (H0 : nth_error (max_backwards zs) 0 = Some y) by (now rewrite Em).
  destruct (max_backwards_spec _ _ _ H0) as [(j & _ & Ej) M]. pose proof (M i eff ltac:(lia) Hi).
  rewrite Forall_forall in B. pose proof (B y (nth_error_In _ _ Ej)). f_equal. lra.
Qed.

(** Any name that is neither [ka02] nor starts with [ko:] means [zr15]. *)
Lemma spectrum_other F freqs fas eff : x_method F <> KA02 -> (forall b, x_method F <> KO ++ b) ->
  strain_spectrum F freqs fas eff = scaled_by_max eff fas.
Proof.
  intros H1 H2. unfold strain_spectrum. destruct (text_eqb (x_method F) KA02) eqn:E.
  { apply text_eqb_eq in E. contradiction. }
  destruct (starts KO (x_method F)) eqn:E2; [|reflexivity]. apply starts_spec in E2 as [b Hb]. now destruct (H2 b).
Qed.
Lemma zr15_other : ZR15 <> KA02 /\ forall b, ZR15 <> KO ++ b.
Proof. split; [discriminate|]. intros b H. discriminate. Qed.

Lemma spectrum_zr15 F freqs fas eff ss : x_method F = ZR15 -> 0 <= eff -> List.Forall (fun x => 0 <= x) fas ->
  strain_spectrum F freqs fas eff = Ok (Some ss) ->
  length ss = length fas /\
  (forall i j s t x y, nth_error ss i = Some s -> nth_error ss j = Some t ->
    nth_error fas i = Some x -> nth_error fas j = Some y -> s * y = t * x) /\
  (exists i x, nth_error ss i = Some eff /\ nth_error fas i = Some x /\ List.Forall (fun y => y <= x) fas).
Proof.
  intros HM He HF. rewrite spectrum_other by (rewrite HM; apply zr15_other). intros H.
  destruct (scaled_bounds _ _ _ He HF H) as [_ (i & Hi & x & Hx & Hm)].
  destruct (scaled_spec _ _ _ H) as (mx & _ & N & HL & HN). split; [exact HL|]. split.
  - intros i' j s t x' y Hs Ht Hx' Hy. rewrite (HN i' x' Hx') in Hs. rewrite (HN j y Hy) in Ht.
    injection Hs as <-. injection Ht as <-. field. exact N.
  - now exists i, x.
Qed.

(** The published shape: with exponents that are not negative the strain does not increase
    with frequency and starts from the effective strain; with a negative power it is zero at
    zero frequency. *)
Lemma spectrum_ka02 F freqs fas eff ss : x_method F = KA02 -> 0 <= eff ->
  strain_spectrum F freqs fas eff = Ok (Some ss) ->
  exists avg a b, avg = trapz freqs (Averages.map2 Rmult freqs fas) / trapz freqs fas /\
    (exists rows logs, x_lsq F rows logs = (a, b)) /\ length ss = length freqs /\
    (0 <= b -> forall i, nth_error freqs i = Some 0 -> nth_error ss i = Some eff) /\
    (b < 0 -> forall i, nth_error freqs i = Some 0 -> nth_error ss i = Some 0) /\
    (0 <= a -> 0 <= b -> 0 < avg -> forall i j f g s t, nth_error freqs i = Some f -> nth_error freqs j = Some g ->
       f <= g -> nth_error ss i = Some s -> nth_error ss j = Some t -> t <= s).
Proof.
  intros HM He. unfold strain_spectrum. rewrite HM. replace (text_eqb KA02 KA02) with true by reflexivity.
  intros H. injection H as H. destruct (ka02_spec _ _ _ _ _ H) as (avg & a & b & N & HL & HQ & EA & HN).
  exists avg, a, b. split; [exact EA|]. split; [exact HQ|]. split; [exact HL|]. split; [|split].
  - intros Hb i Hi. destruct (HN i 0 Hi) as (s & Es & Hs). replace (0 / avg) with 0 in Es by (field; exact N).
    rewrite ka02_shape_zero in Es by exact Hb. injection Es as <-. rewrite Hs. f_equal. lra.
  - intros Hb i Hi. destruct (HN i 0 Hi) as (s & Es & Hs). replace (0 / avg) with 0 in Es by (field; exact N).
    rewrite ka02_shape_negative in Es by exact Hb. injection Es as <-. rewrite Hs. f_equal. lra.
  - intros Ha Hb Hp i j f g s t Hf Hg Hfg Hs Ht.
    destruct (HN i f Hf) as (s' & Es & Hs'). destruct (HN j g Hg) as (t' & Et & Ht').
    rewrite Hs' in Hs. rewrite Ht' in Ht. injection Hs as <-. injection Ht as <-.
    apply Rmult_le_compat_l; [exact He|]. apply (ka02_shape_falls a b (f / avg) (g / avg)); auto.
    unfold Rdiv. apply Rmult_le_compat_r; [left; now apply Rinv_0_lt_compat|exact Hfg].
Qed.

Lemma forall2_nth_l {A B} (P : A -> B -> Prop) xs ys : Forall2 P xs ys ->
  forall i x, nth_error xs i = Some x -> exists y, nth_error ys i = Some y /\ P x y.
Proof.
  induction 1 as [|x y xs ys HP HF IH]; intros [|i] z Hz; try discriminate.
  - injection Hz as <-. now exists y.
  - exact (IH i z Hz).
Qed.
Lemma forall2_nth_r {A B} (P : A -> B -> Prop) xs ys : Forall2 P xs ys ->
  forall i y, nth_error ys i = Some y -> exists x, nth_error xs i = Some x /\ P x y.
Proof.
  induction 1 as [|x y xs ys HP HF IH]; intros [|i] z Hz; try discriminate.
  - injection Hz as <-. now exists x.
  - exact (IH i z Hz).
Qed.
