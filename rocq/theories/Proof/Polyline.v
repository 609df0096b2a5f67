(** Trapezoids measure the area below a polyline; the published spectral shape. *)
From Verif Require Import Common Proof.CommonFacts Model.Curve Model.Layer Model.Eql Model.Text Model.Fdm
  Spec.LayerSpec Spec.FdmSpec Spec.PolylineSpec Proof.HyperbolicFacts Proof.FdmFacts.
From Coquelicot Require Import Coquelicot.
Local Open Scope R_scope.

(** The polyline, by recursion on the points. *)
Fixpoint poly (pts : list (R * R)) (t : R) : R :=
  match pts with
  | p :: ((q :: _) as rest) =>
      if Rle_dec t (fst q) then snd p + (snd q - snd p) * (t - fst p) / (fst q - fst p) else poly rest t
  | p :: nil => snd p
  | nil => 0
  end.
Lemma ascending_tl x xs : ascending (x :: xs) -> ascending xs.
Proof. intros H i y z Hy Hz. exact (H (S i) y z Hy Hz). Qed.
Lemma poly_head p pts : ascending (map fst (p :: pts)) -> poly (p :: pts) (fst p) = snd p.
Proof.
  intros H. destruct pts as [|q pts]; [reflexivity|]. cbn [poly].
  pose proof (H 0%nat (fst p) (fst q) eq_refl eq_refl). destruct (Rle_dec (fst p) (fst q)); [|lra].
  rewrite Rminus_diag_eq with (r1 := fst p) by reflexivity. field. lra.
Qed.
Lemma ascending_from xs : forall x i y, ascending (x :: xs) -> nth_error (x :: xs) i = Some y -> x <= y.
Proof.
  induction xs as [|z xs IH]; intros x [|i] y H E; cbn [nth_error] in E; try (injection E as <-; lra).
  - now destruct i.
  - pose proof (H 0%nat x z eq_refl eq_refl). pose proof (IH z i y (ascending_tl _ _ H) E). lra.
Qed.
Lemma poly_ok pts : ascending (map fst pts) -> polyline (poly pts) pts.
Proof.
  induction pts as [|p pts IH]; intros H; [intros [|i] x y x' y' E; discriminate|].
  destruct pts as [|q pts]; [intros i x y x' y' _ E; destruct i; discriminate|].
  pose proof (H 0%nat (fst p) (fst q) eq_refl eq_refl) as Hpq.
  pose proof (ascending_tl _ _ H) as H'.
  assert (T : forall t, fst q <= t -> poly (p :: q :: pts) t = poly (q :: pts) t).
  { intros t Ht. cbn [poly]. destruct (Rle_dec t (fst q)) as [L|L]; [|reflexivity].
    replace t with (fst q) by lra. transitivity (snd q); [field; lra|]. symmetry. exact (poly_head q pts H'). }
  intros [|i] x y x' y' E E' t Ht; cbn [nth_error] in E.
  - injection E as ->. cbn [nth_error] in E'. injection E' as ->. cbn [poly fst snd].
    destruct (Rle_dec t x'); [reflexivity|lra].
  - rewrite T; [exact (IH H' i x y x' y' E E' t Ht)|].
    apply (map_nth_error fst) in E. pose proof (ascending_from _ _ i x H' E). lra.
Qed.

Lemma polyline_tl g p pts : polyline g (p :: pts) -> polyline g pts.
Proof. intros H i. exact (H (S i)). Qed.
Lemma segment_area g x y x' y' : x < x' -> (forall t, x <= t <= x' -> g t = y + (y' - y) * (t - x) / (x' - x)) ->
  is_RInt (V := R_CompleteNormedModule) g x x' ((x' - x) * (y + y') / 2).
Proof.
  intros Hx Hg. apply (is_RInt_ext (V := R_CompleteNormedModule) (fun t => y + (y' - y) * (t - x) / (x' - x))).
  { intros t. rewrite Rmin_left, Rmax_right by lra. intros Ht. symmetry. apply Hg. lra. }
  set (F := fun t => y * t + (y' - y) / (x' - x) * ((t - x) ^ 2 / 2)).
  replace ((x' - x) * (y + y') / 2) with (minus (F x') (F x)).
  2: { unfold F, minus, plus, opp; cbn. field. lra. }
  apply (is_RInt_derive (V := R_CompleteNormedModule) F).
  - intros t _. unfold F. auto_derive; [exact I|]. field. lra.
  - intros t _. apply (ex_derive_continuous (V := R_NormedModule)). auto_derive. lra.
Qed.
Lemma trapz_polyline g xs : forall ys, length xs = length ys -> ascending xs -> polyline g (combine xs ys) ->
  is_RInt (V := R_CompleteNormedModule) g (fst (hd (0, 0) (combine xs ys))) (fst (last (combine xs ys) (0, 0))) (trapz xs ys).
Proof.
  induction xs as [|x xs IH]; intros ys HL HA HP.
  - destruct ys; [|discriminate]. cbn. apply (is_RInt_point (V := R_CompleteNormedModule)).
  - destruct ys as [|y ys]; [discriminate|]. destruct xs as [|x' xs].
    + destruct ys; [|discriminate]. cbn. apply (is_RInt_point (V := R_CompleteNormedModule)).
    + destruct ys as [|y' ys]; [discriminate|].
      assert (E1 : last (combine (x :: x' :: xs) (y :: y' :: ys)) (0, 0) = last (combine (x' :: xs) (y' :: ys)) (0, 0)) by reflexivity.
      rewrite E1. change (trapz (x :: x' :: xs) (y :: y' :: ys)) with ((x' - x) * (y + y') / 2 + trapz (x' :: xs) (y' :: ys)).
      apply (is_RInt_Chasles (V := R_CompleteNormedModule) g _ x').
      * cbn [combine hd fst]. apply segment_area; [exact (HA 0%nat x x' eq_refl eq_refl)|].
        exact (HP 0%nat x y x' y' eq_refl eq_refl).
      * apply (IH (y' :: ys)); [cbn in HL |- *; lia|exact (ascending_tl _ _ HA)|exact (polyline_tl _ _ _ HP)].
Qed.
Lemma map_fst_comb {A B} (xs : list A) : forall (ys : list B), length xs = length ys -> map fst (combine xs ys) = xs.
Proof. induction xs as [|x xs IH]; intros [|y ys] H; try discriminate; [reflexivity|]. cbn. f_equal. apply IH. now injection H. Qed.
Lemma map_snd_comb {A B} (xs : list A) : forall (ys : list B), length xs = length ys -> map snd (combine xs ys) = ys.
Proof. induction xs as [|x xs IH]; intros [|y ys] H; try discriminate; [reflexivity|]. cbn. f_equal. apply IH. now injection H. Qed.
Lemma comb_map {A B} (ps : list (A * B)) : combine (map fst ps) (map snd ps) = ps.
Proof. induction ps as [|[a b] ps IH]; [reflexivity|]. cbn. now rewrite IH. Qed.

(** Exactly one number is the area below given points, and it is the sum of trapezoids. *)
Lemma trapz_area pts A : ascending (map fst pts) -> area_below pts A <-> A = trapz (map fst pts) (map snd pts).
Proof.
  intros HA.
  assert (K : forall g, polyline g pts -> is_RInt (V := R_CompleteNormedModule) g (fst (hd (0, 0) pts)) (fst (last pts (0, 0))) (trapz (map fst pts) (map snd pts))).
  { intros g Hg. rewrite <- (comb_map pts) at 1 2. apply trapz_polyline; [now rewrite !map_length|exact HA|now rewrite comb_map]. }
  split.
  - intros (g & Hg & HI). transitivity (RInt (V := R_CompleteNormedModule) g (fst (hd (0, 0) pts)) (fst (last pts (0, 0)))).
    + symmetry. now apply is_RInt_unique.
    + apply is_RInt_unique. now apply K.
  - intros ->. exists (poly pts). split; [now apply poly_ok|]. apply K. now apply poly_ok.
Qed.

Lemma map2_combine (xs : list R) : forall ys, length xs = length ys ->
  map fst (combine xs (Averages.map2 Rmult xs ys)) = xs /\ map snd (combine xs (Averages.map2 Rmult xs ys)) = Averages.map2 Rmult xs ys /\
  combine xs (Averages.map2 Rmult xs ys) = map (fun p => (fst p, fst p * snd p)) (combine xs ys).
Proof.
  intros ys HL. assert (HL' : length xs = length (Averages.map2 Rmult xs ys)).
  { unfold Averages.map2. rewrite map_length, combine_length, HL. lia. }
  split; [now apply map_fst_comb|]. split; [now apply map_snd_comb|].
  clear HL'. revert ys HL. induction xs as [|x xs IH]; intros [|y ys] HL; try discriminate; [reflexivity|].
  unfold Averages.map2 in *. cbn. f_equal. apply IH. now injection HL.
Qed.

(** Splitting ascending points at a frequency. *)
Lemma split_points c pts : ascending (map fst pts) ->
  pts = filter (fun p : R * R => Rltb (fst p) c) pts ++ filter (fun p => negb (Rltb (fst p) c)) pts /\
  ascending (map fst (filter (fun p => Rltb (fst p) c) pts)).
Proof.
  induction pts as [|p pts IH]; intros H; [split; [reflexivity|intros [|i] x y E; discriminate]|].
  destruct (IH (ascending_tl _ _ H)) as [E A]. cbn [filter]. destruct (Rltb (fst p) c) eqn:L; cbn [negb].
  - split; [cbn; now rewrite <- E|]. intros [|i] x y Hx Hy; cbn [map nth_error] in Hx, Hy; [|exact (A i x y Hx Hy)].
    injection Hx as <-. destruct pts as [|q pts]; [discriminate|]. cbn [filter] in Hy. pose proof (H 0%nat (fst p) (fst q) eq_refl eq_refl).
    assert (In y (map fst (filter (fun p : R * R => Rltb (fst p) c) (q :: pts)))) as I by (apply (nth_error_In _ 0); exact Hy).
    apply in_map_iff in I. destruct I as (r & <- & I). apply filter_In in I. destruct I as [I _].
    apply (in_map fst) in I. apply In_nth_error in I. destruct I as [j I].
    pose proof (ascending_from _ _ _ _ (ascending_tl _ _ H) I). lra.
  - assert (N : filter (fun p : R * R => Rltb (fst p) c) pts = []).
    { destruct (filter (fun p : R * R => Rltb (fst p) c) pts) as [|r rs] eqn:F; [reflexivity|exfalso].
      assert (I : In r pts /\ Rltb (fst r) c = true) by (apply (filter_In (fun p : R * R => Rltb (fst p) c)); rewrite F; now left). destruct I as [I Lr].
      apply (in_map fst) in I. apply In_nth_error in I. destruct I as [j I].
      pose proof (ascending_from _ _ (S j) _ H I). apply Rltb_true in Lr. apply Rltb_false in L. lra. }
    rewrite N in *. split; [cbn in E |- *; now rewrite <- E|]. intros [|i] x y E'; discriminate.
Qed.

Lemma ln_opt_some x y : ln_opt x = Some y -> 0 < x /\ y = ln x.
Proof. unfold ln_opt. destruct (Rltb 0 x) eqn:E; [|discriminate]. intros H. injection H as <-. split; [now apply Rltb_true|reflexivity]. Qed.

(** The published shape in full: the frequency and strain that normalise the spectrum, the
    points that are fitted, and the strain at every frequency. *)
Lemma ka02_full F freqs fas eff ss : x_method F = KA02 -> length freqs = length fas -> ascending freqs ->
  strain_spectrum F freqs fas eff = Ok (Some ss) ->
  exists A0 A1 A2 avg savg low high a b,
    area_below (combine freqs fas) A0 /\
    area_below (map (fun p => (fst p, fst p * snd p)) (combine freqs fas)) A1 /\ A0 <> 0 /\ avg = A1 / A0 /\
    combine freqs fas = low ++ high /\ List.Forall (fun p => fst p < avg) low /\ List.Forall (fun p => avg <= fst p) high /\
    area_below low A2 /\ savg = A2 / avg /\
    List.Forall (fun p => 0 < fst p / avg /\ 0 < snd p / savg) high /\
    x_lsq F (map (fun p => (- (fst p / avg), - ln (fst p / avg))) high) (map (fun p => ln (snd p / savg)) high) = (a, b) /\
    length ss = length freqs /\
    forall i f, nth_error freqs i = Some f ->
      (0 < f / avg /\ nth_error ss i = Some (eff * Rmin 1 (exp (- a * (f / avg)) / Rmax (/ 2 ^ 52) (Rpower (f / avg) b)))) \/
      (f = 0 /\ (0 <= b -> nth_error ss i = Some eff) /\ (b < 0 -> nth_error ss i = Some 0)).
Proof.
  intros HM HL HA. unfold strain_spectrum. rewrite HM. replace (text_eqb KA02 KA02) with true by reflexivity.
  intros H. injection H as H. destruct (ka02_spec _ _ _ _ _ H) as (avg0 & _ & _ & N & HSL & _ & EA & _).
  unfold ka02 in H. set (pts := combine freqs fas) in *.
  assert (P1 : map fst pts = freqs) by now apply map_fst_comb.
  assert (P2 : map snd pts = fas) by now apply map_snd_comb.
  destruct (map2_combine freqs fas HL) as (Q1 & Q2 & Q3). fold pts in Q3. rewrite Q3 in Q1, Q2.
  destruct (div_opt _ (trapz freqs fas)) as [avg|] eqn:Ea; [|discriminate]. cbn [opt_bind] in H.
  unfold div_opt in Ea. destruct (Reqb (trapz freqs fas) 0) eqn:N0; [discriminate|]. injection Ea as Ea.
  assert (Navg : avg <> 0) by (rewrite <- Ea, <- EA; exact N).
  assert (NA : trapz freqs fas <> 0) by (intros Z; rewrite Z, Reqb_refl in N0; discriminate).
  destruct (div_opt _ avg) as [savg|] eqn:Es; [|discriminate]. cbn [opt_bind] in H.
  rewrite div_opt_ne in Es by exact Navg. injection Es as Es.
  destruct (map_opt (fun f => div_opt f avg) freqs) as [fs|] eqn:Ef; [|discriminate]. cbn [opt_bind] in H.
  set (low := filter (fun p => Rltb (fst p) avg) pts) in *. set (high := filter (fun p => negb (Rltb (fst p) avg)) pts) in *.
  match type of H with opt_bind ?x _ = _ => destruct x as [rows|] eqn:Er; [|discriminate] end. cbn [opt_bind] in H.
  match type of H with opt_bind ?x _ = _ => destruct x as [logs|] eqn:El; [|discriminate] end. cbn [opt_bind] in H.
  destruct (x_lsq F rows logs) as [a b] eqn:Eab. cbn [fst snd] in H.
  destruct (map_opt (ka02_shape a b) fs) as [shape|] eqn:Esh; [|discriminate]. cbn [opt_bind] in H. injection H as <-.
  destruct (split_points avg pts) as [S1 S2]; [now rewrite P1|]. fold low high in S1, S2.
  assert (Rows : rows = map (fun p => (- (fst p / avg), - ln (fst p / avg))) high /\ List.Forall (fun p => 0 < fst p / avg) high).
  { clear - Er Navg. revert rows Er. induction high as [|p hs IH]; intros rows Er; cbn [map_opt] in Er; [injection Er as <-; now split|].
    rewrite div_opt_ne in Er by exact Navg. cbn [opt_bind] in Er. destruct (ln_opt (fst p / avg)) as [l|] eqn:E; [|discriminate].
    cbn [opt_bind] in Er. match type of Er with opt_bind ?x _ = _ => destruct x as [r|]; [|discriminate] end.
    injection Er as <-. destruct (IH r eq_refl) as [-> IH2]. apply ln_opt_some in E. destruct E as [E ->]. split; [reflexivity|]. now constructor. }
  assert (Logs : logs = map (fun p => ln (snd p / savg)) high /\ List.Forall (fun p => 0 < snd p / savg) high).
  { clear - El. revert logs El. induction high as [|p hs IH]; intros logs El; cbn [map_opt] in El; [injection El as <-; now split|].
    destruct (div_opt (snd p) savg) as [d|] eqn:D; [|discriminate]. cbn [opt_bind] in El. destruct (ln_opt d) as [l|] eqn:E; [|discriminate].
    cbn [opt_bind] in El. match type of El with opt_bind ?x _ = _ => destruct x as [r|]; [|discriminate] end.
    injection El as <-. destruct (IH r eq_refl) as [-> IH2].
    unfold div_opt in D. destruct (Reqb savg 0); [discriminate|]. injection D as <-.
    apply ln_opt_some in E. destruct E as [E ->]. split; [reflexivity|]. now constructor. }
  destruct Rows as [-> PR]. destruct Logs as [-> PL].
  exists (trapz freqs fas), (trapz freqs (Averages.map2 Rmult freqs fas)), (trapz (map fst low) (map snd low)), avg, savg, low, high, a, b.
  split; [apply trapz_area; [now rewrite P1|now rewrite P1, P2]|].
  split; [apply trapz_area; [now rewrite Q1|now rewrite Q1, Q2]|].
  split; [exact NA|]. split; [now symmetry|]. split; [exact S1|].
  split; [apply Forall_forall; intros p I; apply filter_In in I; now apply Rltb_true|].
  split; [apply Forall_forall; intros p I; apply filter_In in I; destruct I as [_ I]; apply negb_true_iff in I; now apply Rltb_false|].
  split; [now apply trapz_area|]. split; [now symmetry|].
  split; [rewrite Forall_forall in *; intros p I; split; [now apply PR|now apply PL]|].
  split; [exact Eab|]. split; [exact HSL|].
  intros i f Hf. destruct (map_opt_nth _ _ _ Ef i f Hf) as (q & Eq & Hq). rewrite div_opt_ne in Eq by exact Navg.
  injection Eq as <-. destruct (map_opt_nth _ _ _ Esh i _ Hq) as (s & Ess & Hs).
  apply (map_nth_error (fun s => eff * s)) in Hs. rewrite Hs. pose proof Ess as E0. unfold ka02_shape in E0.
  destruct (Rltb 0 (f / avg)) eqn:L; [left; split; [now apply Rltb_true|]; injection E0 as <-; reflexivity|].
  destruct (Reqb (f / avg) 0) eqn:Z; [|discriminate]. right.
  assert (Zf : f / avg = 0) by (unfold Reqb in Z; destruct (Req_EM_T (f / avg) 0); [assumption|discriminate]).
  split; [replace f with (f / avg * avg) by (field; exact Navg); rewrite Zf; ring|].
  rewrite Zf in Ess. split; intros Hb.
  - rewrite ka02_shape_zero in Ess by exact Hb. injection Ess as <-. f_equal. ring.
  - rewrite ka02_shape_negative in Ess by exact Hb. injection Ess as <-. f_equal. ring.
Qed.
