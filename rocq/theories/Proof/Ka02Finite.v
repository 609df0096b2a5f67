(** When the published spectral shape gives finite strains. *)
From Verif Require Import Common Proof.CommonFacts Model.Curve Model.Layer Model.Eql Model.Averages Model.Text Model.Fdm
  Spec.LayerSpec Spec.FdmSpec Spec.PolylineSpec Proof.HyperbolicFacts Proof.FdmFacts Proof.Polyline.
From Coq Require Import Sorted.
From Coquelicot Require Import Coquelicot.
Local Open Scope R_scope.

Definition before (p q : R * R) : Prop := fst p < fst q.
Definition tz (pts : list (R * R)) : R := trapz (map fst pts) (map snd pts).

Lemma tz_cons p q pts : tz (p :: q :: pts) = (fst q - fst p) * (snd p + snd q) / 2 + tz (q :: pts).
Proof. reflexivity. Qed.
Lemma asc_sorted pts : ascending (map fst pts) -> StronglySorted before pts.
Proof.
  induction pts as [|p pts IH]; intros H; [constructor|].
  constructor; [apply IH; exact (ascending_tl _ _ H)|]. apply List.Forall_forall. intros q I.
  apply (in_map fst) in I. apply In_nth_error in I. destruct I as [j I].
  destruct pts as [|r pts]; [destruct j; discriminate|]. pose proof (H 0%nat (fst p) (fst r) eq_refl eq_refl).
  pose proof (ascending_from _ _ j _ (ascending_tl _ _ H) I). unfold before. lra.
Qed.
Lemma sorted_filter f pts : StronglySorted before pts -> StronglySorted before (filter f pts).
Proof.
  induction 1 as [|p pts H IH HF]; [constructor|]. cbn [filter]. destruct (f p); [|exact IH].
  constructor; [exact IH|]. apply List.Forall_forall. intros q I. apply filter_In in I. destruct I as [I _].
  revert q I. now apply List.Forall_forall.
Qed.
Lemma tz_nonneg pts : StronglySorted before pts -> List.Forall (fun p => 0 <= snd p) pts -> 0 <= tz pts.
Proof.
  induction pts as [|p [|q pts] IH]; intros S F; [apply Rle_refl|apply Rle_refl|]. rewrite tz_cons.
  inversion S as [|? ? S' B]; subst. inversion F as [|? ? F0 F']; subst. inversion B as [|? ? B0 _]; subst.
  inversion F' as [|? ? F1 _]; subst. pose proof (IH S' F'). unfold before in B0.
  assert (0 <= (fst q - fst p) * (snd p + snd q)) by (apply Rmult_le_pos; lra). lra.
Qed.
Lemma tz_pos p q pts : StronglySorted before (p :: q :: pts) -> 0 <= snd p -> 0 < snd q ->
  List.Forall (fun p => 0 <= snd p) pts -> 0 < tz (p :: q :: pts).
Proof.
  intros S P Q F. rewrite tz_cons. inversion S as [|? ? S' B]; subst. inversion B as [|? ? B0 _]; subst.
  assert (0 <= tz (q :: pts)) by (apply tz_nonneg; [exact S'|constructor; [lra|exact F]]). unfold before in B0.
  assert (0 < (fst q - fst p) * (snd p + snd q)) by (apply Rmult_lt_0_compat; lra). lra.
Qed.
Definition wt (p : R * R) : R * R := (fst p, fst p * snd p).
Lemma map_opt_all {A B} (f : A -> option B) xs : List.Forall (fun x => exists y, f x = Some y) xs -> exists ys, map_opt f xs = Some ys.
Proof.
  induction 1 as [|x xs [y E] _ [ys IH]]; [now exists nil|]. exists (y :: ys). cbn [map_opt]. now rewrite E, IH.
Qed.
Lemma map_opt_in {A B} (f : A -> option B) xs x : In x xs -> f x = None -> map_opt f xs = None.
Proof.
  induction xs as [|y xs IH]; [easy|]. intros [->|I] E; cbn [map_opt]; [now rewrite E|].
  rewrite (IH I E). now destruct (f y).
Qed.
Lemma map_opt_fs c freqs fs : c <> 0 -> map_opt (fun f => div_opt f c) freqs = Some fs -> fs = map (fun f => f / c) freqs.
Proof.
  intros N. revert fs. induction freqs as [|f freqs IH]; intros fs H; cbn [map_opt] in H; [now injection H as <-|].
  rewrite div_opt_ne in H by exact N. destruct (map_opt _ freqs) as [r|]; cbn [opt_bind] in H; [|discriminate].
  injection H as <-. cbn. f_equal. now apply IH.
Qed.

(** Finite exactly when the second frequency lies below the mean frequency. *)
Lemma ka02_finite_iff F f0 f1 fs a0 a1 amps eff : x_method F = KA02 -> length fs = length amps ->
  ascending (f0 :: f1 :: fs) -> 0 <= f0 -> 0 <= a0 -> 0 < a1 -> List.Forall (fun a => 0 < a) amps ->
  exists A0 A1 o,
    area_below (combine (f0 :: f1 :: fs) (a0 :: a1 :: amps)) A0 /\
    area_below (map (fun p => (fst p, fst p * snd p)) (combine (f0 :: f1 :: fs) (a0 :: a1 :: amps))) A1 /\ 0 < A0 /\
    strain_spectrum F (f0 :: f1 :: fs) (a0 :: a1 :: amps) eff = Ok o /\
    (o <> None <-> f1 < A1 / A0).
Proof.
  intros HM HL HA P0 Q0 Q1 HF.
  assert (HL' : length (f0 :: f1 :: fs) = length (a0 :: a1 :: amps)) by (cbn; now rewrite HL).
  set (freqs := f0 :: f1 :: fs) in *. set (fas := a0 :: a1 :: amps) in *. set (pts := combine freqs fas).
  assert (P1 : map fst pts = freqs) by now apply map_fst_comb.
  assert (P2 : map snd pts = fas) by now apply map_snd_comb.
  destruct (map2_combine freqs fas HL') as (R1 & R2 & R3). fold pts in R3. rewrite R3 in R1, R2. change (map (fun p => (fst p, fst p * snd p)) pts) with (map wt pts) in *.
  set (rest := combine fs amps). assert (EP : pts = (f0, a0) :: (f1, a1) :: rest) by reflexivity.
  assert (SP : StronglySorted before pts) by (apply asc_sorted; now rewrite P1).
  assert (FR : List.Forall (fun p => 0 < snd p) rest).
  { apply List.Forall_forall. intros [f a] I. apply in_combine_r in I. cbn. revert a I. now apply List.Forall_forall. }
  assert (B01 : f0 < f1) by (apply (HA 0%nat); reflexivity).
  assert (FG : List.Forall (fun p => f1 < fst p) rest).
  { rewrite EP in SP. inversion SP as [|? ? SP' _]; subst. inversion SP' as [|? ? _ B]; subst. exact B. }
  assert (FN : List.Forall (fun p => 0 <= snd p) rest) by (eapply List.Forall_impl; [|exact FR]; cbn; intros; lra).
  assert (T0 : 0 < tz pts) by (rewrite EP in *; now apply tz_pos).
  assert (SW : StronglySorted before (map wt pts)) by (apply asc_sorted; rewrite R1; exact HA).
  assert (T1 : 0 < tz (map wt pts)).
  { rewrite EP in *. cbn [map] in SW |- *. apply tz_pos; [exact SW|cbn; now apply Rmult_le_pos|cbn; apply Rmult_lt_0_compat; lra|].
    apply List.Forall_forall. intros r I. apply in_map_iff in I. destruct I as (p & <- & I). cbn.
    apply Rmult_le_pos; [|now apply (proj1 (List.Forall_forall _ _) FN)].
    pose proof (proj1 (List.Forall_forall _ _) FG p I). cbn in H. lra. }
  set (avg := tz (map wt pts) / tz pts). assert (A : 0 < avg) by (apply Rdiv_lt_0_compat; assumption).
  exists (tz pts), (tz (map wt pts)), (ka02 (x_lsq F) freqs fas eff).
  split; [apply trapz_area; [now rewrite P1|reflexivity]|].
  split; [apply trapz_area; [change (ascending (map fst (map wt pts))); rewrite R1; exact HA|reflexivity]|].
  split; [exact T0|]. split; [unfold strain_spectrum; now rewrite HM|]. fold avg.
  assert (EK : div_opt (trapz freqs (Averages.map2 Rmult freqs fas)) (trapz freqs fas) = Some avg).
  { rewrite div_opt_ne; [|rewrite <- P1, <- P2; change (tz pts <> 0); lra]. unfold avg, tz. rewrite R1, R2, P1, P2. reflexivity. }
  unfold ka02. rewrite EK. cbn [opt_bind]. fold pts.
  set (low := filter (fun p => Rltb (fst p) avg) pts). set (high := filter (fun p => negb (Rltb (fst p) avg)) pts).
  rewrite div_opt_ne by lra. cbn [opt_bind]. change (trapz (map fst low) (map snd low)) with (tz low).
  destruct (map_opt_all (fun f => div_opt f avg) freqs) as [nf Ef].
  { apply List.Forall_forall. intros f _. exists (f / avg). apply div_opt_ne. lra. }
  rewrite Ef. cbn [opt_bind]. apply map_opt_fs in Ef; [|lra].
  destruct (Rlt_dec f1 avg) as [LT|GE].
  - split; [now intros _|intros _].
    assert (EL : low = (f0, a0) :: (f1, a1) :: filter (fun p => Rltb (fst p) avg) rest).
    { unfold low. rewrite EP. cbn [filter fst]. now rewrite (proj2 (Rltb_true f0 avg)), (proj2 (Rltb_true f1 avg)) by lra. }
    assert (EH : high = filter (fun p => negb (Rltb (fst p) avg)) rest).
    { unfold high. rewrite EP. cbn [filter fst]. now rewrite (proj2 (Rltb_true f0 avg)), (proj2 (Rltb_true f1 avg)) by lra. }
    assert (TL : 0 < tz low / avg).
    { apply Rdiv_lt_0_compat; [|exact A]. rewrite EL. apply tz_pos; [rewrite <- EL; now apply sorted_filter|exact Q0|exact Q1|].
      apply List.Forall_forall. intros p I. apply filter_In in I. now apply (proj1 (List.Forall_forall _ _) FN). }
    set (sa := tz low / avg) in *.
    edestruct (map_opt_all (fun p => opt_bind (div_opt (fst p) avg) (fun f => opt_bind (ln_opt f) (fun l => Some (- f, - l)))) high) as [rows Er].
    { apply List.Forall_forall. intros p I. apply filter_In in I. destruct I as [_ I]. apply negb_true_iff, Rltb_false in I.
      rewrite div_opt_ne by lra. cbn [opt_bind]. unfold ln_opt. rewrite (proj2 (Rltb_true 0 (fst p / avg))); [eexists; reflexivity|].
      apply Rdiv_lt_0_compat; lra. }
    rewrite Er. cbn [opt_bind].
    edestruct (map_opt_all (fun p : R * R => opt_bind (div_opt (snd p) sa) ln_opt) high) as [logs El].
    { apply List.Forall_forall. intros p I. rewrite EH in I. apply filter_In in I. destruct I as [I _].
      pose proof (proj1 (List.Forall_forall _ _) FR p I) as G. cbn in G.
      rewrite div_opt_ne by lra. cbn [opt_bind]. unfold ln_opt. rewrite (proj2 (Rltb_true 0 (snd p / sa))); [eexists; reflexivity|].
      now apply Rdiv_lt_0_compat. }
    rewrite El. cbn [opt_bind].
    edestruct (map_opt_all (ka02_shape (fst (x_lsq F rows logs)) (snd (x_lsq F rows logs))) nf) as [shape Es].
    { apply List.Forall_forall. intros g I. rewrite Ef in I. apply in_map_iff in I. destruct I as (f & <- & I).
      assert (0 <= f). { apply In_nth_error in I. destruct I as [j I]. pose proof (ascending_from _ _ _ _ HA I). lra. }
      unfold ka02_shape. destruct (Rltb 0 (f / avg)) eqn:E; [eexists; reflexivity|]. apply Rltb_false in E.
      assert (Z : f / avg = 0). { assert (0 <= f / avg) by (apply Rmult_le_pos; [lra|]; left; now apply Rinv_0_lt_compat). lra. }
      rewrite Z, Reqb_refl. eexists; reflexivity. }
    rewrite Es. cbn [opt_bind]. discriminate.
  - split; [|intros; lra]. intros N. exfalso. apply N. clear N.
    assert (I : In (f1, a1) high).
    { unfold high. apply filter_In. split; [rewrite EP; right; now left|]. apply negb_true_iff, Rltb_false. cbn. lra. }
    assert (EL : filter (fun p => Rltb (fst p) avg) rest = nil).
    { clear - FG GE. induction FG as [|p r H _ IH]; [reflexivity|]. cbn [filter].
      destruct (Rltb (fst p) avg) eqn:E; [apply Rltb_true in E; lra|exact IH]. }
    assert (Z : tz low = 0).
    { unfold low. rewrite EP. cbn [filter fst]. rewrite EL. destruct (Rltb f1 avg) eqn:E; [apply Rltb_true in E; lra|].
      destruct (Rltb f0 avg); reflexivity. }
    rewrite Z. replace (0 / avg) with 0 by (unfold Rdiv; ring).
    match goal with |- opt_bind ?x _ = None => destruct x as [rows|]; [|reflexivity] end. cbn [opt_bind].
    rewrite (map_opt_in _ high (f1, a1) I); [reflexivity|]. cbn [snd]. unfold div_opt. now rewrite Reqb_refl.
Qed.

(** With two frequencies the shape never gives finite strains. *)
Lemma ka02_two F f0 f1 a0 a1 eff : x_method F = KA02 -> 0 <= f0 -> f0 < f1 -> 0 <= a0 -> 0 < a1 ->
  strain_spectrum F (cons f0 (cons f1 nil)) (cons a0 (cons a1 nil)) eff = Ok None.
Proof.
  intros HM P0 B Q0 Q1.
  assert (HA : ascending (cons f0 (cons f1 nil))) by (intros [|[|i]] x y E E'; cbn in E, E'; [congruence|discriminate|destruct i; discriminate]).
  destruct (ka02_finite_iff F f0 f1 nil a0 a1 nil eff HM eq_refl HA P0 Q0 Q1 (List.Forall_nil _)) as (A0 & A1 & o & E0 & E1 & P & E & H).
  rewrite E. destruct o as [ss|]; [exfalso|reflexivity]. assert (L : f1 < A1 / A0) by (apply H; discriminate).
  apply trapz_area in E0; [|exact HA]. apply trapz_area in E1; [|exact HA].
  cbn in E0, E1. assert (A1 <= f1 * A0).
  { subst A0 A1. assert (0 <= (f1 - f0) * ((f1 - f0) * a0)) by (apply Rmult_le_pos; [lra|apply Rmult_le_pos; lra]). lra. }
  assert (A1 / A0 <= f1). { apply (Rmult_le_reg_r A0); [exact P|]. unfold Rdiv. rewrite Rmult_assoc, Rinv_l by lra. lra. }
  lra.
Qed.
