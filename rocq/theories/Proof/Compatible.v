(** Strain-compatible states are kept by the equivalent-linear iteration. *)
From Verif Require Import Common Proof.CommonFacts Model.Curve Model.Layer Model.Waves Model.Eql
  Spec.CurveSpec Spec.LayerSpec Spec.WaveSpec Spec.EqlSpec Spec.CompatibleSpec Proof.LayerFacts Proof.EqlFacts Proof.EqlProps Proof.EqlPhysical.
From Coq Require Import List.
Local Open Scope R_scope.

Lemma set_same l s : shear_mod l = spec_G (density (l_soil l)) (l_vs l) (soil_behaviour (l_soil l)) (Some s) ->
  damping l = spec_D (l_dmin l) (soil_behaviour (l_soil l)) (Some s) ->
  same_state (set_strain l s) l /\ max_error (set_strain l s) = EFin 0.
Proof.
  intros HG HD. rewrite <- compute_mod_spec in HG. rewrite <- compute_damping_spec in HD. split.
  - split; [reflexivity|]. unfold shear_mod, damping in *. cbn. now rewrite HG, HD.
  - apply rest_error; cbn; unfold shear_mod, damping in *; now rewrite ?HG, ?HD.
Qed.
Lemma update_same P m n waves lin us : forall i,
  (forall j l, nth_error us j = Some l -> exists mx s, calc_strain_max m n waves lin (i + j) l = Ok mx /\ used_strain P mx s /\
    shear_mod l = spec_G (density (l_soil l)) (l_vs l) (soil_behaviour (l_soil l)) (Some s) /\
    damping l = spec_D (l_dmin l) (soil_behaviour (l_soil l)) (Some s)) ->
  exists upd lim, update_strains P m n waves lin i us = Ok (upd, lim) /\ Forall2 same_state upd us /\
    List.Forall (fun l => max_error l = EFin 0) upd.
Proof.
  induction us as [|l us IH]; intros i H; [exists [], false; now repeat split|].
  cbn [update_strains]. destruct (H 0%nat l eq_refl) as (mx & s & E & U & HG & HD). rewrite Nat.add_0_r in E. rewrite E. cbn [bind].
  destruct (limit_strain (e_limit P) (e_ratio P * mx)) as [s' b] eqn:El.
  destruct (limit_strain_used P mx s' b El) as [U' _]. rewrite (used_unique P mx s' s U' U).
  destruct (IH (S i)) as (upd & lim & Eu & A & B).
  { intros j l' Hj. replace (S i + j)%nat with (i + S j)%nat by lia. exact (H (S j) l' Hj). }
  rewrite Eu. cbn [bind]. destruct (set_same l s HG HD) as [Q1 Q2].
  eexists _, _. split; [reflexivity|]. split; constructor; assumption.
Qed.
Lemma max_errors_rest upd b x : List.Forall (fun l => max_error l = EFin 0) upd -> max_error b = EFin x ->
  exists e, max_errors (upd ++ [b]) = Ok (EFin e) /\ e <= Rmax 0 x.
Proof.
  intros HF HB. induction HF as [|l upd Hl HF IH]; [exists x; split; [cbn; now rewrite HB|apply Rmax_r]|].
  destruct IH as (e & E & L). exists (Rmax 0 e). split.
  - cbn [app max_errors]. destruct (upd ++ [b]) as [|y ys] eqn:Q; [now destruct upd|]. rewrite E. cbn [bind]. now rewrite Hl.
  - apply Rmax_lub; [apply Rmax_l|exact L].
Qed.

Theorem compatible_stays P m lin us b x : compatible P m lin (us ++ cons b nil) ->
  max_error b = EFin x -> x < e_tol P -> 0 < e_tol P -> (0 < e_max P)%Z ->
  exists st ls' wv, eql_call P m lin false (us ++ cons b nil) = (cons st nil, Ok (Converged, ls', wv)) /\
    calc_waves m (us ++ cons b nil) = Ok wv /\ Forall2 same_state ls' (us ++ cons b nil).
Proof.
  intros (wv & Ew & HC) HB Hx Ht Hn. rewrite removelast_app_1 in HC.
  unfold eql_call, le_call. rewrite Ew.
  destruct (update_same P m (length (us ++ [b])) wv lin us 0 HC) as (upd & lim & Eu & A & B).
  destruct (max_errors_rest upd b x B HB) as (e & Ee & Le).
  assert (EP : eql_pass P m lin wv (us ++ [b]) = Ok (mkStep (upd ++ [b]) lim (EFin e))).
  { unfold eql_pass. rewrite removelast_app_1, Eu. cbn [bind]. rewrite last_opt_app, Ee. reflexivity. }
  destruct (Z.to_nat (e_max P)) as [|fuel] eqn:Ef; [lia|]. cbn [eql_loop]. rewrite Ew, EP. cbn [st_error st_layers].
  assert (EB : err_below (EFin e) (e_tol P) = true).
  { cbn. apply Rltb_true. eapply Rle_lt_trans; [exact Le|]. now apply Rmax_lub_lt. }
  rewrite EB. cbn [bind]. rewrite removelast_app_1, last_opt_app.
  assert (LU : length upd = length us) by (clear - A; induction A; cbn; congruence).
  assert (LN : length (upd ++ [b]) = length (us ++ [b])) by (rewrite !app_length; lia).
  destruct (set_maxs_spec m (length (upd ++ [b])) wv lin upd 0) as (upd' & Es & L' & HN).
  { intros j l Hj. rewrite LN. destruct (nth_error us j) as [l0|] eqn:E0; [|apply nth_error_None in E0; assert (j < length upd)%nat by (apply nth_error_Some; congruence); lia].
    destruct (HC j l0 E0) as (mx & _ & Em & _). exists mx. cbn [Nat.add]. rewrite <- Em. apply strain_max_thick.
    clear - A Hj E0. revert j Hj E0. induction A as [|a c upd us [D _] A IH]; intros [|j] Hj E0; cbn in *; try discriminate.
    - injection Hj as <-. injection E0 as <-. unfold description in D. congruence.
    - now apply (IH j). }
  rewrite Es. cbn [bind]. eexists _, _, _. split; [reflexivity|]. split; [reflexivity|].
  apply Forall2_app; [|constructor; [now repeat split|constructor]].
  assert (Q : Forall2 same_state upd' upd).
  { assert (HN' : forall j l, nth_error upd j = Some l -> exists mx, nth_error upd' j = Some (set_strain_max l mx))
      by (intros j l Hj; destruct (HN j l Hj) as (mx & _ & E); now exists mx).
    clear - L' HN'. revert upd' L' HN'. induction upd as [|a upd IH]; intros [|c upd'] L HN; try discriminate; constructor.
    - destruct (HN 0%nat a eq_refl) as (mx & E). injection E as ->. now repeat split.
    - apply IH; [cbn in L; lia|]. intros j l Hj. exact (HN (S j) l Hj). }
  clear - Q A. revert us A. induction Q as [|a c upd' upd [D1 [D2 D3]] Q IH]; intros us A; inversion A as [|? ? ? ? [F1 [F2 F3]] A']; subst; constructor.
  - split; [congruence|]. split; congruence.
  - now apply IH.
Qed.
