(** Where the equivalent-linear iteration settles, the state is strain-compatible. *)
From Verif Require Import Common Proof.CommonFacts Model.Curve Model.Layer Model.Cplx Model.Waves Model.Eql
  Spec.CurveSpec Spec.LayerSpec Spec.WaveSpec Spec.EqlSpec Spec.ContinuitySpec Spec.CompatibleSpec Proof.CurveFacts Proof.LayerFacts Proof.CplxFacts Proof.WaveFacts Proof.WaveEnergy
  Proof.WaveProps Proof.EqlFacts Proof.EqlProps Proof.EqlPhysical Proof.EqlKeeps Proof.EqlRepeat Proof.WaveContinuity Proof.StrainRows Proof.CurveContinuity Proof.CompatibleExists.
From Coq Require Import List.
From Coquelicot Require Import Complex.
Local Open Scope R_scope.

(** One pass. *)
Definition successor (P : eql_params) (m : motion) (lin : wloc) (ls ls' : list layer) : Prop :=
  exists wv, calc_waves m ls = Ok wv /\ length ls' = length ls /\
  forall j l, nth_error (removelast ls) j = Some l -> exists mx s,
    calc_strain_max m (length ls) wv lin j l = Ok mx /\ used_strain P mx s /\ nth_error ls' j = Some (set_strain l s).

Lemma used_limit P mx s : used_strain P mx s -> s = fst (limit_strain (e_limit P) (e_ratio P * mx)).
Proof.
  intros U. destruct (limit_strain (e_limit P) (e_ratio P * mx)) as [s' b] eqn:E.
  apply limit_strain_used in E. exact (used_unique P mx s s' U (proj1 E)).
Qed.
Lemma limit_used P mx : used_strain P mx (fst (limit_strain (e_limit P) (e_ratio P * mx))).
Proof. destruct (limit_strain (e_limit P) (e_ratio P * mx)) as [s' b] eqn:E. now apply limit_strain_used in E. Qed.

Lemma removelast_nth {A} (ls : list A) j : (S j < length ls)%nat -> nth_error (removelast ls) j = nth_error ls j.
Proof.
  revert j. induction ls as [|x ls IH]; intros j H; [cbn in H; lia|].
  destruct ls as [|y ls]; [cbn in H; lia|]. destruct j as [|j]; [reflexivity|].
  change (removelast (x :: y :: ls)) with (x :: removelast (y :: ls)). cbn [nth_error]. apply IH. cbn in *. lia.
Qed.
Lemma removelast_len {A} (ls : list A) : length (removelast ls) = (length ls - 1)%nat.
Proof. induction ls as [|x [|y ls] IH]; [reflexivity..|]. cbn [removelast length] in *. lia. Qed.

Lemma Forall2_weaken {A B} (R1 R2 : A -> B -> Prop) la lb : (forall a b, R1 a b -> R2 a b) -> Forall2 R1 la lb -> Forall2 R2 la lb.
Proof. intros H F. induction F; constructor; auto. Qed.
Lemma Forall2_at {A B} (R1 : A -> B -> Prop) la lb i a b : Forall2 R1 la lb -> nth_error la i = Some a -> nth_error lb i = Some b -> R1 a b.
Proof.
  intros F. revert i. induction F as [|x y la lb H F IH]; intros [|i] Ea Eb; cbn in *; try discriminate; [congruence|eauto].
Qed.

Lemma settles_near f ls : settles f ls -> forall eps, 0 < eps -> exists N, forall n, (N <= n)%nat -> Forall2 (near_layer eps) (f n) ls.
Proof.
  intros H eps He. destruct (H eps He) as [N HN]. exists N. intros n Hn. specialize (HN n Hn).
  eapply Forall2_weaken; [|exact HN]. intros a b (D & G & K). unfold description in D.
  assert (E1 : l_soil a = l_soil b) by congruence. assert (E2 : l_thick a = l_thick b) by congruence.
  unfold near_layer. rewrite E1, E2, (Rminus_diag_eq (s_unit_wt (l_soil b)) _ eq_refl), (Rminus_diag_eq (l_thick b) _ eq_refl), Rabs_R0. now repeat split.
Qed.

Lemma same_compute a b s : description a = description b -> compute_mod a s = compute_mod b s /\ compute_damping a s = compute_damping b s.
Proof.
  unfold description. intros D. assert (E1 : l_soil a = l_soil b) by congruence.
  assert (E2 : l_vs a = l_vs b) by congruence. assert (E3 : l_dmin a = l_dmin b) by congruence.
  unfold compute_mod, compute_damping, initial_shear_mod. now rewrite E1, E2, E3.
Qed.

Lemma close_equal x y : (forall eps, 0 < eps -> Rabs (x - y) < eps) -> x = y.
Proof.
  intros H. destruct (Req_dec x y) as [E|E]; [exact E|]. exfalso.
  assert (P0 : 0 < Rabs (x - y)) by (apply Rabs_pos_lt; lra). pose proof (H _ P0). lra.
Qed.

Theorem limit_compatible P m lin f ls : clear_freqs m -> answers m -> steady_peak m ->
  (loc_index lin < length ls)%nat -> loc_field lin <> Within ->
  (forall n, successor P m lin (f n) (f (S n))) -> (forall n, List.Forall sound (f n)) -> settles f ls ->
  List.Forall sound ls -> List.Forall (fun l => tabulated (l_soil l)) ls -> compatible P m lin ls.
Proof.
  intros Hm Ha Hp Hlin Fin HS Hf HL Hs HT.
  assert (NE : ls <> []) by (intros ->; cbn in Hlin; lia).
  destruct (waves_sound m ls NE Hs Hm) as [wv Ew]. exists wv. split; [exact Ew|]. intros i l Hi.
  assert (Li : (S i < length ls)%nat).
  { assert (Q : (i < length (removelast ls))%nat) by (apply nth_error_Some; congruence). rewrite removelast_len in Q. lia. }
  rewrite removelast_nth in Hi by exact Li.
  destruct (strain_sound m ls wv lin i (l_thick l / 2) NE Hs Hm Ew Hlin Fin ltac:(lia)) as (tf & Et & Lt).
  destruct (Ha tf Lt) as [mx Emx]. exists mx, (fst (limit_strain (e_limit P) (e_ratio P * mx))).
  assert (Ep : bind (calc_strain_tfs m (length ls) wv lin (mkLoc i (l_thick l / 2) Within)) (m_peak m) = Ok mx) by (rewrite Et; exact Emx).
  split; [exact Ep|]. split; [apply limit_used|].
  assert (HTl : tabulated (l_soil l)) by (apply (proj1 (Forall_forall _ _) HT l), (nth_error_In _ _ Hi)).
  assert (KEY : forall (h : layer -> R) (c : layer -> R -> R),
    (forall a b eps, description a = description b /\ Rabs (shear_mod a - shear_mod b) < eps /\ Rabs (damping a - damping b) < eps -> Rabs (h a - h b) < eps) ->
    (forall a s, h (set_strain a s) = c a s) -> (forall a b s, description a = description b -> c a s = c b s) -> continuity (c l) ->
    h l = c l (fst (limit_strain (e_limit P) (e_ratio P * mx)))).
  { intros h c Hh Hset Hdesc Hc. apply close_equal. intros eps He.
    assert (CC : continuity (fun x => c l (fst (limit_strain (e_limit P) (e_ratio P * x))))).
    { intros x. apply (continuity_pt_comp (fun x => e_ratio P * x) (fun y => c l (fst (limit_strain (e_limit P) y)))).
      - apply continuity_pt_scal, continuity_id.
      - apply (continuity_pt_comp (fun y => fst (limit_strain (e_limit P) y)) (c l)); [apply limit_continuous|apply Hc]. }
    destruct (CC mx (eps / 2) ltac:(lra)) as (d1 & Hd1 & C1). cbn in C1. unfold R_dist in C1.
    destruct (peak_close ls lin (mkLoc i (l_thick l / 2) Within) Hs Hlin Fin ltac:(cbn; lia) eq_refl m Hm Hp wv mx Ew Ep) with (eps := d1) as (d2 & Hd2 & PC);
      [intros tf1 E; congruence|exact Hd1|].
    destruct (settles_near f ls HL d2 Hd2) as [N1 HN1]. destruct (HL (eps / 2) ltac:(lra)) as [N2 HN2].
    set (n := Nat.max N1 N2). specialize (HN1 n ltac:(lia)).
    pose proof (HN2 n ltac:(lia)) as F2. pose proof (HN2 (S n) ltac:(lia)) as F3. clear HN2.
    destruct (HS n) as (wn & Wn & Ln & Sn).
    assert (LN : length (f n) = length ls) by exact (Forall2_len _ _ _ F2).
    destruct (nth_error (f n) i) as [a|] eqn:Ea; [|apply nth_error_None in Ea; lia].
    destruct (Sn i a) as (mxn & sn & Mn & Un & An); [rewrite removelast_nth by lia; exact Ea|].
    assert (Da : description a = description l) by (apply (Forall2_at _ _ _ i a l F2 Ea Hi)).
    pose proof (Forall2_at _ _ _ i (set_strain a sn) l F3 An Hi) as Q. cbv beta in Q. apply Hh in Q. rewrite Hset, (Hdesc a l sn Da) in Q.
    rewrite (used_limit P mxn sn Un) in Q.
    assert (TH : l_thick a = l_thick l) by (unfold description in Da; congruence).
    assert (PN : Rabs (mxn - mx) < d1).
    { apply (PC (f n) wn mxn (Hf n) HN1 Wn). unfold calc_strain_max in Mn. rewrite TH in Mn. exact Mn. }
    assert (B : Rabs (c l (fst (limit_strain (e_limit P) (e_ratio P * mxn))) - c l (fst (limit_strain (e_limit P) (e_ratio P * mx)))) < eps / 2).
    { destruct (Req_dec mxn mx) as [->|NQ]; [rewrite Rminus_diag_eq by reflexivity; rewrite Rabs_R0; lra|].
      apply C1. split; [split; [exact I|congruence]|exact PN]. }
    rewrite Rabs_minus_sym in Q.
    set (u := c l (fst (limit_strain (e_limit P) (e_ratio P * mxn)))) in *. set (v := c l (fst _)) in *.
    replace (h l - v) with ((h l - u) + (u - v)) by ring. eapply Rle_lt_trans; [apply Rabs_triang|]. lra. }
  split.
  - rewrite <- compute_mod_spec. apply (KEY shear_mod compute_mod).
    + intros a b eps (_ & G & _). exact G.
    + reflexivity.
    + intros a b s D. apply (same_compute a b s D).
    + now apply mod_continuous.
  - rewrite <- compute_damping_spec. apply (KEY damping compute_damping).
    + intros a b eps (_ & _ & G). exact G.
    + reflexivity.
    + intros a b s D. apply (same_compute a b s D).
    + now apply damping_continuous.
Qed.

(** ** Runs with more and more iterations *)
Lemma loop_snoc P m lin k : forall it lim ls wv t Y w', eql_loop P m lin (S k) it lim ls wv = (t, Ok (Exhausted, Y, w')) ->
  exists t0 X w st, eql_loop P m lin k it lim ls wv = (t0, Ok (Exhausted, X, w)) /\ calc_waves m X = Ok w' /\
    eql_pass P m lin w' X = Ok st /\ st_layers st = Y.
Proof.
  induction k as [|k IH]; intros it lim ls wv t Y w' H.
  - cbn [eql_loop] in H. destruct (calc_waves m ls) as [w1|] eqn:Ew; [|discriminate].
    destruct (eql_pass P m lin w1 ls) as [st|] eqn:Es; [|discriminate].
    destruct (err_below _ _); [discriminate|]. destruct (_ && _)%bool; [discriminate|]. cbn [fst snd] in H.
    assert (st_layers st = Y) by congruence. assert (w1 = w') by congruence. subst w1.
    exists [], ls, wv, st. now repeat split.
  - remember (S k) as k1 eqn:Ek. cbn [eql_loop] in H. destruct (calc_waves m ls) as [w1|] eqn:Ew; [|discriminate].
    destruct (eql_pass P m lin w1 ls) as [st|] eqn:Es; [|discriminate].
    destruct (err_below _ _) eqn:E1; [discriminate|]. destruct (_ && _)%bool eqn:E2; [discriminate|].
    destruct (eql_loop P m lin k1 (it + 1) (if st_limited st then it else lim) (st_layers st) w1) as [t1 r1] eqn:El. cbn [fst snd] in H.
    assert (r1 = Ok (Exhausted, Y, w')) by congruence. subst r1 k1.
    destruct (IH _ _ _ _ _ _ _ El) as (t0 & X & w & st' & A & B & C0 & D).
    eexists _, X, w, st'. split; [|now repeat split].
    cbn [eql_loop]. rewrite Ew, Es, E1, E2, A. reflexivity.
Qed.

Lemma physical_floor l : physical l -> exists g, 0 < g /\ forall s, g <= compute_mod l s.
Proof.
  intros H. pose proof (physical_G l H) as HG. destruct H as (H1 & H2 & H3 & H4).
  exists (initial_shear_mod l * match s_mod (l_soil l) with None => 1 | Some c => Rmin 1 (c_lo c) end).
  unfold positive_modulus in H4. unfold compute_mod. destruct (s_mod (l_soil l)) as [c|].
  - destruct H4 as [P1 P2]. split.
    + apply Rmult_lt_0_compat; [exact HG|]. apply Rmin_pos; lra.
    + intros s. apply Rmult_le_compat_l; [lra|]. destruct (curve_call c s) as [v|] eqn:E.
      * pose proof (curve_call_bounds c s v P2 E). eapply Rle_trans; [apply Rmin_r|]. lra.
      * apply Rmin_l.
  - split; [lra|]. intros s. lra.
Qed.

Definition floored (x : layer) (g : R) : Prop := 0 < g /\ g <= shear_mod x /\ forall s, g <= compute_mod x s.
Lemma floored_set x g s : floored x g -> floored (set_strain x s) g.
Proof.
  intros (A & B & C0). split; [exact A|]. split; [exact (C0 s)|]. intros s'.
  rewrite (proj1 (same_compute (set_strain x s) x s' eq_refl)). apply C0.
Qed.
Lemma floors_exist ls : List.Forall fit ls -> exists gs, Forall2 floored ls gs.
Proof.
  induction 1 as [|l ls [P0 S0] _ [gs IH]]; [exists []; constructor|].
  destruct (physical_floor l P0) as (g & Hg & Fg). destruct S0 as (S1 & _).
  exists (Rmin g (shear_mod l) :: gs). constructor; [|exact IH].
  split; [now apply Rmin_pos|]. split; [apply Rmin_r|]. intros s. eapply Rle_trans; [apply Rmin_l|apply Fg].
Qed.
Lemma update_floors P m n wv lin us : forall i upd lim gs, update_strains P m n wv lin i us = Ok (upd, lim) ->
  Forall2 floored us gs -> Forall2 floored upd gs.
Proof.
  induction us as [|l us IH]; intros i upd lim gs H F; cbn [update_strains] in H; [injection H as <- _; exact F|].
  inversion F as [|? g ? gs' F1 F2]; subst.
  destruct (calc_strain_max m n wv lin i l) as [mx|]; [|discriminate]. cbn [bind] in H.
  destruct (limit_strain _ _) as [s b]. destruct (update_strains P m n wv lin (S i) us) as [[u l2]|] eqn:E; [|discriminate].
  cbn [bind] in H. assert (Q : upd = set_strain l s :: u) by congruence. rewrite Q.
  constructor; [now apply floored_set|exact (IH _ _ _ _ E F2)].
Qed.
Lemma pass_floors P m lin wv ls st gs : ls <> [] -> eql_pass P m lin wv ls = Ok st -> Forall2 floored ls gs -> Forall2 floored (st_layers st) gs.
Proof.
  intros NE H F. destruct (last_some ls NE) as [b Hb].
  destruct (pass_spec _ _ _ _ _ _ _ Hb H) as (upd & E & HL & Eu & _). rewrite E. clear E.
  assert (EL : ls = removelast ls ++ [b]).
  { clear - Hb. induction ls as [|x [|y ls] IH]; [discriminate|cbn in *; congruence|].
    change (removelast (x :: y :: ls)) with (x :: removelast (y :: ls)). cbn [app]. f_equal. apply IH. exact Hb. }
  rewrite EL in F. apply Forall2_app_inv_l in F. destruct F as (g1 & g2 & F1 & F2 & ->).
  apply Forall2_app; [exact (update_floors _ _ _ _ _ _ _ _ _ _ Eu F1)|exact F2].
Qed.
Lemma pass_successor P m lin wv ls st : ls <> [] -> calc_waves m ls = Ok wv -> eql_pass P m lin wv ls = Ok st ->
  successor P m lin ls (st_layers st).
Proof.
  intros NE Ew H. destruct (last_some ls NE) as [b Hb].
  destruct (pass_spec _ _ _ _ _ _ _ Hb H) as (upd & E & HL & Eu & _).
  destruct (update_spec _ _ _ _ _ _ _ _ _ Eu) as (_ & U & _).
  exists wv. split; [exact Ew|]. split.
  - rewrite E, app_length, HL, removelast_len. cbn. destruct ls; [congruence|cbn; lia].
  - intros j l Hj. destruct (U j l Hj) as (mx & s & A & B & C0). exists mx, s. split; [exact A|]. split; [exact B|].
    rewrite E, nth_error_app1; [exact C0|]. apply nth_error_Some. congruence.
Qed.

Theorem runs_limit P m lin reset ls0 f ls : ls0 <> nil -> List.Forall physical ls0 -> (reset = false -> List.Forall sound ls0) ->
  List.Forall (fun l => tabulated (l_soil l)) ls0 -> clear_freqs m -> answers m -> steady_peak m ->
  (loc_index lin < length ls0)%nat -> loc_field lin <> Within ->
  (forall n, (0 < n)%nat -> exists t wv, eql_call (with_max P (Z.of_nat n)) m lin reset ls0 = (t, Ok (Exhausted, f n, wv))) ->
  settles f ls -> compatible P m lin ls.
Proof.
  intros NE HP HR HT Hm Ha Hp Hlin Fin HE HS.
  assert (W0 : exists wv0, calc_waves m (if reset then map layer_reset ls0 else ls0) = Ok wv0).
  { destruct (HE 1%nat ltac:(lia)) as (t & wv & E).
    destruct (call_loop _ _ _ _ _ _ _ E) as [(_ & e & Q & _)|(wv0 & out & Q & _)]; [discriminate|eauto]. }
  destruct W0 as [wv0 W0].
  set (st0 := start_layers m reset ls0) in *.
  assert (F0 : List.Forall fit st0).
  { unfold st0. destruct reset; [now apply start_fit|]. unfold start_layers. specialize (HR eq_refl).
    apply Forall_forall. intros l Hl. split; [apply (proj1 (Forall_forall _ _) HP l Hl)|apply (proj1 (Forall_forall _ _) HR l Hl)]. }
  assert (D0 : map description st0 = map description ls0).
  { unfold st0, start_layers, estimate_strains. destruct reset; [|reflexivity]. rewrite !map_map. apply map_ext. reflexivity. }
  set (X := fun k => match snd (eql_loop P m lin k 0 (-2) st0 wv0) with Ok (_, x, _) => x | Err _ => [] end).
  assert (HX : forall k, exists t w, eql_loop P m lin k 0 (-2) st0 wv0 = (t, Ok (Exhausted, X k, w)) /\
     ((0 < k)%nat -> Forall2 alike (f k) (X k))).
  { intros [|k].
    - exists [], wv0. split; [reflexivity|lia].
    - destruct (HE (S k) ltac:(lia)) as (t & wv & E).
      rewrite (call_finish _ m lin reset ls0 wv0 W0) in E. fold st0 in E. cbn [with_max e_max] in E. rewrite Nat2Z.id, loop_max in E.
      destruct (eql_loop P m lin (S k) 0 (-2) st0 wv0) as [t1 r1] eqn:El. cbn [fst snd] in E.
      destruct r1 as [[[stop x] w]|e]; [|discriminate]. unfold finish in E. cbn [bind] in E.
      destruct (set_strain_maxs m (length x) w lin 0 (removelast x)) as [upd|] eqn:Eu; [|discriminate]. cbn [bind] in E.
      assert (EX : X (S k) = x) by (unfold X; rewrite El; reflexivity).
      assert (stop = Exhausted) by congruence. subst stop. exists t1, w. rewrite EX. split; [reflexivity|]. intros _.
      assert (Ef : f (S k) = upd ++ match last_opt x with Some b => [b] | None => [] end) by congruence. rewrite Ef.
      apply maxs_alike in Eu. fold (tail_of x). clear - Eu.
      assert (EL : x = removelast x ++ tail_of x).
      { clear. induction x as [|a [|b x] IH]; [reflexivity..|].
        change (removelast (a :: b :: x)) with (a :: removelast (b :: x)). cbn [app]. f_equal. exact IH. }
      rewrite EL at 2. apply Forall2_app; [exact Eu|]. generalize (tail_of x). intros y. induction y; constructor; [apply alike_refl|assumption]. }
  assert (SX : forall k, exists w st, calc_waves m (X k) = Ok w /\ eql_pass P m lin w (X k) = Ok st /\ st_layers st = X (S k)).
  { intros k. destruct (HX (S k)) as (t & w & El & _). destruct (loop_snoc _ _ _ _ _ _ _ _ _ _ _ El) as (t0 & x & w1 & st & A & B & C0 & D).
    assert (X k = x) by (unfold X; rewrite A; reflexivity). subst x. exists w, st. now repeat split. }
  assert (X0 : X 0%nat = st0) by reflexivity.
  assert (NX : forall k, length (X k) = length ls0).
  { induction k as [|k IH]; [rewrite X0, <- (map_length description), D0, map_length; reflexivity|].
    destruct (SX k) as (w & st & A & B & <-).
    destruct (pass_successor P m lin w (X k) st) as (_ & _ & Q & _); [|exact A|exact B|congruence].
    intros Z. rewrite Z in IH. destruct ls0; [congruence|discriminate]. }
  assert (NEX : forall k, X k <> []) by (intros k Z; pose proof (NX k) as Q; rewrite Z in Q; destruct ls0; [congruence|discriminate]).
  destruct (floors_exist st0 F0) as [gs G0].
  assert (INV : forall k, List.Forall fit (X k) /\ Forall2 floored (X k) gs).
  { induction k as [|k [I1 I2]]; [now rewrite X0|]. destruct (SX k) as (w & st & A & B & <-). split.
    - exact (pass_fit P m lin _ _ _ (NEX k) I1 B).
    - exact (pass_floors P m lin _ _ _ _ (NEX k) B I2). }
  assert (SET : settles X ls).
  { intros eps He. destruct (HS eps He) as [N HN]. exists (S N). intros n Hn. specialize (HN n ltac:(lia)).
    destruct (HX n) as (_ & _ & _ & AL). specialize (AL ltac:(lia)). clear - HN AL. revert HN. generalize ls.
    induction AL as [|a x fa fx (A1 & A2 & A3 & _) AL IH]; intros bs H; inversion H as [|? b ? bs' (B1 & B2 & B3) B4]; subst; constructor; [|now apply IH].
    split; [congruence|]. unfold shear_mod, damping in *. now rewrite <- A2, <- A3. }
  assert (LEN : length ls = length ls0).
  { destruct (SET 1 Rlt_0_1) as [N HN]. rewrite <- (NX N). symmetry. exact (Forall2_len _ _ _ (HN N (le_n N))). }
  assert (DL : map description ls = map description ls0).
  { destruct (SET 1 Rlt_0_1) as [N HN]. specialize (HN N (le_n N)).
    transitivity (map description (X N)).
    - clear - HN. induction HN as [|a b la lb (D & _) _ IH]; cbn; congruence.
    - clear - SX NEX X0 D0. induction N as [|k IH]; [now rewrite X0|]. rewrite <- IH. destruct (SX k) as (w & st & A & B & <-).
      exact (pass_keeps P m lin w (X k) st B). }
  apply (limit_compatible P m lin X ls); auto.
  - now rewrite LEN.
  - intros k. destruct (SX k) as (w & st & A & B & <-). exact (pass_successor P m lin w (X k) st (NEX k) A B).
  - intros k. apply fit_sounds, INV.
  - apply Forall_forall. intros l Hl. unfold sound.
    assert (PH : physical l).
    { pose proof (in_map description _ _ Hl) as Q. rewrite DL in Q. apply in_map_iff in Q. destruct Q as (l' & E & Hl').
      pose proof (proj1 (Forall_forall _ _) HP l' Hl') as T. unfold description in E. unfold physical in *.
      replace (l_soil l) with (l_soil l') by congruence. replace (l_vs l) with (l_vs l') by congruence.
      replace (l_thick l) with (l_thick l') by congruence. exact T. }
    split; [|split; apply PH]. apply In_nth_error in Hl. destruct Hl as [j Hj].
    assert (Lj : (j < length ls)%nat) by (apply nth_error_Some; congruence).
    destruct (nth_error gs j) as [g|] eqn:Eg.
    2:{ apply nth_error_None in Eg. pose proof (Forall2_len _ _ _ (proj2 (INV 0%nat))) as Q. rewrite NX in Q. lia. }
    assert (FL : forall k x, nth_error (X k) j = Some x -> floored x g) by (intros k x Hx; exact (Forall2_at _ _ _ _ _ _ (proj2 (INV k)) Hx Eg)).
    assert (GX : forall k, exists x, nth_error (X k) j = Some x).
    { intros k. destruct (nth_error (X k) j) eqn:E; [eauto|]. apply nth_error_None in E. rewrite NX in E. lia. }
    assert (Pg : 0 < g) by (destruct (GX 0%nat) as [x Hx]; apply (FL _ _ Hx)).
    destruct (SET (g / 2) ltac:(lra)) as [N HN]. specialize (HN N (le_n N)). destruct (GX N) as [x Hx].
    destruct (Forall2_at _ _ _ _ _ _ HN Hx Hj) as (_ & Q & _). destruct (FL _ _ Hx) as (_ & Q2 & _).
    apply Rabs_def2 in Q. lra.
  - apply Forall_forall. intros l Hl. apply (in_map description) in Hl. rewrite DL in Hl. apply in_map_iff in Hl.
    destruct Hl as (l' & E & Hl'). pose proof (proj1 (Forall_forall _ _) HT l' Hl') as T. unfold description in E.
    replace (l_soil l) with (l_soil l') by congruence. exact T.
Qed.
