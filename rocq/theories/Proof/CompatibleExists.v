(** A site with one nonlinear layer has a strain-compatible state. *)
From Verif Require Import Common Proof.CommonFacts Model.Curve Model.Layer Model.Cplx Model.Waves Model.Eql
  Spec.CurveSpec Spec.LayerSpec Spec.WaveSpec Spec.EqlSpec Spec.ContinuitySpec Spec.CompatibleSpec Proof.CurveFacts Proof.LayerFacts Proof.CplxFacts Proof.WaveFacts Proof.WaveEnergy
  Proof.WaveProps Proof.EqlFacts Proof.EqlProps Proof.EqlPhysical Proof.WaveContinuity Proof.StrainRows Proof.CurveContinuity.
From Coq Require Import List.
From Coquelicot Require Import Complex.
Local Open Scope R_scope.

(** ** Sites near a given one *)
Section Near.
  Variable L0 : list layer.
  Variable lin lout : wloc.
  Hypothesis S0 : List.Forall sound L0.
  Hypothesis Hlin : (loc_index lin < length L0)%nat.
  Hypothesis Fin : loc_field lin <> Within.
  Hypothesis Hlout : (loc_index lout < length L0)%nat.
  Hypothesis Fout : loc_field lout = Within.

  Lemma row_close w eps : w = 0 \/ 1e-8 < w -> 0 < eps -> exists d, 0 < d /\
    forall L1, List.Forall sound L1 -> Forall2 (near_layer d) L1 L0 ->
    forall rs rs0 t t0, calc_waves_numba w (map wlayer_of L1) = Ok rs -> calc_waves_numba w (map wlayer_of L0) = Ok rs0 ->
    strain_tf_row w rs lin lout = Ok t -> strain_tf_row w rs0 lin lout = Ok t0 -> Cmod (Cminus t t0) < eps.
  Proof.
    intros [->|Hw] He.
    - exists 1. split; [lra|]. intros L1 _ _ rs rs0 t t0 _ _ Et Et0.
      assert (Z : forall rs t, strain_tf_row 0 rs lin lout = Ok t -> t = RtoC 0).
      { intros rs1 t1 E. unfold strain_tf_row in E. destruct (nth_error rs1 (loc_index lout)); [|discriminate].
        destruct (nth_error rs1 (loc_index lin)); [|discriminate]. destruct (r_k _); [|discriminate]. destruct (r_k _); [|discriminate].
        unfold strain_tf_numba in E. rewrite Rabs_R0 in E. rewrite (proj2 (Rltb_true 0 1e-8)) in E by lra. congruence. }
      rewrite (Z _ _ Et), (Z _ _ Et0). unfold Cminus. rewrite Cplus_opp_r, Cmod_0. exact He.
    - assert (NE : L0 <> []) by (intros ->; cbn in Hlin; lia).
      destruct (numba_sound w L0 NE S0 (or_intror Hw)) as (rs0 & N0 & P0).
      destruct (upgoing_motion w L0 rs0 Hw S0 P0 lin Hlin Fin) as (x & X1 & X2).
      destruct lin as [i1 u1 f1] eqn:E1. destruct lout as [i2 u2 f2] eqn:E2. cbn [loc_field loc_index] in *. subst f2.
      destruct (tf_continuous w L0 rs0 i1 u1 f1 i2 u2 Within) as (tf1 & st & _ & T0 & HC);
        [rewrite Rabs_pos_eq; lra|exact S0|exact P0|exact Hlin|exact Hlout|rewrite X1; intros Q; apply X2; congruence|].
      destruct (HC eps He) as (d & Hd & HC1). exists d. split; [exact Hd|].
      intros L1 S1 NL rs rs0' t t0 Ers Ers0 Et Et0.
      assert (rs0' = rs0) by congruence. subst rs0'.
      destruct (HC1 w L1 u1 u2) as (rs' & tf' & st' & P' & _ & _ & S' & B);
        [rewrite Rminus_diag_eq by reflexivity; rewrite Rabs_R0; exact Hd|exact NL
        |rewrite Rminus_diag_eq by reflexivity; rewrite Rabs_R0; exact Hd|rewrite Rminus_diag_eq by reflexivity; rewrite Rabs_R0; exact Hd|].
      assert (NE1 : L1 <> []) by (intros ->; inversion NL; congruence).
      destruct (numba_sound w L1 NE1 S1 (or_intror Hw)) as (rs1 & N1 & P1).
      assert (rs1 = rs) by congruence. subst rs1. assert (rs' = rs) by congruence. subst rs'.
      assert (NW : Rabs w <> 1e-8) by (rewrite Rabs_pos_eq; lra).
      apply strain_row_python in Et; [|exact NW|reflexivity]. apply strain_row_python in Et0; [|exact NW|reflexivity].
      replace t with st' by congruence. replace t0 with st by congruence. exact B.
  Qed.

  Lemma near_weaken d d' L1 L2 : d <= d' -> Forall2 (near_layer d) L1 L2 -> Forall2 (near_layer d') L1 L2.
  Proof.
    intros Hd H. induction H as [|a b L1 L2 (A & B & C0 & D) _ IH]; constructor; [|exact IH].
    unfold near_layer. repeat split; lra.
  Qed.

  Lemma rows_close ws eps : List.Forall (fun w => w = 0 \/ 1e-8 < w) ws -> 0 < eps -> exists d, 0 < d /\
    forall L1, List.Forall sound L1 -> Forall2 (near_layer d) L1 L0 ->
    forall wv wv0 tf tf0, mapM (fun w => calc_waves_numba w (map wlayer_of L1)) ws = Ok wv ->
    mapM (fun w => calc_waves_numba w (map wlayer_of L0)) ws = Ok wv0 ->
    mapM (fun wr => strain_tf_row (fst wr) (snd wr) lin lout) (combine ws wv) = Ok tf ->
    mapM (fun wr => strain_tf_row (fst wr) (snd wr) lin lout) (combine ws wv0) = Ok tf0 ->
    Forall2 (fun a b => Cmod (Cminus a b) < eps) tf tf0.
  Proof.
    intros HF He. induction HF as [|w ws Hw HF IH].
    - exists 1. split; [lra|]. intros L1 _ _ wv wv0 tf tf0 E1 E2 E3 E4. cbn in *. injection E3 as <-. injection E4 as <-. constructor.
    - destruct IH as (d1 & Hd1 & IH). destruct (row_close w eps Hw He) as (d2 & Hd2 & HR).
      exists (Rmin d1 d2). split; [now apply Rmin_pos|]. intros L1 S1 NL wv wv0 tf tf0 E1 E2 E3 E4.
      pose proof (near_weaken _ d1 _ _ (Rmin_l d1 d2) NL) as NL1. pose proof (near_weaken _ d2 _ _ (Rmin_r d1 d2) NL) as NL2.
      cbn [mapM] in E1, E2.
      destruct (calc_waves_numba w (map wlayer_of L1)) as [rs|] eqn:R1; [|discriminate]. cbn [bind] in E1.
      destruct (mapM _ ws) as [wv'|] eqn:M1 in E1; [|discriminate]. cbn [bind] in E1. injection E1 as <-.
      destruct (calc_waves_numba w (map wlayer_of L0)) as [rs0|] eqn:R2; [|discriminate]. cbn [bind] in E2.
      destruct (mapM _ ws) as [wv0'|] eqn:M2 in E2; [|discriminate]. cbn [bind] in E2. injection E2 as <-.
      cbn [combine mapM fst snd] in E3, E4.
      destruct (strain_tf_row w rs lin lout) as [t|] eqn:T1; [|discriminate]. cbn [bind] in E3.
      destruct (mapM _ (combine ws wv')) as [tf'|] eqn:Q1 in E3; [|discriminate]. cbn [bind] in E3. injection E3 as <-.
      destruct (strain_tf_row w rs0 lin lout) as [t0|] eqn:T2; [|discriminate]. cbn [bind] in E4.
      destruct (mapM _ (combine ws wv0')) as [tf0'|] eqn:Q2 in E4; [|discriminate]. cbn [bind] in E4. injection E4 as <-.
      constructor; [apply (HR L1 S1 NL2 rs rs0); auto|]. apply (IH L1 S1 NL1 wv' wv0'); auto.
  Qed.

  (** Peak strains of nearby sites are close. *)
  Lemma peak_close m : clear_freqs m -> steady_peak m -> forall wv0 p0, calc_waves m L0 = Ok wv0 ->
    bind (calc_strain_tfs m (length L0) wv0 lin lout) (m_peak m) = Ok p0 ->
    (forall tf, calc_strain_tfs m (length L0) wv0 lin lout = Ok tf -> length tf = length (m_freqs m)) ->
    forall eps, 0 < eps -> exists d, 0 < d /\ forall L1 wv p, List.Forall sound L1 -> Forall2 (near_layer d) L1 L0 ->
      calc_waves m L1 = Ok wv -> bind (calc_strain_tfs m (length L1) wv lin lout) (m_peak m) = Ok p -> Rabs (p - p0) < eps.
  Proof.
    intros Hm Hp wv0 p0 W0 B0 LT0 eps He.
    destruct (calc_strain_tfs m (length L0) wv0 lin lout) as [tf0|] eqn:T0; [|discriminate]. cbn [bind] in B0.
    destruct (Hp tf0 p0 (LT0 _ eq_refl) B0 eps He) as (d1 & Hd1 & HP).
    destruct (rows_close (m_freqs m) d1 Hm Hd1) as (d & Hd & HR). exists d. split; [exact Hd|].
    intros L1 wv p S1 NL W1 B1.
    destruct (calc_strain_tfs m (length L1) wv lin lout) as [tf|] eqn:T1; [|discriminate]. cbn [bind] in B1.
    apply (HP tf); [|exact B1].
    assert (LN : length L1 = length L0) by (clear - NL; induction NL; cbn; congruence). rewrite LN in T1.
    assert (UN : forall wv tf, calc_strain_tfs m (length L0) wv lin lout = Ok tf ->
      mapM (fun wr => strain_tf_row (fst wr) (snd wr) lin lout) (combine (m_freqs m) wv) = Ok tf).
    { intros wv1 tf1 E. unfold calc_strain_tfs in E. rewrite Fout in E.
      rewrite (proj2 (Nat.ltb_lt _ _) Hlout), (proj2 (Nat.ltb_lt _ _) Hlin) in E. exact E. }
    apply (HR L1 S1 NL wv wv0); auto.
  Qed.
End Near.

(** ** Sites that depend on a number *)
Section Family.
  Variable L : R -> list layer.
  Variable lin lout : wloc.
  Variable n : nat.
  Hypothesis Lsound : forall s, List.Forall sound (L s).
  Hypothesis Llen : forall s, length (L s) = n.
  Hypothesis Lcont : forall s0 eps, 0 < eps -> exists d, 0 < d /\ forall s, Rabs (s - s0) < d -> Forall2 (near_layer eps) (L s) (L s0).
  Hypothesis Hlin : (loc_index lin < n)%nat.
  Hypothesis Fin : loc_field lin <> Within.
  Hypothesis Hlout : (loc_index lout < n)%nat.
  Hypothesis Fout : loc_field lout = Within.
  Variable m : motion.
  Hypothesis Hm : clear_freqs m.
  Hypothesis Ha : answers m.
  Hypothesis Hp : steady_peak m.

  Lemma family_ne s : L s <> [].
  Proof. intros E. pose proof (Llen s) as H. rewrite E in H. cbn in H. lia. Qed.

  (** The peak strain of the family. *)
  Definition family_peak (s : R) : R :=
    match calc_waves m (L s) with
    | Ok wv => match bind (calc_strain_tfs m n wv lin lout) (m_peak m) with Ok p => p | Err _ => 0 end
    | Err _ => 0
    end.
  Lemma family_peak_ok s : exists wv tf, calc_waves m (L s) = Ok wv /\ calc_strain_tfs m n wv lin lout = Ok tf /\
    length tf = length (m_freqs m) /\ m_peak m tf = Ok (family_peak s).
  Proof.
    destruct (waves_sound m (L s) (family_ne s) (Lsound s) Hm) as [wv Ew].
    destruct (strain_sound m (L s) wv lin (loc_index lout) (loc_within lout) (family_ne s) (Lsound s) Hm Ew) as (tf & Et & Lt);
      [now rewrite Llen|exact Fin|now rewrite Llen|].
    rewrite Llen in Et. replace (mkLoc (loc_index lout) (loc_within lout) Within) with lout in Et by (destruct lout; cbn in *; congruence).
    destruct (Ha tf Lt) as [p Ep]. exists wv, tf. split; [exact Ew|]. split; [exact Et|]. split; [exact Lt|].
    unfold family_peak. rewrite Ew, Et. cbn [bind]. now rewrite Ep.
  Qed.
  Lemma family_peak_continuous : continuity family_peak.
  Proof.
    intros s0 eps He. destruct (family_peak_ok s0) as (wv0 & tf0 & W0 & T0 & L0 & P0).
    destruct (peak_close (L s0) lin lout (Lsound s0)) with (m := m) (wv0 := wv0) (p0 := family_peak s0) (eps := eps) as (d1 & Hd1 & HP);
      rewrite ?Llen; auto; [now rewrite T0|intros tf E; congruence|].
    destruct (Lcont s0 d1 Hd1) as (d & Hd & HL). exists d. split; [exact Hd|].
    intros s [_ Hs]. unfold dist in *; cbn in *; unfold R_dist in *.
    destruct (family_peak_ok s) as (wv & tf & W1 & T1 & L1 & P1). apply (HP (L s) wv); auto. rewrite Llen, T1. exact P1.
  Qed.
End Family.

(** ** The site with one nonlinear layer *)
Definition one_state (above : list layer) (l : layer) (below : list layer) (s : R) : list layer :=
  map layer_reset above ++ set_strain (layer_reset l) s :: map layer_reset below.

Lemma near_refl d l : 0 < d -> near_layer d l l.
Proof. intros H. unfold near_layer. rewrite !Rminus_diag_eq by reflexivity. rewrite Rabs_R0. now repeat split. Qed.
Lemma near_map d ls : 0 < d -> Forall2 (near_layer d) (map layer_reset ls) (map layer_reset ls).
Proof. intros H. induction ls; cbn; constructor; auto. now apply near_refl. Qed.

Lemma one_cont above l below : tabulated (l_soil l) -> forall s0 eps, 0 < eps ->
  exists d, 0 < d /\ forall s, Rabs (s - s0) < d -> Forall2 (near_layer eps) (one_state above l below s) (one_state above l below s0).
Proof.
  intros HT s0 eps He.
  destruct (mod_continuous (layer_reset l) HT s0 eps He) as (d1 & H1 & C1).
  destruct (damping_continuous (layer_reset l) HT s0 eps He) as (d2 & H2 & C2).
  exists (Rmin d1 d2). split; [now apply Rmin_pos|]. intros s Hs.
  pose proof (Rmin_l d1 d2). pose proof (Rmin_r d1 d2).
  apply Forall2_app; [now apply near_map|]. constructor; [|now apply near_map].
  cbn in C1, C2. unfold R_dist in C1, C2.
  assert (A : forall f, (forall x, D_x no_cond s0 x /\ Rabs (x - s0) < Rmin d1 d2 -> Rabs (f x - f s0) < eps) -> Rabs (f s - f s0) < eps).
  { intros f Hf. destruct (Req_dec s s0) as [->|N]; [rewrite Rminus_diag_eq by reflexivity; now rewrite Rabs_R0|].
    apply Hf. split; [split; [exact I|congruence]|exact Hs]. }
  unfold near_layer. split; [|split; [|split]]; cbn [set_strain l_soil l_thick].
  - change (Rabs (compute_mod (layer_reset l) s - compute_mod (layer_reset l) s0) < eps). apply A. intros x [X1 X2]. apply C1. split; [exact X1|]. lra.
  - change (Rabs (compute_damping (layer_reset l) s - compute_damping (layer_reset l) s0) < eps). apply A. intros x [X1 X2]. apply C2. split; [exact X1|]. lra.
  - now rewrite Rminus_diag_eq, Rabs_R0.
  - now rewrite Rminus_diag_eq, Rabs_R0.
Qed.

Lemma limit_continuous lim : continuity (fun x => fst (limit_strain lim x)).
Proof.
  destruct lim as [x|]; [|exact continuity_id].
  unfold limit_strain. destruct (Reqb x 0); [exact continuity_id|].
  apply (continuity_eq _ (Rmin x)).
  - intros s. destruct (Rltb x s) eqn:E; cbn; [apply Rmin_comm|].
    symmetry. rewrite Rmin_comm. apply Rmin_left. destruct (Rle_dec s x) as [H|H]; [exact H|]. apply Rnot_le_lt, Rltb_true in H. congruence.
  - apply continuity_min.
Qed.

Theorem compatible_exists P m lin above l below : below <> [] ->
  List.Forall physical (above ++ l :: below) ->
  List.Forall (fun l' => is_nonlinear (l_soil l') = false) (above ++ below) ->
  tabulated (l_soil l) -> clear_freqs m -> answers m -> steady_peak m ->
  (loc_index lin < length (above ++ l :: below))%nat -> loc_field lin <> Within ->
  exists s, compatible P m lin (map layer_reset above ++ set_strain (layer_reset l) s :: map layer_reset below).
Proof.
  intros HB HP HN HT Hm Ha Hs Hlin Fin.
  set (L := one_state above l below). set (n := length (above ++ l :: below)).
  set (lout := mkLoc (length above) (l_thick l / 2) Within).
  assert (Lsound : forall s, List.Forall sound (L s)).
  { intros s. apply Forall_app in HP. destruct HP as [HP1 HP2]. inversion HP2 as [|? ? HP3 HP4]; subst.
    apply Forall_app. split; [|constructor; [now apply set_strain_sound|]];
      apply Forall_map; eapply Forall_impl; try eassumption; apply reset_sound'. }
  assert (Llen : forall s, length (L s) = n) by (intros s; unfold L, one_state, n; rewrite !app_length; cbn; now rewrite !map_length).
  assert (NE : forall s, L s <> []) by (intros s E; pose proof (Llen s) as Q; rewrite E in Q; cbn in Q; lia).
  assert (Hlout : (loc_index lout < n)%nat) by (cbn; unfold n; rewrite app_length; cbn; lia).
  pose proof (one_cont above l below HT) as Lcont. fold L in Lcont.
  pose proof (family_peak_ok L lin lout n Lsound Llen Hlin Fin Hlout eq_refl m Hm Ha) as PO.
  pose proof (family_peak_continuous L lin lout n Lsound Llen Lcont Hlin Fin Hlout eq_refl m Hm Ha Hs) as PC.
  set (phi := family_peak L lin lout n m) in *.
  set (psi := fun s => fst (limit_strain (e_limit P) (e_ratio P * phi s))).
  assert (CP : continuity psi).
  { intros x. apply (continuity_pt_comp (fun s => e_ratio P * phi s) (fun y => fst (limit_strain (e_limit P) y))); [|apply limit_continuous].
    apply continuity_pt_scal, PC. }
  assert (CG : continuity (fun s => psi s - s)) by (intros x; apply continuity_pt_minus; [apply CP|apply continuity_id]).
  destruct (layer_high (layer_reset l) HT) as [S0 HS].
  assert (EQ : forall s s', compute_mod (layer_reset l) s = compute_mod (layer_reset l) s' ->
    compute_damping (layer_reset l) s = compute_damping (layer_reset l) s' -> psi s = psi s').
  { intros s s' E1 E2. unfold psi. do 3 f_equal. unfold phi, family_peak.
    assert (EW : calc_waves m (L s) = calc_waves m (L s')); [|now rewrite EW].
    unfold calc_waves. assert (EM : map wlayer_of (L s) = map wlayer_of (L s')); [|now rewrite EM].
    unfold L, one_state. rewrite !map_app. cbn [map]. do 2 f_equal.
    assert (EC : comp_shear_mod (set_strain (layer_reset l) s) = comp_shear_mod (set_strain (layer_reset l) s')).
    { unfold comp_shear_mod, shear_mod, damping. cbn [set_strain l_G l_D l_soil iter_set it_value]. now rewrite E1, E2. }
    unfold wlayer_of, comp_shear_vel. now rewrite EC. }
  set (a := Rmin 1e-9 (psi 1e-9)). set (b := Rmax (Rmax S0 (psi S0)) a).
  assert (Pa : a <= psi a).
  { rewrite (EQ a 1e-9); [apply Rmin_r| |]; apply layer_low; apply Rmin_l. }
  assert (Sb : S0 <= b) by (eapply Rle_trans; [apply (Rmax_l S0 (psi S0))|apply Rmax_l]).
  assert (Pb : psi b <= b).
  { rewrite (EQ b S0); [|now apply HS..]. eapply Rle_trans; [apply (Rmax_r S0 (psi S0))|apply Rmax_l]. }
  destruct (IVT_cor (fun s => psi s - s) a b CG) as (s & _ & Es); [apply Rmax_r| |].
  { assert (0 <= psi a - a) by lra. assert (psi b - b <= 0) by lra. nra. }
  exists s. change (compatible P m lin (L s)).
  destruct (PO s) as (wv & tf & Ew & Et & Lt & Ep). exists wv. split; [exact Ew|].
  assert (RL : removelast (L s) = map layer_reset above ++ set_strain (layer_reset l) s :: map layer_reset (removelast below)).
  { unfold L, one_state. rewrite removelast_app by discriminate. f_equal.
    assert (RC : forall (x : layer) ys, ys <> [] -> removelast (x :: ys) = x :: removelast ys) by (intros x [|y ys] Q; [congruence|reflexivity]).
    rewrite RC by (destruct below; [congruence|discriminate]). f_equal. clear. induction below as [|x [|y ys] IH]; [reflexivity..|].
    cbn [map removelast] in *. f_equal. exact IH. }
  assert (LIN : forall i l', (i < n)%nat -> In l' (above ++ below) -> exists mx s1,
    calc_strain_max m n wv lin i (layer_reset l') = Ok mx /\ used_strain P mx s1 /\
    shear_mod (layer_reset l') = spec_G (density (l_soil (layer_reset l'))) (l_vs (layer_reset l')) (soil_behaviour (l_soil (layer_reset l'))) (Some s1) /\
    damping (layer_reset l') = spec_D (l_dmin (layer_reset l')) (soil_behaviour (l_soil (layer_reset l'))) (Some s1)).
  { intros i l' Hi Il. assert (NL := proj1 (Forall_forall _ _) HN l' Il).
    destruct (strain_sound m (L s) wv lin i (l_thick (layer_reset l') / 2) (NE s) (Lsound s) Hm Ew) as (tf1 & Et1 & Lt1);
      [now rewrite Llen|exact Fin|now rewrite Llen|].
    destruct (Ha tf1 Lt1) as [mx Emx]. destruct (used_exists P mx) as [s1 U1]. exists mx, s1.
    split; [unfold calc_strain_max; rewrite Llen in Et1; rewrite Et1; exact Emx|]. split; [exact U1|].
    rewrite <- compute_mod_spec, <- compute_damping_spec.
    destruct (linear_set (layer_reset l') s1 NL) as [G1 D1]. apply (f_equal it_value) in G1, D1. cbn [set_strain l_G l_D iter_set it_value] in G1, D1.
    rewrite G1, D1. now split. }
  intros i x Hi. rewrite RL in Hi. rewrite Llen.
  destruct (Nat.lt_trichotomy i (length above)) as [C1|[C1|C1]].
  - rewrite nth_error_app1 in Hi by now rewrite map_length.
    apply nth_error_In, in_map_iff in Hi. destruct Hi as (l' & <- & Q). apply LIN; [unfold n; rewrite app_length; lia|].
    apply in_app_iff. now left.
  - subst i. rewrite nth_error_app2 in Hi by now rewrite map_length. rewrite map_length, Nat.sub_diag in Hi. cbn in Hi. injection Hi as <-.
    exists (phi s), (psi s). split; [|split; [|split]].
    + unfold calc_strain_max. cbn [set_strain layer_reset l_thick]. fold lout. rewrite Et. exact Ep.
    + unfold psi. destruct (limit_strain (e_limit P) (e_ratio P * phi s)) as [s' b'] eqn:El. now apply limit_strain_used in El.
    + replace (psi s) with s by lra. rewrite <- compute_mod_spec. reflexivity.
    + replace (psi s) with s by lra. rewrite <- compute_damping_spec. reflexivity.
  - rewrite nth_error_app2 in Hi by (rewrite map_length; lia). rewrite map_length in Hi.
    destruct (i - length above)%nat as [|j] eqn:Ej; [lia|]. cbn [nth_error] in Hi.
    assert (Hj : (j < length (removelast below))%nat) by (rewrite <- (map_length layer_reset); apply nth_error_Some; congruence).
    apply nth_error_In, in_map_iff in Hi. destruct Hi as (l' & <- & Q). apply LIN.
    + unfold n. rewrite app_length. cbn [length]. rewrite (app_removelast_last l HB), app_length. cbn. lia.
    + apply in_app_iff. right. rewrite (app_removelast_last l HB). apply in_app_iff. now left.
Qed.
