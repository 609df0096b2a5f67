(** Equivalent-linear results depend continuously on the site. *)
From Verif Require Import Common Proof.CommonFacts Model.Curve Model.Layer Model.Cplx Model.Waves Model.Eql
  Spec.CurveSpec Spec.LayerSpec Spec.WaveSpec Spec.EqlSpec Spec.ContinuitySpec Spec.EqlContinuitySpec Spec.CompatibleSpec Proof.CurveFacts Proof.LayerFacts Proof.CplxFacts Proof.WaveFacts Proof.WaveEnergy
  Proof.WaveProps Proof.EqlFacts Proof.EqlProps Proof.EqlPhysical Proof.EqlKeeps Proof.EqlRepeat Proof.WaveContinuity Proof.StrainRows Proof.CurveContinuity Proof.CompatibleExists
  Proof.CompatibleLimit Proof.OutputsContinuity.
From Coq Require Import List.
From Coquelicot Require Import Complex.
Local Open Scope R_scope.

(** ** Small changes *)
Definition near_state (d : R) (a b : layer) : Prop :=
  near_site d a b /\ Rabs (it_value (l_G a) - it_value (l_G b)) < d /\ Rabs (it_prev (l_G a) - it_prev (l_G b)) < d /\
  Rabs (it_value (l_D a) - it_value (l_D b)) < d /\ Rabs (it_prev (l_D a) - it_prev (l_D b)) < d /\ l_smax a = l_smax b.

Lemma site_mono d d' a b : d <= d' -> near_site d a b -> near_site d' a b.
Proof. intros H (A & B & C0). split; [exact A|]. split; [exact B|]. exact (described_mono _ _ _ _ H C0). Qed.
Lemma state_mono d d' a b : d <= d' -> near_state d a b -> near_state d' a b.
Proof. intros H (A & B & C0 & D & E & F). split; [exact (site_mono _ _ _ _ H A)|]. repeat split; assumption || lra. Qed.
Lemma state_layer d a b : near_state d a b -> near_layer d a b.
Proof. intros ((_ & _ & _ & _ & W & T) & G & _ & D & _). now repeat split. Qed.
Lemma states_mono d d' A B : d <= d' -> Forall2 (near_state d) A B -> Forall2 (near_state d') A B.
Proof. intros H. apply Forall2_weaken. intros a b. now apply state_mono. Qed.
Lemma states_layers d A B : Forall2 (near_state d) A B -> Forall2 (near_layer d) A B.
Proof. apply Forall2_weaken, state_layer. Qed.

Lemma uniform_delta n (Q : nat -> R -> Prop) : (forall j d d', 0 < d' -> d' <= d -> Q j d -> Q j d') ->
  (forall j, (j < n)%nat -> exists d, 0 < d /\ Q j d) -> exists d, 0 < d /\ forall j, (j < n)%nat -> Q j d.
Proof.
  intros HM. induction n as [|n IH]; intros H; [exists 1; split; [lra|]; intros j Hj; lia|].
  destruct IH as (d1 & D1 & H1); [intros j Hj; apply H; lia|]. destruct (H n ltac:(lia)) as (d2 & D2 & H2).
  assert (D : 0 < Rmin d1 d2) by now apply Rmin_pos.
  exists (Rmin d1 d2). split; [exact D|]. intros j Hj. destruct (Nat.eq_dec j n) as [->|N].
  - apply (HM n d2); [exact D|apply Rmin_r|exact H2].
  - apply (HM j d1); [exact D|apply Rmin_l|apply H1; lia].
Qed.
Lemma Forall2_from_nth {A B} (R0 : A -> B -> Prop) : forall la lb, length la = length lb ->
  (forall j a b, nth_error la j = Some a -> nth_error lb j = Some b -> R0 a b) -> Forall2 R0 la lb.
Proof.
  induction la as [|a la IH]; intros [|b lb] L H; try discriminate; constructor.
  - exact (H 0%nat a b eq_refl eq_refl).
  - apply IH; [cbn in L; lia|]. intros j x y. exact (H (S j) x y).
Qed.

Lemma product_near x y eps : 0 < eps -> exists d, 0 < d /\ forall x' y', Rabs (x' - x) < d -> Rabs (y' - y) < d -> Rabs (x' * y' - x * y) < eps.
Proof.
  intros He. set (M := Rabs x + Rabs y + 1). pose proof (Rabs_pos x). pose proof (Rabs_pos y). assert (M0 : 1 <= M) by (unfold M; lra).
  assert (D0 : 0 < eps / (M + 1)) by (apply Rdiv_lt_0_compat; lra).
  exists (Rmin 1 (eps / (M + 1))). split; [apply Rmin_pos; lra|]. intros x' y' Hx Hy.
  pose proof (Rmin_l 1 (eps / (M + 1))). pose proof (Rmin_r 1 (eps / (M + 1))). set (d := Rmin 1 (eps / (M + 1))) in *.
  replace (x' * y' - x * y) with ((x' - x) * (y' - y) + (x' - x) * y + x * (y' - y)) by ring.
  apply Rle_lt_trans with (d * M).
  - eapply Rle_trans; [apply Rabs_triang|]. eapply Rle_trans; [apply Rplus_le_compat_r, Rabs_triang|]. rewrite !Rabs_mult. unfold M.
    pose proof (Rabs_pos (x' - x)). pose proof (Rabs_pos (y' - y)). nra.
  - apply Rle_lt_trans with (eps / (M + 1) * M); [apply Rmult_le_compat_r; lra|].
    apply (Rmult_lt_reg_r (M + 1)); [lra|]. replace (eps / (M + 1) * M * (M + 1)) with (eps * M) by (field; lra). nra.
Qed.
Lemma inverse_near v eps : 0 < v -> 0 < eps -> exists d, 0 < d /\ forall v', Rabs (v' - v) < d -> 0 < v' /\ Rabs (/ v' - / v) < eps.
Proof.
  intros Hv He. assert (D0 : 0 < eps * v * v / 4) by (repeat apply Rmult_lt_0_compat; lra).
  exists (Rmin (v / 2) (eps * v * v / 4)). split; [apply Rmin_pos; lra|]. intros v' H.
  pose proof (Rmin_l (v / 2) (eps * v * v / 4)). pose proof (Rmin_r (v / 2) (eps * v * v / 4)).
  destruct (Rabs_def2 _ _ H) as [A B]. assert (V' : v / 2 < v') by lra. split; [lra|].
  replace (/ v' - / v) with ((v - v') / (v' * v)) by (field; lra).
  assert (Q : 0 < v' * v) by (apply Rmult_lt_0_compat; lra).
  unfold Rdiv. rewrite Rabs_mult, (Rabs_pos_eq (/ (v' * v))) by (left; now apply Rinv_0_lt_compat).
  apply (Rmult_lt_reg_r (v' * v)); [exact Q|]. rewrite Rmult_assoc, Rinv_l, Rmult_1_r by lra.
  rewrite Rabs_minus_sym. apply Rlt_le_trans with (eps * v * v / 4); [lra|].
  apply Rle_trans with (eps * (v / 2 * v)); [nra|]. apply Rmult_le_compat_l; [lra|]. nra.
Qed.
Lemma quotient_near x v eps : 0 < v -> 0 < eps -> exists d, 0 < d /\ forall x' v', Rabs (x' - x) < d -> Rabs (v' - v) < d ->
  0 < v' /\ Rabs (x' / v' - x / v) < eps.
Proof.
  intros Hv He. destruct (product_near x (/ v) eps He) as (d1 & D1 & H1). destruct (inverse_near v d1 Hv D1) as (d2 & D2 & H2).
  exists (Rmin d1 d2). split; [now apply Rmin_pos|]. intros x' v' Hx Hw.
  pose proof (Rmin_l d1 d2). pose proof (Rmin_r d1 d2). destruct (H2 v') as [A B]; [lra|]. split; [exact A|]. apply H1; [lra|exact B].
Qed.

(** ** Setting a strain *)
Definition reduction (o : option curve) (s : R) : R :=
  match o with None => 1 | Some c => match curve_call c s with Ok r => r | Err _ => 1 end end.
Definition extra_damping (d : damping_spec) (s : R) : R :=
  match d with
  | DConst _ => 0
  | DCurve c => match curve_call c s, match c_values c with v :: _ => Ok v | [] => Err IndexError end with
                | Ok d, Ok dm => d - dm | _, _ => 0 end
  end.
Lemma compute_mod_form l s : compute_mod l s = initial_shear_mod l * reduction (s_mod (l_soil l)) s.
Proof. reflexivity. Qed.
Lemma compute_damping_form l s : compute_damping l s = extra_damping (s_damp (l_soil l)) s + l_dmin l.
Proof.
  unfold compute_damping, extra_damping, soil_damping_min. destruct (s_damp (l_soil l)) as [d|c]; [reflexivity|].
  destruct (curve_call c s); [|reflexivity]. destruct (c_values c); reflexivity.
Qed.
Lemma continuous_near f s eps : continuity f -> 0 < eps -> exists d, 0 < d /\ forall s', Rabs (s' - s) < d -> Rabs (f s' - f s) < eps.
Proof.
  intros H He. destruct (H s eps He) as (d & Hd & C). cbn in C. unfold R_dist in C. exists d. split; [exact Hd|].
  intros s' Hs. destruct (Req_dec s' s) as [->|N]; [rewrite Rminus_diag_eq by reflexivity; now rewrite Rabs_R0|].
  apply C. split; [split; [exact I|congruence]|exact Hs].
Qed.
Lemma reduction_continuous s : tabulated s -> continuity (reduction (s_mod s)).
Proof.
  intros [H _]. destruct (s_mod s) as [c|] eqn:E; [|exact (continuity_constant 1)].
  apply (continuity_eq _ (value_at c)); [|apply continuity_curve; now apply H].
  intros x. cbn. rewrite (value_at_call c x) by now apply H. reflexivity.
Qed.
Lemma extra_continuous s : tabulated s -> continuity (extra_damping (s_damp s)).
Proof.
  intros [_ H]. destruct (s_damp s) as [d|c] eqn:E; [exact (continuity_constant 0)|].
  destruct (c_values c) as [|v vs] eqn:Ev.
  - apply (continuity_eq _ (fun _ => 0)); [|exact (continuity_constant 0)]. intros x. cbn. rewrite Ev. now destruct (curve_call c x).
  - apply (continuity_eq _ (fun x => value_at c x + - v)); [|apply continuity_add; [apply continuity_curve; now apply H|apply continuity_constant]].
    intros x. cbn. rewrite (value_at_call c x), Ev by now apply H. reflexivity.
Qed.

Lemma initial_near l eps : 0 < eps -> exists d, 0 < d /\ forall l', near_site d l' l -> Rabs (initial_shear_mod l' - initial_shear_mod l) < eps.
Proof.
  intros He. destruct (reset_layer_near l eps He) as (d & Hd & H). exists d. split; [exact Hd|]. intros l' (_ & _ & N). exact (proj1 (H l' N)).
Qed.

Lemma set_near l s eps : tabulated (l_soil l) -> 0 < eps -> exists d, 0 < d /\ forall l' s', near_state d l' l -> Rabs (s' - s) < d ->
  near_state eps (set_strain l' s') (set_strain l s).
Proof.
  intros HT He.
  destruct (product_near (initial_shear_mod l) (reduction (s_mod (l_soil l)) s) eps He) as (d1 & D1 & H1).
  destruct (initial_near l d1 D1) as (d2 & D2 & H2).
  destruct (continuous_near _ s d1 (reduction_continuous _ HT) D1) as (d3 & D3 & H3).
  destruct (continuous_near _ s (eps / 2) (extra_continuous _ HT) ltac:(lra)) as (d4 & D4 & H4).
  set (d := Rmin (Rmin d2 d3) (Rmin d4 (eps / 2))).
  assert (B : d <= d2 /\ d <= d3 /\ d <= d4 /\ d <= eps / 2).
  { unfold d. pose proof (Rmin_l (Rmin d2 d3) (Rmin d4 (eps / 2))). pose proof (Rmin_r (Rmin d2 d3) (Rmin d4 (eps / 2))).
    pose proof (Rmin_l d2 d3). pose proof (Rmin_r d2 d3). pose proof (Rmin_l d4 (eps / 2)). pose proof (Rmin_r d4 (eps / 2)). lra. }
  exists d. split; [unfold d; repeat apply Rmin_pos; assumption || lra|]. intros l' s' (NS & G1 & G2 & K1 & K2 & K3) Hs.
  destruct B as (B2 & B3 & B4 & B5). pose proof NS as (E1 & E2 & _ & Dm & _).
  split; [|split; [|split; [|split; [|split]]]].
  - assert (NE : near_site eps l' l) by (apply (site_mono d); [lra|exact NS]). exact NE.
  - cbn [set_strain l_G iter_set it_value]. rewrite !compute_mod_form, E1. apply H1; [apply H2; exact (site_mono _ _ _ _ B2 NS)|apply H3; lra].
  - cbn [set_strain l_G iter_set it_prev]. lra.
  - cbn [set_strain l_D iter_set it_value]. rewrite !compute_damping_form, E2.
    replace (extra_damping (s_damp (l_soil l)) s' + l_dmin l' - (extra_damping (s_damp (l_soil l)) s + l_dmin l))
      with ((extra_damping (s_damp (l_soil l)) s' - extra_damping (s_damp (l_soil l)) s) + (l_dmin l' - l_dmin l)) by ring.
    eapply Rle_lt_trans; [apply Rabs_triang|]. pose proof (H4 s' ltac:(lra)). lra.
  - cbn [set_strain l_D iter_set it_prev]. lra.
  - exact K3.
Qed.

(** ** Errors *)
Lemma error_near i eps : 0 < it_value i -> 0 < eps -> exists e, relative_error i = EFin e /\ exists d, 0 < d /\
  forall i', Rabs (it_value i' - it_value i) < d -> Rabs (it_prev i' - it_prev i) < d ->
  exists e', relative_error i' = EFin e' /\ Rabs (e' - e) < eps.
Proof.
  intros Hv He. unfold relative_error at 1. rewrite (proj2 (Rltb_true 0 (it_value i)) Hv). eexists. split; [reflexivity|].
  destruct (quotient_near (it_prev i) (it_value i) (eps / 100) Hv ltac:(lra)) as (d & Hd & H).
  exists d. split; [exact Hd|]. intros i' A B. destruct (H _ _ B A) as [P Q].
  unfold relative_error. rewrite (proj2 (Rltb_true 0 (it_value i')) P). eexists. split; [reflexivity|].
  replace (100 * ((it_prev i' - it_value i') / it_value i') - 100 * ((it_prev i - it_value i) / it_value i))
    with (100 * (it_prev i' / it_value i' - it_prev i / it_value i)) by (field; lra).
  rewrite Rabs_mult, (Rabs_pos_eq 100) by lra. lra.
Qed.
Lemma max_near x y x' y' eps : Rabs (x' - x) < eps -> Rabs (y' - y) < eps -> Rabs (Rmax x' y' - Rmax x y) < eps.
Proof.
  intros A B. destruct (Rabs_def2 _ _ A). destruct (Rabs_def2 _ _ B). unfold Rmax. destruct (Rle_dec x' y'), (Rle_dec x y); apply Rabs_def1; lra.
Qed.
Lemma layer_error_near l eps : 0 < shear_mod l -> 0 < damping l -> 0 < eps -> exists e, max_error l = EFin e /\ exists d, 0 < d /\
  forall l', near_state d l' l -> exists e', max_error l' = EFin e' /\ Rabs (e' - e) < eps.
Proof.
  intros HG HD He. destruct (error_near (l_G l) eps HG He) as (e1 & E1 & d1 & D1 & H1). destruct (error_near (l_D l) eps HD He) as (e2 & E2 & d2 & D2 & H2).
  unfold max_error at 1. rewrite E1, E2. eexists. split; [reflexivity|]. exists (Rmin d1 d2). split; [now apply Rmin_pos|].
  intros l' (_ & A & B & C0 & D & _). pose proof (Rmin_l d1 d2). pose proof (Rmin_r d1 d2).
  destruct (H1 (l_G l')) as (e1' & F1 & G1); [lra|lra|]. destruct (H2 (l_D l')) as (e2' & F2 & G2); [lra|lra|].
  unfold max_error. rewrite F1, F2. eexists. split; [reflexivity|]. now apply max_near.
Qed.
Lemma errors_near ls eps : ls <> [] -> List.Forall sound ls -> List.Forall (fun l => 0 < damping l) ls -> 0 < eps ->
  exists e, max_errors ls = Ok (EFin e) /\ exists d, 0 < d /\
  forall ls', Forall2 (near_state d) ls' ls -> exists e', max_errors ls' = Ok (EFin e') /\ Rabs (e' - e) < eps.
Proof.
  intros NE HS HD He. induction ls as [|l ls IH]; [congruence|].
  inversion HS as [|? ? (S1 & _) HS']; subst. inversion HD as [|? ? D1 HD']; subst.
  destruct (layer_error_near l eps S1 D1 He) as (e1 & E1 & d1 & P1 & H1).
  destruct ls as [|l2 ls].
  - exists e1. split; [cbn; now rewrite E1|]. exists d1. split; [exact P1|]. intros ls' N. inversion N as [|l' ? r ? N1 N2]; subst. inversion N2; subst.
    destruct (H1 l' N1) as (e' & A & B). exists e'. split; [cbn; now rewrite A|exact B].
  - destruct IH as (e2 & E2 & d2 & P2 & H2); [discriminate|assumption|assumption|].
    exists (Rmax e1 e2). split; [change (max_errors (l :: l2 :: ls)) with (bind (max_errors (l2 :: ls)) (fun e => Ok (perr_max (max_error l) e))); rewrite E1, E2; reflexivity|].
    exists (Rmin d1 d2). split; [now apply Rmin_pos|]. intros ls' N. inversion N as [|l' ? r ? N1 N2]; subst.
    destruct (H1 l' (state_mono _ _ _ _ (Rmin_l d1 d2) N1)) as (e1' & A1 & B1). destruct (H2 r (states_mono _ _ _ _ (Rmin_r d1 d2) N2)) as (e2' & A2 & B2).
    exists (Rmax e1' e2'). split; [|now apply max_near]. inversion N2 as [|l2' ? r2 ? _ _]; subst.
    change (max_errors (l' :: l2' :: r2)) with (bind (max_errors (l2' :: r2)) (fun e => Ok (perr_max (max_error l') e))). rewrite A1, A2. reflexivity.
Qed.

(** ** Peak strains, with the depth changing as well *)
Section Peak.
  Variable L0 : list layer.
  Variable lin : wloc.
  Variable i2 : nat.
  Variable u2 : R.
  Hypothesis S0 : List.Forall sound L0.
  Hypothesis Hlin : (loc_index lin < length L0)%nat.
  Hypothesis Fin : loc_field lin <> Within.
  Hypothesis Hlout : (i2 < length L0)%nat.

  Lemma row_close2 w eps : w = 0 \/ 1e-8 < w -> 0 < eps -> exists d, 0 < d /\
    forall L1 u, List.Forall sound L1 -> Forall2 (near_layer d) L1 L0 -> Rabs (u - u2) < d ->
    forall rs rs0 t t0, calc_waves_numba w (map wlayer_of L1) = Ok rs -> calc_waves_numba w (map wlayer_of L0) = Ok rs0 ->
    strain_tf_row w rs lin (mkLoc i2 u Within) = Ok t -> strain_tf_row w rs0 lin (mkLoc i2 u2 Within) = Ok t0 -> Cmod (Cminus t t0) < eps.
  Proof.
    intros [->|Hw] He.
    - exists 1. split; [lra|]. intros L1 u _ _ _ rs rs0 t t0 _ _ Et Et0.
      assert (Z : forall rs u t, strain_tf_row 0 rs lin (mkLoc i2 u Within) = Ok t -> t = RtoC 0).
      { intros rs1 v t1 E. unfold strain_tf_row in E. destruct (nth_error rs1 _); [|discriminate].
        destruct (nth_error rs1 (loc_index lin)); [|discriminate]. destruct (r_k _); [|discriminate]. destruct (r_k _); [|discriminate].
        unfold strain_tf_numba in E. rewrite Rabs_R0 in E. rewrite (proj2 (Rltb_true 0 1e-8)) in E by lra. congruence. }
      rewrite (Z _ _ _ Et), (Z _ _ _ Et0). unfold Cminus. rewrite Cplus_opp_r, Cmod_0. exact He.
    - assert (NE : L0 <> []) by (intros ->; cbn in Hlin; lia).
      destruct (numba_sound w L0 NE S0 (or_intror Hw)) as (rs0 & N0 & P0).
      destruct (upgoing_motion w L0 rs0 Hw S0 P0 lin Hlin Fin) as (x & X1 & X2).
      destruct lin as [i1 u1 f1] eqn:E1. cbn [loc_field loc_index] in *.
      destruct (tf_continuous w L0 rs0 i1 u1 f1 i2 u2 Within) as (tf1 & st & _ & T0 & HC);
        [rewrite Rabs_pos_eq; lra|exact S0|exact P0|exact Hlin|exact Hlout|rewrite X1; intros Q; apply X2; congruence|].
      destruct (HC eps He) as (d & Hd & HC1). exists d. split; [exact Hd|].
      intros L1 u S1 NL Hu rs rs0' t t0 Ers Ers0 Et Et0.
      assert (rs0' = rs0) by congruence. subst rs0'.
      destruct (HC1 w L1 u1 u) as (rs' & tf' & st' & P' & _ & _ & S' & B);
        [rewrite Rminus_diag_eq by reflexivity; rewrite Rabs_R0; exact Hd|exact NL
        |rewrite Rminus_diag_eq by reflexivity; rewrite Rabs_R0; exact Hd|exact Hu|].
      assert (NE1 : L1 <> []) by (intros ->; inversion NL; congruence).
      destruct (numba_sound w L1 NE1 S1 (or_intror Hw)) as (rs1 & N1 & P1).
      assert (rs1 = rs) by congruence. subst rs1. assert (rs' = rs) by congruence. subst rs'.
      assert (NW : Rabs w <> 1e-8) by (rewrite Rabs_pos_eq; lra).
      apply strain_row_python in Et; [|exact NW|reflexivity]. apply strain_row_python in Et0; [|exact NW|reflexivity].
      replace t with st' by congruence. replace t0 with st by congruence. exact B.
  Qed.

  Lemma rows_close2 ws eps : List.Forall (fun w => w = 0 \/ 1e-8 < w) ws -> 0 < eps -> exists d, 0 < d /\
    forall L1 u, List.Forall sound L1 -> Forall2 (near_layer d) L1 L0 -> Rabs (u - u2) < d ->
    forall wv wv0 tf tf0, mapM (fun w => calc_waves_numba w (map wlayer_of L1)) ws = Ok wv ->
    mapM (fun w => calc_waves_numba w (map wlayer_of L0)) ws = Ok wv0 ->
    mapM (fun wr => strain_tf_row (fst wr) (snd wr) lin (mkLoc i2 u Within)) (combine ws wv) = Ok tf ->
    mapM (fun wr => strain_tf_row (fst wr) (snd wr) lin (mkLoc i2 u2 Within)) (combine ws wv0) = Ok tf0 ->
    Forall2 (fun a b => Cmod (Cminus a b) < eps) tf tf0.
  Proof.
    intros HF He. induction HF as [|w ws Hw HF IH].
    - exists 1. split; [lra|]. intros L1 u _ _ _ wv wv0 tf tf0 E1 E2 E3 E4. cbn in *. injection E3 as <-. injection E4 as <-. constructor.
    - destruct IH as (d1 & Hd1 & IH). destruct (row_close2 w eps Hw He) as (d2 & Hd2 & HR).
      exists (Rmin d1 d2). split; [now apply Rmin_pos|]. intros L1 u S1 NL Hu wv wv0 tf tf0 E1 E2 E3 E4.
      pose proof (near_weaken _ d1 _ _ (Rmin_l d1 d2) NL) as NL1. pose proof (near_weaken _ d2 _ _ (Rmin_r d1 d2) NL) as NL2.
      pose proof (Rmin_l d1 d2). pose proof (Rmin_r d1 d2).
      cbn [mapM] in E1, E2.
      destruct (calc_waves_numba w (map wlayer_of L1)) as [rs|] eqn:R1; [|discriminate]. cbn [bind] in E1.
      destruct (mapM _ ws) as [wv'|] eqn:M1 in E1; [|discriminate]. cbn [bind] in E1. injection E1 as <-.
      destruct (calc_waves_numba w (map wlayer_of L0)) as [rs0|] eqn:R2; [|discriminate]. cbn [bind] in E2.
      destruct (mapM _ ws) as [wv0'|] eqn:M2 in E2; [|discriminate]. cbn [bind] in E2. injection E2 as <-.
      cbn [combine mapM fst snd] in E3, E4.
      destruct (strain_tf_row w rs lin _) as [t|] eqn:T1 in E3; [|discriminate]. cbn [bind] in E3.
      destruct (mapM _ (combine ws wv')) as [tf'|] eqn:Q1 in E3; [|discriminate]. cbn [bind] in E3. injection E3 as <-.
      destruct (strain_tf_row w rs0 lin _) as [t0|] eqn:T2 in E4; [|discriminate]. cbn [bind] in E4.
      destruct (mapM _ (combine ws wv0')) as [tf0'|] eqn:Q2 in E4; [|discriminate]. cbn [bind] in E4. injection E4 as <-.
      constructor; [apply (HR L1 u S1 NL2 ltac:(lra) rs rs0); auto|]. apply (IH L1 u S1 NL1 ltac:(lra) wv' wv0'); auto.
  Qed.

  Lemma peak_close2 m : clear_freqs m -> steady_peak m -> answers m -> forall wv0 mx0 l0, calc_waves m L0 = Ok wv0 -> l_thick l0 / 2 = u2 ->
    calc_strain_max m (length L0) wv0 lin i2 l0 = Ok mx0 ->
    forall eps, 0 < eps -> exists d, 0 < d /\ forall L1 wv mx l1, List.Forall sound L1 -> Forall2 (near_layer d) L1 L0 -> Rabs (l_thick l1 - l_thick l0) < d ->
      calc_waves m L1 = Ok wv -> calc_strain_max m (length L1) wv lin i2 l1 = Ok mx -> Rabs (mx - mx0) < eps.
  Proof.
    intros Hm Hp Ha wv0 mx0 l0 W0 Hu B0 eps He. assert (NE : L0 <> []) by (intros ->; cbn in Hlin; lia). unfold calc_strain_max in B0. rewrite Hu in B0.
    destruct (strain_sound m L0 wv0 lin i2 u2 NE S0 Hm W0 Hlin Fin Hlout) as (tf0 & T0 & LT0).
    rewrite T0 in B0. cbn [bind] in B0.
    destruct (Hp tf0 mx0 LT0 B0 eps He) as (d1 & Hd1 & HP).
    destruct (rows_close2 (m_freqs m) d1 Hm Hd1) as (d & Hd & HR). exists d. split; [exact Hd|].
    intros L1 wv mx l1 S1 NL Hth W1 B1. unfold calc_strain_max in B1.
    destruct (calc_strain_tfs m (length L1) wv lin (mkLoc i2 (l_thick l1 / 2) Within)) as [tf|] eqn:T1; [|discriminate]. cbn [bind] in B1.
    apply (HP tf); [|exact B1].
    assert (LN : length L1 = length L0) by (clear - NL; induction NL; cbn; congruence). rewrite LN in T1.
    assert (UN : forall u wv tf, calc_strain_tfs m (length L0) wv lin (mkLoc i2 u Within) = Ok tf ->
      mapM (fun wr => strain_tf_row (fst wr) (snd wr) lin (mkLoc i2 u Within)) (combine (m_freqs m) wv) = Ok tf).
    { intros u wv1 tf1 E. unfold calc_strain_tfs in E. cbn [loc_field loc_index] in E.
      rewrite (proj2 (Nat.ltb_lt _ _) Hlout), (proj2 (Nat.ltb_lt _ _) Hlin) in E. exact E. }
    apply (HR L1 (l_thick l1 / 2) S1 NL) with (wv := wv) (wv0 := wv0); auto.
    replace (l_thick l1 / 2 - u2) with ((l_thick l1 - l_thick l0) * / 2) by (rewrite <- Hu; field).
    rewrite Rabs_mult, (Rabs_pos_eq (/ 2)) by lra. pose proof (Rabs_pos (l_thick l1 - l_thick l0)). lra.
  Qed.
End Peak.
