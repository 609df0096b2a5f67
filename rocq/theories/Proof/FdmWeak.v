(** Weak motions in the frequency-dependent calculator. *)
From Coq Require Import String.
From Verif Require Import Common Proof.CommonFacts Model.Curve Model.Layer Model.Cplx Model.Waves Model.Eql Model.Motion Model.Text
  Model.Output Model.Fdm Spec.CurveSpec Spec.LayerSpec Spec.WaveSpec Spec.EqlSpec Spec.FdmSpec Spec.WeakSpec Proof.CurveFacts Proof.LayerFacts Proof.EqlFacts Proof.EqlProps Proof.EqlResults
  Proof.EqlPhysical Proof.EqlRefute Proof.WeakMotion Proof.FdmFacts Proof.FdmProps Proof.FdmResults Proof.FdmLinear Proof.FdmOutput Proof.FdmEx.
From Coq Require Import List.
From Coquelicot Require Import Complex.
Local Open Scope R_scope.

(** A value whose entries are all [x]. *)
Definition all_equal (v : val) (x : R) : Prop := List.Forall (fun y => y = x) (entries v).

Lemma pairs_max x ys : List.Forall (fun y => y = x) ys -> 0 < x -> ys <> [] ->
  np_max (map (fun pv : R * R => (fst pv - snd pv) / snd pv) (map (fun y => (x, y)) ys)) = Ok 0.
Proof.
  intros H Hx Hne. assert (E : map (fun pv : R * R => (fst pv - snd pv) / snd pv) (map (fun y => (x, y)) ys) = map (fun _ => 0) ys).
  { rewrite map_map. apply map_ext_in. intros y Hy. rewrite Forall_forall in H. rewrite (H y Hy). cbn. field. lra. }
  rewrite E. destruct ys as [|y ys]; [congruence|]. cbn [map np_max]. f_equal. clear.
  induction ys as [|z ys IH]; [reflexivity|]. cbn [map fold_left]. rewrite Rmax_left by lra. exact IH.
Qed.
Lemma unchanged_error v x : all_equal v x -> entries v <> [] -> frelative_error (mkFI v (Sc x)) = Ok (EFin 0).
Proof.
  intros H Hne. unfold frelative_error. cbn [fi_prev fi_value].
  assert (EZ : zipv (Sc x) v = Ok (map (fun y => (x, y)) (entries v))) by (now destruct v). rewrite EZ. cbn [bind].
  destruct (forallb _ (entries v)) eqn:B.
  - assert (Hx : 0 < x).
    { destruct (entries v) as [|y ys] eqn:E; [congruence|]. cbn [forallb] in B. apply andb_true_iff in B. destruct B as [B _].
      unfold all_equal in H. rewrite E in H. inversion H as [|? ? Hy _]; subst. unfold Rltb in B. now destruct (Rlt_dec 0 x). }
    rewrite (pairs_max x (entries v) H Hx Hne). cbn [bind]. do 2 f_equal. lra.
  - assert (C : forallb (fun pv : R * R => isclose (snd pv) (fst pv)) (map (fun y => (x, y)) (entries v)) = true).
    { apply forallb_forall. intros p Hp. apply in_map_iff in Hp. destruct Hp as (y & <- & Hy). cbn [fst snd].
      unfold all_equal in H. rewrite Forall_forall in H. rewrite (H y Hy).
      unfold isclose, Rleb. rewrite Rminus_diag_eq, Rabs_R0 by reflexivity. pose proof (Rabs_pos x). destruct (Rle_dec 0 _); [reflexivity|lra]. }
    now rewrite C.
Qed.
Lemma scalar_error_of i : frelative_error (of_iter i) = Ok (relative_error i).
Proof.
  unfold frelative_error, relative_error. cbn [of_iter fi_prev fi_value zipv bind entries forallb map fst snd np_max fold_left].
  destruct (Rltb 0 (it_value i)); cbn [andb bind]; [reflexivity|].
  destruct (isclose (it_value i) (it_prev i)); reflexivity.
Qed.
Lemma fmax_error_of l : fmax_error (of_layer l) = Ok (max_error l).
Proof. unfold fmax_error. cbn [of_layer f_G f_D]. now rewrite !scalar_error_of. Qed.

(** Strains below the first strain of the curves. *)
Lemma weak_fset l0 l e ss : unaffected_below (l_soil l0) e -> List.Forall (fun s => s <= e) ss ->
  l_soil (f_layer l) = l_soil l0 -> l_vs (f_layer l) = l_vs l0 -> l_dmin (f_layer l) = l_dmin l0 ->
  all_equal (fcompute_mod (f_layer l) ss) (initial_shear_mod l0) /\
  all_equal (fcompute_damping (f_layer l) ss) (l_dmin l0) /\
  (ss <> [] -> entries (fcompute_mod (f_layer l) ss) <> [] /\ entries (fcompute_damping (f_layer l) ss) <> []) /\
  (forall k, (k < length ss)%nat -> at_freq (fcompute_mod (f_layer l) ss) k = Some (initial_shear_mod l0) /\
     at_freq (fcompute_damping (f_layer l) ss) k = Some (l_dmin l0)).
Proof.
  intros HU HS E1 E2 E3.
  assert (EI : initial_shear_mod (f_layer l) = initial_shear_mod l0) by (unfold initial_shear_mod; now rewrite E1, E2).
  assert (HC : forall s, s <= e -> compute_mod (f_layer l) s = initial_shear_mod l0 /\ compute_damping (f_layer l) s = l_dmin l0).
  { intros s Hs. rewrite <- E1 in HU. destruct (weak_set (f_layer l) s e HU Hs) as [G D].
    unfold set_strain, iter_set in G, D; cbn [l_G l_D] in G, D.
    apply (f_equal it_value) in G, D. cbn [it_value] in G, D.
    now rewrite G, D, EI, E3. }
  assert (HK : forall k, (k < length ss)%nat -> at_freq (fcompute_mod (f_layer l) ss) k = Some (initial_shear_mod l0) /\
     at_freq (fcompute_damping (f_layer l) ss) k = Some (l_dmin l0)).
  { intros k Hk. destruct (nth_error ss k) as [s|] eqn:Es; [|apply nth_error_None in Es; lia].
    rewrite (fmod_at _ _ _ _ Es), (fdamp_at _ _ _ _ Es). rewrite Forall_forall in HS.
    destruct (HC s (HS s (nth_error_In _ _ Es))) as [-> ->]. now split. }
  assert (HL : forall v x, (forall k, (k < length ss)%nat -> at_freq v k = Some x) ->
     (forall xs, v = Ar xs -> length xs = length ss) -> (forall y, v = Sc y -> y = x) ->
     all_equal v x /\ (ss <> [] -> entries v <> [])).
  { intros v x H1 H2 H3. destruct v as [y|xs]; unfold all_equal; cbn [entries].
    - rewrite (H3 y eq_refl). split; [repeat constructor|discriminate].
    - specialize (H2 xs eq_refl). split.
      + apply Forall_forall. intros y Hy. apply In_nth_error in Hy. destruct Hy as [k Hk].
        assert (Hkl : (k < length xs)%nat) by (apply nth_error_Some; congruence).
        specialize (H1 k ltac:(lia)). cbn [at_freq] in H1. congruence.
      + intros Hne ->. cbn in H2. destruct ss; [congruence|discriminate]. }
  assert (S1 : forall xs, fcompute_mod (f_layer l) ss = Ar xs -> length xs = length ss).
  { intros xs. unfold fcompute_mod. destruct (s_mod _) as [c|]; [|discriminate].
    destruct (curve_array_spec c ss) as [(vs & -> & Hl & _)|(x & -> & _)]; [|discriminate].
    intros H. injection H as <-. now rewrite map_length. }
  assert (S2 : forall xs, fcompute_damping (f_layer l) ss = Ar xs -> length xs = length ss).
  { intros xs. unfold fcompute_damping. destruct (s_damp _) as [d|c]; [discriminate|].
    destruct (curve_array_spec c ss) as [(vs & -> & Hl & _)|(x & -> & _)]; [|discriminate].
    destruct (soil_damping_min _); [|discriminate]. intros H. injection H as <-. now rewrite map_length. }
  destruct (HL (fcompute_mod (f_layer l) ss) (initial_shear_mod l0)) as [P1 P2]; [intros k Hk; apply HK, Hk|exact S1| |].
  { intros y. unfold fcompute_mod. destruct (s_mod _) as [c|].
    - destruct (curve_array c ss); [discriminate|]. intros H. injection H as <-. rewrite EI. ring.
    - intros H. injection H as <-. rewrite EI. ring. }
  destruct (HL (fcompute_damping (f_layer l) ss) (l_dmin l0)) as [Q1 Q2]; [intros k Hk; apply HK, Hk|exact S2| |].
  { intros y. unfold fcompute_damping. destruct (s_damp _) as [d|c].
    - intros H. injection H as <-. rewrite E3. ring.
    - destruct (curve_array c ss); [destruct (soil_damping_min _); [discriminate|]|]; intros H; injection H as <-; rewrite E3; ring. }
  split; [exact P1|]. split; [exact Q1|]. split; [|exact HK]. intros Hne. split; [now apply P2|now apply Q2].
Qed.

(** The strains a pass uses do not exceed the effective strain. *)
Lemma strains_below F m n wv lin i th pk used : 0 <= x_ratio F -> 0 <= pk ->
  (forall bw fs xs, List.Forall (fun x => 0 <= x) xs -> List.Forall (fun x => 0 <= x) (x_smooth F bw fs xs)) ->
  strains_of F m n wv lin i th pk used -> List.Forall (fun s => s <= x_ratio F * pk) used.
Proof.
  intros Hr Hp HS (tf & prod & ss & _ & _ & _ & E & HU).
  assert (HM : List.Forall (fun x => 0 <= x) (map Cmod prod)).
  { apply Forall_forall. intros x Hx. apply in_map_iff in Hx. destruct Hx as (z & <- & _). apply Cmod_ge_0. }
  assert (H0 : 0 <= x_ratio F * pk) by now apply Rmult_le_pos.
  pose proof (spectrum_bounds F (fm_hz m) (map Cmod prod) (x_ratio F * pk) ss H0 HM (fun b => HS b (fm_hz m) _ HM) E) as HB.
  clear E. revert HB. induction HU as [|s s' ss used [H1 H2] HU IH]; intros HB; [constructor|].
  inversion HB as [|? ? Hs HB']; subst. constructor; [|now apply IH].
  apply Rle_trans with s; [|lra]. unfold flimit_on in *. destruct (x_limit F) as [x|] eqn:El.
  - destruct (Req_dec x 0) as [->|Nx].
    + rewrite H2; [lra|]. intros y [Hy Ny]. congruence.
    + destruct (Rlt_le_dec x s) as [L|L]; [rewrite (H1 x (conj eq_refl Nx) L); lra|].
      rewrite H2; [lra|]. intros y [Hy _]. injection Hy as <-. exact L.
  - rewrite H2; [lra|]. intros y [Hy _]. discriminate.
Qed.

(** One pass from the layers the estimate leaves. *)
Lemma weak_fpass F m lin wv ls1 ls0 st (e : nat -> R) : length ls1 = length ls0 ->
  0 <= x_ratio F -> matched F m -> m_freqs (fm_motion m) <> [] ->
  (forall tf p, m_peak (fm_motion m) tf = Ok p -> 0 <= p) ->
  (forall bw fs xs, List.Forall (fun x => 0 <= x) xs -> List.Forall (fun x => 0 <= x) (x_smooth F bw fs xs)) ->
  (forall i l, nth_error ls0 i = Some l -> unaffected_below (l_soil l) (e i)) ->
  (forall i l0, nth_error ls0 i = Some l0 -> exists l, nth_error ls1 i = Some l /\ same_site l l0 /\ at_rest l /\ max_error l = EFin 0) ->
  fcalc_waves (fm_motion m) (map of_layer ls1) = Ok wv ->
  (forall i l mx, nth_error ls0 i = Some l -> (i < length ls0 - 1)%nat ->
     calc_strain_max (fm_motion m) (length ls0) wv lin i l = Ok mx -> x_ratio F * mx <= e i) ->
  fdm_pass F m lin wv (map of_layer ls1) = Ok (Some st) ->
  fs_error st = EFin 0 /\ length (fs_layers st) = length ls0 /\
  forall i l0, nth_error ls0 i = Some l0 -> exists l, nth_error (fs_layers st) i = Some l /\ same_site (f_layer l) l0 /\
    forall k, (k < length (m_freqs (fm_motion m)))%nat ->
      at_freq (fi_value (f_G l)) k = Some (initial_shear_mod l0) /\ at_freq (fi_value (f_D l)) k = Some (l_dmin l0).
Proof.
  intros HL Hr HM Hnf Hpk Hsm HF HR HW Hstr Ep.
  destruct (fpass_nonempty _ _ _ _ _ _ Ep) as [Hne Hne2]. destruct (last_some _ Hne) as [b Hb].
  destruct (fpass_nth _ _ _ _ _ _ _ Hb Ep) as (L1 & L2 & L3). rewrite map_length in L1, L3.
  destruct (fpass_spec _ _ _ _ _ _ _ Hb Ep) as (upd & _ & _ & _ & Emax).
  assert (HQ : forall i l0, nth_error ls0 i = Some l0 -> exists l, nth_error (fs_layers st) i = Some l /\ same_site (f_layer l) l0 /\
    fmax_error l = Ok (EFin 0) /\
    forall k, (k < length (m_freqs (fm_motion m)))%nat ->
      at_freq (fi_value (f_G l)) k = Some (initial_shear_mod l0) /\ at_freq (fi_value (f_D l)) k = Some (l_dmin l0)).
  { intros i l0 Hi. destruct (HR i l0 Hi) as (l & E & HSm & HA & HE).
    assert (Hil : (i < length ls0)%nat) by (apply nth_error_Some; congruence).
    pose proof HSm as (S1 & S2 & S3 & S4). destruct HA as [A1 A2].
    assert (EI : initial_shear_mod l = initial_shear_mod l0) by (unfold initial_shear_mod; now rewrite S1, S3).
    destruct (Nat.eq_dec i (length ls1 - 1)) as [->|Ni].
    - exists (of_layer l). rewrite <- L1, <- last_opt_nth, L2, <- Hb, last_opt_nth, map_length.
      split; [now apply map_nth_error|]. split; [exact HSm|]. split; [rewrite fmax_error_of; now f_equal|].
      intros k _. cbn [of_layer f_G f_D of_iter fi_value at_freq]. unfold shear_mod, damping in A1, A2. now rewrite A1, A2, EI, S4.
    - assert (E' : nth_error (removelast (map of_layer ls1)) i = Some (of_layer l)).
      { rewrite nth_removelast_lt by (rewrite map_length; lia). now apply map_nth_error. }
      destruct (L3 i _ E') as (pk & used & B1 & B2 & B3). cbn [of_layer f_layer] in B1, B2.
      exists (fset_strain (of_layer l) used). split; [now apply nth_removelast|]. split; [exact HSm|].
      assert (HB : List.Forall (fun s => s <= e i) used).
      { assert (Hp : 0 <= pk). { destruct B1 as (tf & prod & ss & _ & _ & X & _). exact (Hpk _ _ X). }
        pose proof (strains_below _ _ _ _ _ _ _ _ _ Hr Hp Hsm B1) as HB.
        assert (He : x_ratio F * pk <= e i).
        { apply (Hstr i l0 pk Hi ltac:(lia)). rewrite <- HL, <- B2. apply strain_max_thick. now symmetry. }
        apply Forall_forall. intros s Hs. rewrite Forall_forall in HB. specialize (HB s Hs). lra. }
      pose proof (strains_len F m _ _ wv lin i _ pk used HM HW B1) as HLen.
      destruct (weak_fset l0 (of_layer l) (e i) used (HF i l0 Hi) HB S1 S3 S4) as (W1 & W2 & W3 & W4).
      cbn [f_layer of_layer] in W1, W2, W3, W4.
      assert (Hu : used <> []). { intros ->. cbn in HLen. destruct (m_freqs (fm_motion m)); [congruence|discriminate]. }
      destruct (W3 Hu) as [N1 N2].
      split.
      + unfold fmax_error. cbn [fset_strain f_G f_D of_layer f_layer fiter_set of_iter fi_value].
        unfold shear_mod, damping in A1, A2. unfold fiter_set; cbn [of_iter fi_value]. rewrite A1, EI, A2, S4.
        rewrite (unchanged_error _ _ W1 N1), (unchanged_error _ _ W2 N2). cbn [bind perr_max]. do 2 f_equal. apply Rmax_left. lra.
      + intros k Hk. cbn [fset_strain f_G f_D of_layer f_layer fiter_set fi_value]. apply W4. lia. }
  split.
  - assert (HE : forall xs, xs <> [] -> (forall x, In x xs -> fmax_error x = Ok (EFin 0)) -> fmax_errors xs = Ok (EFin 0)).
    { clear. induction xs as [|x xs IH]; [congruence|]. intros _ H. cbn [fmax_errors]. destruct xs as [|y ys].
      - now rewrite (H x (or_introl eq_refl)).
      - rewrite IH; [|discriminate|intros z Hz; apply H; now right].
        rewrite (H x (or_introl eq_refl)). cbn [bind perr_max]. do 2 f_equal. apply Rmax_left. lra. }
    rewrite HE in Emax; [congruence|exact Hne2|]. intros x Hx. apply In_nth_error in Hx. destruct Hx as [i Hi].
    destruct (nth_error ls0 i) as [l0|] eqn:El0.
    + destruct (HQ i l0 El0) as (l & E & _ & X & _). congruence.
    + apply nth_error_None in El0. assert (i < length (fs_layers st))%nat by (apply nth_error_Some; congruence). lia.
  - split; [lia|]. intros i l0 Hi. destruct (HQ i l0 Hi) as (l & E & HSm & _ & HK). exists l. now split.
Qed.

(** ** The run *)
Theorem fdm_weak F m lin ls wvl (e : nat -> R) : ls <> [] ->
  (forall i l, nth_error ls i = Some l -> unaffected_below (l_soil (f_layer l)) (e i)) ->
  0 < x_tol F -> (0 < x_max F)%Z -> 0 <= x_ratio F -> matched F m -> m_freqs (fm_motion m) <> [] ->
  (forall tf p, m_peak (fm_motion m) tf = Ok p -> 0 <= p) ->
  (forall bw fs xs, List.Forall (fun x => 0 <= x) xs -> List.Forall (fun x => 0 <= x) (x_smooth F bw fs xs)) ->
  le_call (fm_motion m) true (map f_layer ls) = Ok wvl ->
  (forall i l, nth_error ls i = Some l -> (m_pgv (fm_motion m) / 100) / l_vs (f_layer l) <= e i) ->
  (forall i l mx, nth_error ls i = Some l -> (i < length ls - 1)%nat ->
     calc_strain_max (fm_motion m) (length ls) wvl lin i (f_layer l) = Ok mx -> x_ratio F * mx <= e i) ->
  forall stop ls' wv, fr_end (fdm_call F m lin true ls) = Ok (stop, ls', wv) -> stop <> NotFinite ->
  stop = FConverged /\ length (fr_passes (fdm_call F m lin true ls)) = 1%nat /\ wv = wvl /\ length ls' = length ls /\
  forall i l0, nth_error ls i = Some l0 -> exists l, nth_error ls' i = Some l /\
    l_soil (f_layer l) = l_soil (f_layer l0) /\ l_thick (f_layer l) = l_thick (f_layer l0) /\
    forall k, (k < length (m_freqs (fm_motion m)))%nat ->
      at_freq (fi_value (f_G l)) k = Some (initial_shear_mod (f_layer l0)) /\
      at_freq (fi_value (f_D l)) k = Some (l_dmin (f_layer l0)).
Proof.
  intros Hne HF Htol Hmax Hr HM Hnf Hpk Hsm Hle Hest Hstr stop ls' wv H Hstop.
  set (ls0 := map freset ls).
  assert (Hne0 : ls0 <> []) by (unfold ls0; now destruct ls).
  assert (Hlen0 : length ls0 = length ls) by (unfold ls0; now rewrite map_length).
  assert (HW : calc_waves (fm_motion m) ls0 = Ok wvl).
  { rewrite <- Hle. unfold le_call, ls0. rewrite map_map. reflexivity. }
  assert (Hle0 : le_call (fm_motion m) true ls0 = Ok wvl).
  { unfold le_call. rewrite <- HW. unfold ls0. rewrite map_map. reflexivity. }
  assert (HI : forall i l, nth_error ls0 i = Some l -> exists l0, nth_error ls i = Some l0 /\ l = freset l0).
  { intros i l Hi. unfold ls0 in Hi. apply map_nth_inv in Hi. destruct Hi as (l0 & Hl & <-). now exists l0. }
  assert (HF0 : forall i l, nth_error ls0 i = Some l -> unaffected_below (l_soil l) (e i)).
  { intros i l Hi. destruct (HI i l Hi) as (l0 & Hl & ->). exact (HF i l0 Hl). }
  assert (Hest0 : forall i l, nth_error ls0 i = Some l -> (m_pgv (fm_motion m) / 100) / l_vs l <= e i).
  { intros i l Hi. destruct (HI i l Hi) as (l0 & Hl & ->). exact (Hest i l0 Hl). }
  assert (Hstr0 : forall i l mx, nth_error ls0 i = Some l -> (i < length ls0 - 1)%nat ->
     calc_strain_max (fm_motion m) (length ls0) wvl lin i l = Ok mx -> x_ratio F * mx <= e i).
  { intros i l mx Hi Hlt Hmx. destruct (HI i l Hi) as (l0 & Hl & ->). rewrite Hlen0 in *.
    apply (Hstr i l0 mx Hl Hlt). rewrite <- Hmx. now apply strain_max_thick. }
  unfold fdm_call in H |- *. fold ls0 in H |- *. rewrite HW in H |- *.
  destruct (eql_call (estimator F) (fm_motion m) lin true ls0) as [est r] eqn:E.
  assert (Htl : 0 < e_tol (estimator F)) by (cbn; lra).
  assert (Hmx : (0 < e_max (estimator F))%Z) by (cbn; lia).
  destruct (eql_weak_rest (estimator F) (fm_motion m) lin ls0 wvl e Hne0 HF0 Htl Hmx Hle0 Hest0 Hstr0 est r E)
    as [(x & -> & _)|(_ & ls1 & -> & QL & QN)]; [discriminate|].
  assert (EW : fcalc_waves (fm_motion m) (map of_layer ls1) = Ok wvl).
  { rewrite fwaves_of, <- HW. unfold calc_waves. f_equal.
    replace (map wlayer_of ls1) with (map wlayer_of ls0); [reflexivity|].
    apply nth_error_ext_len; [rewrite !map_length; lia|]. intros i x y Hx Hy.
    apply map_nth_inv in Hx. destruct Hx as (l0 & Hl0 & <-). apply map_nth_inv in Hy. destruct Hy as (l1 & Hl1 & <-).
    destruct (QN i l0 Hl0) as (l1' & E1 & S1 & A1 & _). replace l1' with l1 in * by congruence.
    symmetry. apply wlayer_at_rest; [exact S1|exact A1|]. destruct (HI i l0 Hl0) as (y & _ & ->). split; reflexivity. }
  destruct (Z.to_nat (x_max F)) as [|fuel] eqn:Ef; [lia|]. cbn [fdm_loop] in H |- *. rewrite EW in H |- *.
  destruct (fdm_pass F m lin wvl (map of_layer ls1)) as [[st|]|x] eqn:Ep; [| |discriminate].
  2:{ cbn [fr_end fdm_finish bind] in H. injection H as <- _ _. congruence. }
  destruct (weak_fpass F m lin wvl ls1 ls0 st e QL Hr HM Hnf Hpk Hsm HF0 QN EW Hstr0 Ep) as (HE & HL & HK).
  assert (Hbel : err_below (fs_error st) (x_tol F) = true).
  { rewrite HE. cbn. unfold Rltb. destruct (Rlt_dec 0 (x_tol F)); [reflexivity|contradiction]. }
  rewrite Hbel in H |- *. cbn [fr_end fr_passes fdm_finish bind length] in H |- *.
  assert (Hn2 : fs_layers st <> []) by (intros Q; rewrite Q in HL; destruct ls0; [congruence|discriminate]).
  destruct (last_some _ Hn2) as [b Hb]. rewrite Hb in H.
  destruct (fset_maxs m (length (fs_layers st)) wvl lin 0 (removelast (fs_layers st))) as [u|] eqn:Eu; [|discriminate]. cbn [bind] in H.
  injection H as <- <- <-. split; [reflexivity|]. split; [reflexivity|]. split; [reflexivity|].
  destruct (fset_maxs_nth _ _ _ _ _ _ _ Eu) as [M1 M2]. pose proof (length_removelast _ _ Hb) as R.
  split; [rewrite app_length; cbn; lia|]. intros i l0 Hi.
  destruct (HK i (freset l0)) as (l & E1 & (S1 & S2 & _ & _) & K); [now apply map_nth_error|].
  assert (Hil : (i < length ls)%nat) by (apply nth_error_Some; congruence).
  destruct (Nat.eq_dec i (length (fs_layers st) - 1)) as [->|Ni].
  - exists l. rewrite <- last_opt_nth in E1. rewrite nth_error_app2 by lia.
    replace (length (fs_layers st) - 1 - length u)%nat with 0%nat by lia. cbn [nth_error].
    split; [congruence|]. split; [exact S1|]. split; [exact S2|exact K].
  - rewrite <- nth_removelast_lt in E1 by lia. destruct (M2 i l E1) as (mx & _ & E2). exists (fset_max l mx).
    rewrite nth_error_app1 by (apply nth_error_Some; congruence). split; [exact E2|]. split; [exact S1|]. split; [exact S2|exact K].
Qed.

(** An example: a layer whose curves begin at a strain of 0.01. *)
Definition wd_soil : soil :=
  mkSoil 0 EmptyString GRAVITY (Some (modulus_curve 1 [1e-2; 1e-1] [1; 0.1])) (DCurve (damping_curve 2 [1e-2; 1e-1] [0; 0.1])).
Definition wd_layer : layer := layer_make wd_soil 10 200 0.
Definition wd_site : list layer := [wd_layer; stiff_layer].
Lemma wd_table v w : good_table [1e-2; 1e-1] [v; w].
Proof. split; [reflexivity|]. split; [discriminate|]. split; repeat constructor; lra. Qed.
Lemma wd_below l : In l wd_site -> unaffected_below (l_soil l) 1e-2.
Proof.
  intros [<-|[<-|[]]]; split; intros c H; try discriminate; cbn in H; injection H as <-; exists 1e-2.
  - split; [|lra]. split; [apply wd_table|]. split; [now split|]. cbn; lra.
  - exists 0. split; [|lra]. split; [apply wd_table|]. split; [now split|]. cbn; lra.
Qed.
Lemma wd_physical : List.Forall physical wd_site.
Proof.
  unfold wd_site. constructor; [|constructor; [|constructor]];
    unfold physical, positive_modulus, wd_layer, stiff_layer, wd_soil, stiff_soil, layer_make, layer_reset,
      modulus_curve, damping_curve, mod_reduc_limits, damping_limits, GRAVITY; cbn; repeat split; lra.
Qed.
Lemma wd_vel : wl_vel (wlayer_of wd_layer) = RtoC 200.
Proof.
  cbn [wlayer_of wl_vel]. unfold comp_shear_vel, comp_shear_mod, COMP_MODULUS_MODEL.
  change (shear_mod wd_layer) with (initial_shear_mod wd_layer).
  replace (initial_shear_mod wd_layer) with 40000 by (unfold initial_shear_mod, density; cbn; field; exact g_ne).
  change (damping wd_layer) with 0.
  unfold density; cbn [wd_layer layer_make layer_reset l_soil s_unit_wt wd_soil].
  rewrite real_vel by lra. apply f_equal. replace 40000 with (200 * 200) by lra. apply sqrt_square. lra.
Qed.
Lemma wd_estimate l : In l wd_site -> (m_pgv soft_motion / 100) / l_vs l <= 1e-2.
Proof.
  intros H. replace (l_vs l) with 200 by (destruct H as [<-|[<-|[]]]; reflexivity).
  pose proof soft_est as E. change (l_vs soft_layer) with 200 in E. rewrite E. lra.
Qed.
Lemma wd_strain wv l mx : le_call soft_motion true wd_site = Ok wv -> nth_error wd_site 0 = Some l ->
  calc_strain_max soft_motion 2 wv soft_input 0 l = Ok mx -> 0.65 * mx <= 1e-2.
Proof.
  intros Ew E H. injection E as <-. change (le_call soft_motion true wd_site) with (calc_waves soft_motion wd_site) in Ew.
  unfold calc_strain_max in H. change (l_thick wd_layer) with 10 in H. rewrite (one_strain_tf wd_layer stiff_layer wv wd_vel Ew) in H.
  cbn [bind m_peak soft_motion sinusoid map fold_right] in H. injection H as <-.
  destruct dc_tf_pos as [HT HS]. rewrite Cmod_R, Rabs_pos_eq, Rmax_left by lra. lra.
Qed.
Lemma wd_run : exists wv stop ls',
  le_call soft_motion true (map f_layer (map of_layer wd_site)) = Ok wv /\ stop <> NotFinite /\
  (forall i l mx, nth_error (map of_layer wd_site) i = Some l -> (i < 2 - 1)%nat ->
     calc_strain_max soft_motion 2 wv soft_input i (f_layer l) = Ok mx -> x_ratio (dc_fdm ZR15 1) * mx <= 1e-2) /\
  fr_end (fdm_call (dc_fdm ZR15 1) dc_motion soft_input true (map of_layer wd_site)) = Ok (stop, ls', wv).
Proof.
  set (F := dc_fdm ZR15 1).
  assert (HS : List.Forall sound wd_site).
  { pose proof wd_physical as H. rewrite Forall_forall in H. apply Forall_forall. intros x Hx.
    assert (E : x = layer_reset x) by (destruct Hx as [<-|[<-|[]]]; reflexivity). rewrite E. now apply reset_sound', H. }
  destruct (waves_sound soft_motion wd_site) as [wv Ew]; [discriminate|exact HS|exact soft_clear|].
  assert (Hle : le_call soft_motion true wd_site = Ok wv) by exact Ew.
  assert (HF : forall i l, nth_error wd_site i = Some l -> unaffected_below (l_soil l) 1e-2).
  { intros i l Hi. apply wd_below. now apply nth_error_In with i. }
  assert (HE : forall i l, nth_error wd_site i = Some l -> (m_pgv soft_motion / 100) / l_vs l <= 1e-2).
  { intros i l Hi. apply wd_estimate. now apply nth_error_In with i. }
  assert (HT : forall i l mx, nth_error wd_site i = Some l -> (i < length wd_site - 1)%nat ->
     calc_strain_max soft_motion (length wd_site) wv soft_input i l = Ok mx -> e_ratio (estimator F) * mx <= 1e-2).
  { intros i l mx Hi Hlt Hmx. cbn in Hlt. replace i with 0%nat in * by lia. exact (wd_strain wv l mx Hle Hi Hmx). }
  assert (Hne : wd_site <> []) by discriminate.
  assert (Htl : 0 < e_tol (estimator F)) by (cbn; lra).
  assert (Hmx : (0 < e_max (estimator F))%Z) by (cbn; lia).
  assert (HI : (loc_index soft_input < length wd_site)%nat) by (cbn; lia).
  assert (HW : loc_field soft_input <> Within) by discriminate.
  assert (HPk : answers soft_motion) by (intros tf _; now eexists).
  destruct (eql_weak_physical (estimator F) soft_motion soft_input wd_site wv (fun _ => 1e-2) Hne wd_physical soft_clear HF Htl Hmx HI HW HPk
    ltac:(intros tf; discriminate) Hle HE HT) as (t & ls1 & Ec & _).
  destruct (eql_weak_rest (estimator F) soft_motion soft_input wd_site wv (fun _ => 1e-2) Hne HF Htl Hmx Hle HE HT t _ Ec)
    as [(x & Q & _)|(_ & lsx & Q & QL & QN)]; [discriminate|]. injection Q as <-.
  assert (EW1 : calc_waves soft_motion ls1 = Ok wv).
  { rewrite <- Ew. unfold calc_waves. f_equal.
    replace (map wlayer_of ls1) with (map wlayer_of wd_site); [reflexivity|].
    apply nth_error_ext_len; [rewrite !map_length; lia|]. intros i x y Hx Hy.
    apply map_nth_inv in Hx. destruct Hx as (l0 & Hl0 & <-). apply map_nth_inv in Hy. destruct Hy as (l1 & Hl1 & <-).
    destruct (QN i l0 Hl0) as (l1' & E & S1 & A1 & _). replace l1' with l1 in * by congruence.
    symmetry. apply wlayer_at_rest; [exact S1|exact A1|]. apply nth_error_In in Hl0. destruct Hl0 as [<-|[<-|[]]]; split; reflexivity. }
  destruct ls1 as [|a [|b [|c ls1]]]; try discriminate QL. clear QL.
  destruct (QN 0%nat _ eq_refl) as (a' & Ea & (A1 & A2 & A3 & A4) & [R1 R2] & _). injection Ea as <-.
  change (l_thick wd_layer) with 10 in A2.
  pose proof (one_strain_tf _ _ wv wd_vel Ew) as Et. destruct dc_tf_pos as [HT1 HT2]. pose proof dc_eff_small as Heff.
  assert (ES : fdm_strain F dc_motion 2 wv soft_input 0 (of_layer a) = Ok (Some [dc_eff])).
  { unfold fdm_strain. cbn [fm_motion dc_motion fm_amps fm_hz f_layer of_layer]. rewrite A2, Et. cbn [bind].
    unfold np_mul. cbn [length Nat.eqb]. cbn [Averages.map2 combine map fst snd bind].
    cbn [m_peak soft_motion sinusoid map fold_right bind].
    replace (Cmult (RtoC dc_tf) (RtoC 1)) with (RtoC dc_tf) by ring.
    rewrite Cmod_R, Rabs_pos_eq by lra. rewrite Rmax_left by lra.
    rewrite spectrum_other by (intros; apply zr15_other). unfold scaled_by_max. cbn [np_max fold_left bind map_opt].
    unfold div_opt, Reqb. destruct (Req_EM_T dc_tf 0); [lra|]. cbn [opt_bind]. do 3 f_equal.
    change (x_ratio F) with 0.65. fold dc_eff. field. lra. }
  assert (El : flimit (x_limit F) [dc_eff] = ([dc_eff], false)).
  { unfold flimit. cbn [x_limit F dc_fdm]. unfold Reqb. destruct (Req_EM_T 0.05 0); [lra|]. cbn [existsb].
    unfold Rltb. destruct (Rlt_dec 0.05 dc_eff); [lra|]. reflexivity. }
  assert (HU : unaffected_below (l_soil wd_layer) 1e-2) by (apply wd_below; now left).
  destruct (weak_fset wd_layer (of_layer a) 1e-2 [dc_eff] HU ltac:(repeat constructor; lra) A1 A3 A4) as (W1 & W2 & W3 & _).
  destruct (W3 ltac:(discriminate)) as [N1 N2]. cbn [of_layer f_layer] in W1, W2, N1, N2.
  assert (EI : initial_shear_mod a = initial_shear_mod wd_layer) by (unfold initial_shear_mod; now rewrite A1, A3).
  assert (EP : exists e, fdm_pass F dc_motion soft_input wv [of_layer a; of_layer b] = Ok (Some (mkFStep [fset_strain (of_layer a) [dc_eff]; of_layer b] false e))).
  { unfold fdm_pass. cbn [length removelast last_opt fupdate]. rewrite ES. cbn [bind]. rewrite El. cbn [bind app].
    assert (E1 : fmax_error (fset_strain (of_layer a) [dc_eff]) = Ok (EFin (Rmax 0 0))).
    { unfold fmax_error. cbn [fset_strain f_G f_D of_layer f_layer fiter_set of_iter fi_value].
      unfold shear_mod, damping in R1, R2. unfold fiter_set; cbn [of_iter fi_value]. rewrite R1, EI, R2, A4.
      now rewrite (unchanged_error _ _ W1 N1), (unchanged_error _ _ W2 N2). }
    destruct (scalar_error b) as [e2 E2]. cbn [fmax_errors]. rewrite E1, E2. cbn [bind]. now eexists. }
  destruct EP as [e EP].
  exists wv. unfold fdm_call. change (map freset (map of_layer wd_site)) with wd_site. cbn [fm_motion dc_motion]. rewrite Ew, Ec.
  change (Z.to_nat (x_max F)) with 1%nat. cbn [fdm_loop map]. change (fm_motion dc_motion) with soft_motion.
  change [of_layer a; of_layer b] with (map of_layer [a; b]). rewrite fwaves_of, EW1. cbn [map]. rewrite EP. cbn [fs_error fs_limited fs_layers].
  assert (EM : exists upd, fset_maxs dc_motion 2 wv soft_input 0 [fset_strain (of_layer a) [dc_eff]] = Ok upd).
  { cbn [fset_maxs]. unfold calc_strain_max. cbn [f_layer fset_strain of_layer fm_motion dc_motion]. rewrite A2, Et. cbn [bind m_peak soft_motion sinusoid]. now eexists. }
  destruct EM as [upd EM].
  assert (HX : forall i l mx, nth_error [of_layer wd_layer; of_layer stiff_layer] i = Some l -> (i < 2 - 1)%nat ->
     calc_strain_max soft_motion 2 wv soft_input i (f_layer l) = Ok mx -> x_ratio F * mx <= 1e-2).
  { intros i l mx Hi Hlt Hm. replace i with 0%nat in * by lia. injection Hi as <-. exact (wd_strain wv wd_layer mx Hle eq_refl Hm). }
  destruct (err_below e (x_tol F)).
  - exists FConverged. cbn [fdm_finish bind length removelast]. rewrite EM. cbn [bind fr_passes fr_end].
    eexists. split; [exact Hle|]. split; [discriminate|]. split; [exact HX|reflexivity].
  - exists FExhausted. cbn [andb fst snd fdm_finish bind length removelast]. rewrite EM. cbn [bind fr_passes fr_end].
    eexists. split; [exact Hle|]. split; [discriminate|]. split; [exact HX|reflexivity].
Qed.
Lemma wd_others : map of_layer wd_site <> [] /\
  (forall i l, nth_error (map of_layer wd_site) i = Some l -> unaffected_below (l_soil (f_layer l)) 1e-2) /\
  0 < x_tol (dc_fdm ZR15 1) /\ (0 < x_max (dc_fdm ZR15 1))%Z /\ 0 <= x_ratio (dc_fdm ZR15 1) /\ matched (dc_fdm ZR15 1) dc_motion /\
  m_freqs (fm_motion dc_motion) <> [] /\
  (forall tf p, m_peak (fm_motion dc_motion) tf = Ok p -> 0 <= p) /\
  (forall bw fs xs, List.Forall (fun x => 0 <= x) xs -> List.Forall (fun x => 0 <= x) (x_smooth (dc_fdm ZR15 1) bw fs xs)) /\
  (forall i l, nth_error (map of_layer wd_site) i = Some l -> (m_pgv (fm_motion dc_motion) / 100) / l_vs (f_layer l) <= 1e-2).
Proof.
  assert (HI : forall i l, nth_error (map of_layer wd_site) i = Some l -> In (f_layer l) wd_site).
  { intros i l H. apply map_nth_inv in H. destruct H as (x & Hx & <-). now apply nth_error_In with i. }
  split; [discriminate|]. split; [intros i l H; apply wd_below; now apply HI with i|].
  split; [cbn; lra|]. split; [cbn; lia|]. split; [cbn; lra|]. split; [apply dc_matched|]. split; [discriminate|].
  split; [|split; [intros bw fs xs H; exact H|intros i l H; apply wd_estimate; now apply HI with i]].
  intros tf p H. cbn in H. injection H as <-. apply Rmult_le_pos; [apply Rlt_le, Rdiv_lt_0_compat; [lra|unfold GRAVITY; lra]|].
  induction tf as [|z tf IH]; cbn [map fold_right]; [lra|]. apply Rle_trans with (Cmod z); [apply Cmod_ge_0|apply Rmax_l].
Qed.
