(** Linear soils in the frequency-dependent calculator, and its damping profile. *)
From Verif Require Import Common Proof.CommonFacts Model.Curve Model.Layer Model.Waves Model.Eql Model.Motion Model.Text
  Model.Output Model.Fdm Spec.LayerSpec Spec.EqlSpec Spec.FdmSpec Proof.LayerFacts Proof.EqlFacts Proof.EqlProps Proof.EqlResults
  Proof.EqlPhysical Proof.FdmFacts Proof.FdmProps Proof.FdmResults.
From Coq Require Import List.
From Coquelicot Require Import Complex.
Local Open Scope R_scope.

(** ** C109 *)
Definition steady_layer (l0 : layer) (l : flayer) : Prop :=
  fi_value (f_G l) = Sc (initial_shear_mod l0) /\ fi_value (f_D l) = Sc (l_dmin l0) /\
  l_soil (f_layer l) = l_soil l0 /\ l_thick (f_layer l) = l_thick l0.
Definition steady (ls0 : list layer) (h : list flayer) : Prop :=
  length h = length ls0 /\
  forall i l0, nth_error ls0 i = Some l0 -> exists l, nth_error h i = Some l /\ steady_layer l0 l /\
    ((i < length ls0 - 1)%nat -> l_vs (f_layer l) = l_vs l0 /\ l_dmin (f_layer l) = l_dmin l0).

Lemma steady_waves m ls0 h : Forall at_rest ls0 -> steady ls0 h -> fcalc_waves m h = calc_waves m ls0.
Proof.
  intros HA [HL HN].
  assert (HW : forall k, mapM (fwlayer k) h = Ok (map wlayer_of ls0)).
  { intros k. revert h HL HN. induction ls0 as [|l0 ls0 IH]; intros [|l h] HL HN; try discriminate; [reflexivity|].
    cbn [mapM map]. destruct (HN 0%nat l0 eq_refl) as (l' & E & (G1 & G2 & G3 & G4) & _). injection E as <-.
    unfold fwlayer at 1. rewrite G1, G2. cbn [at_freq bind]. inversion HA as [|? ? [A1 A2] HA']; subst.
    rewrite IH.
    - cbn [bind]. unfold wlayer_of, comp_shear_vel, comp_shear_mod. now rewrite A1, A2, G3, G4.
    - exact HA'.
    - cbn in HL. lia.
    - intros i x Hx. destruct (HN (S i) x Hx) as (y & E & B & C). exists y. split; [exact E|]. split; [exact B|].
      intros Hi. apply C. cbn [length]. lia. }
  unfold fcalc_waves, calc_waves. generalize (m_freqs m) as fs. intros fs.
  assert (HG : forall a, mapM (fun kw : nat * R => bind (mapM (fwlayer (fst kw)) h) (calc_waves_numba (snd kw)))
      (combine (seq a (length fs)) fs) = mapM (fun w => calc_waves_numba w (map wlayer_of ls0)) fs).
  { induction fs as [|w fs IH]; intros a; [reflexivity|]. cbn [length seq combine mapM fst snd].
    rewrite HW. cbn [bind]. destruct (calc_waves_numba w _); [|reflexivity]. cbn [bind]. now rewrite IH. }
  exact (HG 0%nat).
Qed.

Lemma steady_set l0 l ss : is_nonlinear (l_soil l0) = false -> steady_layer l0 l ->
  l_vs (f_layer l) = l_vs l0 -> l_dmin (f_layer l) = l_dmin l0 -> steady_layer l0 (fset_strain l ss).
Proof.
  intros HL (G1 & G2 & G3 & G4) V D. apply linear_soil in HL. destruct HL as [H1 [d H2]].
  unfold steady_layer, fset_strain, fcompute_mod, fcompute_damping; cbn [f_G f_D f_layer fi_value fiter_set].
  rewrite G3, H1, H2, D. unfold initial_shear_mod. rewrite G3, V, Rmult_1_r, Rplus_0_l. now repeat split.
Qed.
Lemma steady_pass F m lin wv ls0 h st : Forall (fun l => is_nonlinear (l_soil l) = false) ls0 -> steady ls0 h ->
  fdm_pass F m lin wv h = Ok (Some st) -> steady ls0 (fs_layers st).
Proof.
  intros HF [HL HN] Ep. destruct (fpass_nonempty _ _ _ _ _ _ Ep) as [Hne _]. destruct (last_some h Hne) as [b Hb].
  destruct (fpass_nth _ _ _ _ _ _ _ Hb Ep) as (L1 & L2 & L3). split; [congruence|].
  intros i l0 Hi. destruct (HN i l0 Hi) as (l & E & S1 & S2).
  assert (Hil : (i < length ls0)%nat) by (apply nth_error_Some; congruence).
  destruct (Nat.eq_dec i (length h - 1)) as [->|Ni].
  - exists l. rewrite <- L1, <- last_opt_nth, L2. rewrite <- last_opt_nth in E. split; [congruence|]. split; [exact S1|]. lia.
  - assert (Hi' : (i < length ls0 - 1)%nat) by lia. destruct (S2 Hi') as [V D].
    rewrite <- nth_removelast_lt in E by lia. destruct (L3 i l E) as (pk & used & _ & _ & E3).
    exists (fset_strain l used). split; [now apply nth_removelast|]. split; [|intros _; now split].
    apply steady_set; try assumption. rewrite Forall_forall in HF. apply HF. now apply nth_error_In with i.
Qed.
Lemma steady_loop F m lin ls0 wvl : Forall (fun l => is_nonlinear (l_soil l) = false) ls0 -> Forall at_rest ls0 ->
  calc_waves (fm_motion m) ls0 = Ok wvl ->
  forall fuel it lim h t stop h' wv, steady ls0 h -> fdm_loop F m lin fuel it lim h wvl = (t, Ok (stop, h', wv)) ->
  wv = wvl /\ steady ls0 h'.
Proof.
  intros HF HA HW. induction fuel as [|fuel IH]; intros it lim h t stop h' wv HS H; cbn [fdm_loop] in H.
  { injection H as _ _ <- <-. now split. }
  rewrite (steady_waves _ _ _ HA HS), HW in H.
  destruct (fdm_pass F m lin wvl h) as [[st|]|e] eqn:Ep; [| |discriminate].
  2:{ injection H as _ _ <- <-. now split. }
  pose proof (steady_pass _ _ _ _ _ _ _ HF HS Ep) as HS'.
  destruct (err_below _ _); [injection H as _ _ <- <-; now split|].
  destruct (_ && _)%bool; [discriminate|].
  destruct (fdm_loop F m lin fuel _ _ (fs_layers st) wvl) as [t' r'] eqn:El. cbn [fst snd] in H. injection H as _ ->.
  exact (IH _ _ _ _ _ _ _ HS' El).
Qed.
Lemma fdm_linear F m lin ls wvl stop ls' wv : ls <> [] ->
  Forall (fun l => is_nonlinear (l_soil (f_layer l)) = false) ls ->
  calc_waves (fm_motion m) (map freset ls) = Ok wvl ->
  fr_end (fdm_call F m lin true ls) = Ok (stop, ls', wv) ->
  wv = wvl /\ length ls' = length ls /\
  forall i l0, nth_error ls i = Some l0 -> exists l, nth_error ls' i = Some l /\
    fi_value (f_G l) = Sc (initial_shear_mod (f_layer l0)) /\ fi_value (f_D l) = Sc (l_dmin (f_layer l0)).
Proof.
  intros Hne HF HW H. set (ls0 := map freset ls) in *.
  assert (Hne0 : ls0 <> []) by (unfold ls0; now destruct ls).
  assert (HF0 : Forall (fun l => is_nonlinear (l_soil l) = false) ls0).
  { apply Forall_forall. intros x Hx. apply in_map_iff in Hx. destruct Hx as (l & <- & Hl). rewrite Forall_forall in HF. exact (HF l Hl). }
  assert (HA : Forall at_rest ls0).
  { apply Forall_forall. intros x Hx. apply in_map_iff in Hx. destruct Hx as (l & <- & Hl). split; reflexivity. }
  unfold fdm_call in H. fold ls0 in H. rewrite HW in H.
  destruct (eql_call (estimator F) (fm_motion m) lin true ls0) as [est r] eqn:E.
  destruct r as [[[st1 ls1] wv1]|e]; [|discriminate].
  destruct (fdm_loop F m lin (Z.to_nat (x_max F)) 0 (-2) (map of_layer ls1) wvl) as [t out] eqn:El. cbn [fr_end] in H.
  assert (Hmx : (0 < e_max (estimator F))%Z) by (cbn; lia).
  assert (Htl : 0 < e_tol (estimator F)) by (cbn; lra).
  assert (Hle : le_call (fm_motion m) true ls0 = Ok wvl).
  { unfold le_call. rewrite <- HW. unfold ls0. rewrite map_map. reflexivity. }
  pose proof (estimate_passes (estimator F) _ _ _ _ _ _ _ Hmx E) as Ht.
  destruct (eql_compatible (estimator F) (fm_motion m) lin true ls0 est st1 ls1 wv1 Hne0 (fun H => False_ind _ (diff_true_false H)) Ht E) as [_ HC].
  destruct (eql_linear (estimator F) (fm_motion m) lin ls0 wvl Hne0 HF0 Htl Hmx Hle est _ E) as [(e & Q & _)|(_ & lsx & Q & QL & QN)]; [discriminate|].
  injection Q as -> -> ->.
  assert (HS : steady ls0 (map of_layer lsx)).
  { split; [now rewrite map_length|]. intros i l0 Hi. destruct (QN i l0 Hi) as (l & N & S1 & S2 & S3 & S4).
    exists (of_layer l). split; [now apply map_nth_error|]. split.
    - unfold steady_layer. cbn [of_layer f_G f_D f_layer of_iter fi_value]. unfold shear_mod, damping in *. now rewrite S3, S4, S1, S2.
    - intros Hlt. destruct (HC i l0 Hlt Hi) as (l' & mx & N' & _ & _ & V & D & _). replace l' with l in * by congruence. now split. }
  destruct out as [[[stop2 ls2] wv2]|e]; [|discriminate].
  destruct (steady_loop F m lin ls0 wvl HF0 HA HW _ _ _ _ _ _ _ _ HS El) as [-> HS2].
  assert (HS3 : wv = wvl /\ steady ls0 ls').
  { unfold fdm_finish in H. cbn [bind] in H. destruct stop2.
    3:{ injection H as <- <- <-. now split. }
    all: destruct HS2 as [L2 N2]; assert (Hn2 : ls2 <> []) by (intros ->; destruct ls0; [congruence|discriminate]);
      destruct (last_some ls2 Hn2) as [b Hb]; rewrite Hb in H;
      destruct (fset_maxs m (length ls2) wvl lin 0 (removelast ls2)) as [u|] eqn:Eu; [|discriminate]; cbn [bind] in H;
      injection H as <- <- <-; split; [reflexivity|];
      destruct (fset_maxs_nth _ _ _ _ _ _ _ Eu) as [M1 M2]; pose proof (length_removelast _ _ Hb) as R;
      split; [rewrite app_length; cbn; lia|]; intros i l0 Hi; destruct (N2 i l0 Hi) as (l & E1 & S1 & S2);
      assert (Hil : (i < length ls0)%nat) by (apply nth_error_Some; congruence);
      (destruct (Nat.eq_dec i (length ls2 - 1)) as [->|Ni];
       [exists l; rewrite <- last_opt_nth in E1; rewrite nth_error_app2 by lia;
        replace (length ls2 - 1 - length u)%nat with 0%nat by lia; cbn [nth_error]; split; [congruence|]; split; [exact S1|lia]
       |rewrite <- nth_removelast_lt in E1 by lia; destruct (M2 i l E1) as (mx & _ & E2); exists (fset_max l mx);
        rewrite nth_error_app1 by (apply nth_error_Some; congruence); split; [exact E2|]; split; [exact S1|exact S2]]). }
  destruct HS3 as [-> [HL HN]]. split; [reflexivity|]. unfold ls0 in HL. rewrite map_length in HL. split; [exact HL|].
  intros i l0 Hi. destruct (HN i (freset l0)) as (l & N & (G1 & G2 & _) & _).
  { now apply map_nth_error. }
  exists l. split; [exact N|]. split; [exact G1|exact G2].
Qed.
