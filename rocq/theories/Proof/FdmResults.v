(** What a frequency-dependent run leaves behind. *)
From Coq Require Import Ascii.
From Verif Require Import Common Proof.CommonFacts Model.Curve Model.Layer Model.Waves Model.Eql Model.Motion Model.Text
  Model.Output Model.Fdm Spec.LayerSpec Spec.EqlSpec Spec.FdmSpec Proof.LayerFacts Proof.EqlFacts Proof.EqlProps Proof.EqlResults
  Proof.EqlPhysical Proof.FdmFacts Proof.FdmProps.
From Coq Require Import List.
From Coquelicot Require Import Complex.
Local Open Scope R_scope.

(** ** Curves at an array of strains *)
Lemma curve_call_any c s s' v : curve_call c s = Ok v -> exists v', curve_call c s' = Ok v'.
Proof.
  unfold curve_call. destruct (Nat.eqb _ _); [|discriminate]. unfold interp1d_call.
  destruct (ln_table c) as [|[x0 y0] tab]; [discriminate|].
  destruct (last_opt ((x0, y0) :: tab)) as [[x1 y1]|]; [|discriminate].
  destruct (sort_pts ((x0, y0) :: tab)) as [|[x2 y2] srt]; [discriminate|].
  destruct (last_opt ((x2, y2) :: srt)) as [[x3 y3]|]; [|discriminate]. now eexists.
Qed.
Lemma curve_array_spec c ss :
  (exists vs, curve_array c ss = Ok vs /\ length vs = length ss /\
     forall k s, nth_error ss k = Some s -> exists v, curve_call c s = Ok v /\ nth_error vs k = Some v) \/
  (exists e, curve_array c ss = Err e /\ forall s, exists e', curve_call c s = Err e').
Proof.
  unfold curve_array. destruct (curve_call c 1) as [v1|e] eqn:E; cbn [bind].
  - left. destruct (mapM_ok (curve_call c) ss) as [vs Hv].
    { intros s _. destruct (curve_call_any c 1 s v1 E) as [v Hv]. now exists v. }
    exists vs. split; [exact Hv|]. exact (mapM_nth _ _ _ Hv).
  - right. exists e. split; [reflexivity|]. intros s. destruct (curve_call c s) as [v|e'] eqn:E2; [|now exists e'].
    destruct (curve_call_any c s 1 v E2) as [v' H]. congruence.
Qed.

Lemma fmod_at l ss k s : nth_error ss k = Some s -> at_freq (fcompute_mod l ss) k = Some (compute_mod l s).
Proof.
  intros H. unfold fcompute_mod, compute_mod. destruct (s_mod (l_soil l)) as [c|]; [|reflexivity].
  destruct (curve_array_spec c ss) as [(vs & -> & _ & HN)|(e & -> & HE)].
  - destruct (HN k s H) as (v & -> & Hv). cbn [at_freq]. now apply map_nth_error.
  - destruct (HE s) as [e' ->]. reflexivity.
Qed.
Lemma fdamp_at l ss k s : nth_error ss k = Some s -> at_freq (fcompute_damping l ss) k = Some (compute_damping l s).
Proof.
  intros H. unfold fcompute_damping, compute_damping, soil_damping_min.
  destruct (s_damp (l_soil l)) as [d|c]; [cbn [at_freq]; f_equal; lra|].
  destruct (curve_array_spec c ss) as [(vs & -> & _ & HN)|(e & -> & HE)].
  - destruct (HN k s H) as (v & -> & Hv). destruct (c_values c) as [|v0 rest]; [reflexivity|]. cbn [at_freq].
    now apply (map_nth_error (fun d => d - v0 + l_dmin l)).
  - destruct (HE s) as [e' ->]. reflexivity.
Qed.
Lemma fset_compatible l ss : compatible (fset_strain l ss).
Proof.
  intros k s H. cbn [fset_strain f_strain f_G f_D f_layer at_freq fi_value fiter_set] in *.
  rewrite (fmod_at _ _ _ _ H), (fdamp_at _ _ _ _ H), compute_mod_spec, compute_damping_spec. now split.
Qed.

(** ** Layers along the run *)
Definition fkept (h ls : list flayer) : Prop :=
  length h = length ls /\ last_opt h = last_opt ls /\
  forall i l, nth_error ls i = Some l -> exists l', nth_error h i = Some l' /\ f_layer l' = f_layer l.
Lemma fkept_refl ls : fkept ls ls.
Proof. split; [reflexivity|]. split; [reflexivity|]. intros i l H. now exists l. Qed.
Lemma fkept_trans a b c : fkept a b -> fkept b c -> fkept a c.
Proof.
  intros (A1 & A2 & A3) (B1 & B2 & B3). split; [congruence|]. split; [congruence|].
  intros i l Hl. destruct (B3 i l Hl) as (l1 & E1 & S1). destruct (A3 i l1 E1) as (l2 & E2 & S2).
  exists l2. split; [exact E2|congruence].
Qed.
Lemma fpass_kept F m lin waves ls st : fdm_pass F m lin waves ls = Ok (Some st) -> fkept (fs_layers st) ls.
Proof.
  intros H. destruct (fpass_nonempty _ _ _ _ _ _ H) as [Hne _]. destruct (last_some ls Hne) as [b Hb].
  destruct (fpass_nth _ _ _ _ _ _ _ Hb H) as (L1 & L2 & L3).
  split; [exact L1|]. split; [congruence|]. intros i l Hl.
  destruct (Nat.eq_dec i (length ls - 1)) as [->|Ni].
  - exists b. rewrite <- last_opt_nth in Hl. rewrite <- L1, <- last_opt_nth. split; [exact L2|congruence].
  - assert (Hi : (i < length ls)%nat) by (apply nth_error_Some; congruence).
    rewrite <- nth_removelast_lt in Hl by lia.
    destruct (L3 i l Hl) as (pk & used & _ & _ & E). exists (fset_strain l used).
    split; [now apply nth_removelast|reflexivity].
Qed.
Lemma fpasses_kept F m lin t : forall ls, fpasses F m lin ls t -> forall h, In h (fhistory ls t) -> fkept h ls.
Proof.
  induction t as [|s t IH]; intros ls HP h Hh.
  - destruct Hh as [<-|[]]. apply fkept_refl.
  - destruct HP as (wv & _ & Ep & HP). destruct Hh as [<-|Hh]; [apply fkept_refl|].
    eapply fkept_trans; [|exact (fpass_kept _ _ _ _ _ _ Ep)]. exact (IH (fs_layers s) HP h Hh).
Qed.

(** The layers the first pass starts from describe the site that was given. *)
Lemma estimate_passes P m lin ls t stop ls' wv : (0 < e_max P)%Z -> eql_call P m lin true ls = (t, Ok (stop, ls', wv)) -> t <> [].
Proof.
  intros HP H. pose proof (eql_stops _ _ _ _ _ _ _ H) as [_ HS]. destruct stop.
  - destruct HS as (t0 & st & -> & _). now destruct t0.
  - destruct HS as [HL _]. intros ->. cbn in HL. lia.
Qed.
Lemma start_same F m lin (reset : bool) ls start wv0 : ls <> [] ->
  (if reset then calc_waves (fm_motion m) (map freset ls) = Ok wv0 /\ exists est stop ls1 wv1,
        eql_call (estimator F) (fm_motion m) lin true (map freset ls) = (est, Ok (stop, ls1, wv1)) /\
        fr_estimate (fdm_call F m lin reset ls) = est /\ start = map of_layer ls1
     else start = ls /\ fcalc_waves (fm_motion m) ls = Ok wv0) ->
  length start = length ls /\
  forall i l0, (i < length ls - 1)%nat -> nth_error ls i = Some l0 -> exists l, nth_error start i = Some l /\ fsame l l0.
Proof.
  intros Hne H. destruct reset.
  - destruct H as (_ & est & stop & ls1 & wv1 & E & _ & ->).
    assert (Hne' : map freset ls <> []) by (now destruct ls).
    assert (Ht : est <> []) by (apply (estimate_passes (estimator F) (fm_motion m) lin (map freset ls) est stop ls1 wv1); [cbn; lia|exact E]).
    destruct (eql_compatible (estimator F) (fm_motion m) lin true (map freset ls) est stop ls1 wv1 Hne' (fun H => False_ind _ (diff_true_false H)) Ht E) as [HL HC].
    rewrite map_length in HL, HC. rewrite map_length. split; [exact HL|]. intros i l0 Hi Hl0.
    destruct (HC i (freset l0) Hi) as (l & mx & N & S1 & S2 & S3 & S4 & _).
    { now apply map_nth_error. }
    exists (of_layer l). split; [now apply map_nth_error|]. now repeat split.
  - destruct H as [-> _]. split; [reflexivity|]. intros i l0 _ H. exists l0. split; [exact H|]. now repeat split.
Qed.

(** The end of a run that made at least one pass. *)
Lemma fcall_end F m lin reset ls stop ls' wv : ls <> [] -> stop <> NotFinite ->
  fr_passes (fdm_call F m lin reset ls) <> [] ->
  fr_end (fdm_call F m lin reset ls) = Ok (stop, ls', wv) ->
  exists start lsp st upd b,
    length start = length ls /\
    (forall i (l0 : flayer), (i < length ls - 1)%nat -> nth_error ls i = Some l0 -> exists l : flayer, nth_error start i = Some l /\ fsame l l0) /\
    last_opt (fr_passes (fdm_call F m lin reset ls)) = Some st /\ fkept lsp start /\
    fcalc_waves (fm_motion m) lsp = Ok wv /\ fdm_pass F m lin wv lsp = Ok (Some st) /\
    last_opt lsp = Some b /\
    fset_maxs m (length (fs_layers st)) wv lin 0 (removelast (fs_layers st)) = Ok upd /\
    ls' = upd ++ [b].
Proof.
  intros Hne HS Ht H.
  destruct (fcall_loop F m lin reset ls) as [(E & _)|(start & wv0 & out & El & Er & HR)]; [contradiction|].
  rewrite H in Er. destruct out as [[[stop2 ls2] wv2]|e]; [|discriminate].
  assert (HS2 : stop2 <> NotFinite). { intros ->. cbn in Er. injection Er as -> _ _. now apply HS. }
  destruct (start_same F m lin reset ls start wv0 Hne HR) as [SL SS].
  destruct (floop_last _ _ _ _ _ _ _ _ _ _ _ _ HS2 El) as [(E & _)|(h0 & lsp & st & E1 & E2 & E3 & E4 & E5)]; [contradiction|].
  subst ls2. pose proof (floop_passes _ _ _ _ _ _ _ _ _ _ El) as HP.
  assert (K : fkept lsp start).
  { apply (fpasses_kept F m lin _ _ HP). rewrite E1. apply in_or_app. right. now left. }
  destruct (fpass_nonempty _ _ _ _ _ _ E5) as [Hlsp _]. destruct (last_some lsp Hlsp) as [b Hb].
  destruct (fpass_nth _ _ _ _ _ _ _ Hb E5) as (_ & L2 & _).
  unfold fdm_finish in Er. cbn [bind] in Er. rewrite L2 in Er.
  destruct (fset_maxs m (length (fs_layers st)) wv2 lin 0 (removelast (fs_layers st))) as [upd|e] eqn:Em.
  2:{ destruct stop2; try discriminate. contradiction. }
  cbn [bind] in Er. assert (EQ : Ok (stop, ls', wv) = Ok (stop2, upd ++ [b], wv2)) by (destruct stop2; [exact Er|exact Er|contradiction]).
  injection EQ as -> -> ->.
  exists start, lsp, st, upd, b. now repeat (split; [assumption|]).
Qed.

(** ** C106 *)
Lemma fdm_compatible F m lin reset ls stop ls' wv : ls <> [] -> stop <> NotFinite ->
  fr_passes (fdm_call F m lin reset ls) <> [] ->
  fr_end (fdm_call F m lin reset ls) = Ok (stop, ls', wv) ->
  length ls' = length ls /\ exists lsp, length lsp = length ls /\ fcalc_waves (fm_motion m) lsp = Ok wv /\
  forall i l0, (i < length ls - 1)%nat -> nth_error ls i = Some l0 ->
  exists l lp pk used, nth_error ls' i = Some l /\ nth_error lsp i = Some lp /\ fsame l l0 /\ fsame lp l0 /\
    strains_of F m (length ls) wv lin i (l_thick (f_layer l0)) pk used /\
    f_strain l = Ar used /\ l_smax (f_layer l) = Some pk /\ compatible l /\
    fi_prev (f_G l) = fi_value (f_G lp) /\ fi_prev (f_D l) = fi_value (f_D lp).
Proof.
  intros Hne HS Ht H.
  destruct (fcall_end F m lin reset ls stop ls' wv Hne HS Ht H)
    as (start & lsp & st & upd & b & SL & SS & E2 & (K1 & K2 & K3) & E4 & E5 & Hb & Es & ->).
  destruct (fpass_nth _ _ _ _ _ _ _ Hb E5) as (L1 & L2 & L3).
  destruct (fset_maxs_nth _ _ _ _ _ _ _ Es) as [M1 M2].
  pose proof (length_removelast _ _ L2) as R1. pose proof (length_removelast _ _ Hb) as R2.
  assert (HL : length lsp = length ls) by congruence.
  split; [rewrite app_length; cbn; lia|]. exists lsp. split; [exact HL|]. split; [exact E4|].
  intros i l0 Hi Hl0. destruct (SS i l0 Hi Hl0) as (l1 & N1 & S1). destruct (K3 i l1 N1) as (lp & Np & Sp).
  pose proof Np as Np'. rewrite <- nth_removelast_lt in Np by lia.
  destruct (L3 i lp Np) as (pk & used & A1 & A2 & A3).
  destruct (M2 i _ A3) as (mx & B1 & B2).
  assert (mx = pk).
  { assert (G : Ok mx = Ok pk); [|congruence]. rewrite <- B1, <- A2, L1. now apply strain_max_thick. }
  subst mx. exists (fset_max (fset_strain lp used) pk), lp, pk, used.
  split; [rewrite nth_error_app1 by (apply nth_error_Some; congruence); exact B2|]. split; [exact Np'|].
  assert (SP : fsame lp l0). { unfold fsame in *. rewrite Sp. exact S1. }
  split; [exact SP|]. split; [exact SP|].
  split. { destruct SP as (_ & T & _). rewrite HL, T in A1. exact A1. }
  split; [reflexivity|]. split; [reflexivity|]. split; [|split; reflexivity].
  exact (fset_compatible lp used).
Qed.

(** The change in the last pass. *)
Lemma frelative_small i x : frelative_error i = Ok (EFin x) -> Forall (fun v => 0 < v) (entries (fi_value i)) ->
  forall k a b, at_freq (fi_prev i) k = Some a -> at_freq (fi_value i) k = Some b -> pct a b <= x.
Proof.
  unfold frelative_error. destruct (zipv (fi_prev i) (fi_value i)) as [ps|] eqn:Ez; [|discriminate]. cbn [bind].
  intros H HP k a b Ha Hb.
  replace (forallb (fun v => Rltb 0 v) (entries (fi_value i))) with true in H.
  2:{ symmetry. apply forallb_forall. rewrite Forall_forall in HP. intros v Hv. unfold Rltb. destruct (Rlt_dec 0 v); [reflexivity|].
      elim n. now apply HP. }
  destruct (np_max _) as [e|] eqn:Em; [|discriminate]. cbn [bind] in H. injection H as <-.
  apply np_max_spec in Em. destruct Em as [_ Em]. rewrite Forall_forall in Em.
  assert (Hin : In (a, b) ps).
  { destruct (fi_prev i) as [p|ps0], (fi_value i) as [v|vs]; cbn [zipv at_freq] in *.
    - injection Ez as <-. injection Ha as <-. injection Hb as <-. now left.
    - injection Ez as <-. injection Ha as <-. apply in_map_iff. exists b. split; [reflexivity|]. now apply nth_error_In with k.
    - injection Ez as <-. injection Hb as <-. apply in_map_iff. exists a. split; [reflexivity|]. now apply nth_error_In with k.
    - destruct (Nat.eqb _ _); [|discriminate]. injection Ez as <-. clear -Ha Hb. revert vs k Ha Hb.
      induction ps0 as [|p ps0 IH]; intros [|v vs] [|k] Ha Hb; cbn in Ha, Hb |- *; try discriminate.
      + left. congruence.
      + right. exact (IH vs k Ha Hb). }
  unfold pct. apply Rmult_le_compat_l; [lra|]. apply (Em ((a - b) / b)). apply in_map_iff. now exists (a, b).
Qed.
Lemma perr_max_fin a b x : perr_max a b = EFin x -> exists u v, a = EFin u /\ b = EFin v /\ u <= x /\ v <= x.
Proof.
  destruct a as [u|], b as [v|]; cbn; try discriminate. intros H. injection H as <-. exists u, v.
  split; [reflexivity|]. split; [reflexivity|]. split; [apply Rmax_l|apply Rmax_r].
Qed.
Lemma fmax_errors_in ls e x : fmax_errors ls = Ok e -> e = EFin x -> forall l, In l ls ->
  exists y, fmax_error l = Ok (EFin y) /\ y <= x.
Proof.
  revert e x. induction ls as [|l ls IH]; intros e x H He l' Hl; [contradiction|]. cbn [fmax_errors] in H.
  destruct ls as [|l2 ls].
  - destruct Hl as [<-|[]]. exists x. split; [congruence|lra].
  - destruct (fmax_error l) as [a|] eqn:E1; [|discriminate]. cbn [bind] in H.
    destruct (fmax_errors (l2 :: ls)) as [b|] eqn:E2; [|discriminate]. cbn [bind] in H. injection H as H.
    rewrite He in H. apply perr_max_fin in H. destruct H as (u & v & -> & -> & Hu & Hv).
    destruct Hl as [<-|Hl]; [exists u; now split|].
    destruct (IH (EFin v) v eq_refl eq_refl l' Hl) as (y & Hy & Hle). exists y. split; [exact Hy|lra].
Qed.
Lemma fdm_change F m lin reset ls ls' wv : ls <> [] ->
  fr_end (fdm_call F m lin reset ls) = Ok (FConverged, ls', wv) ->
  forall i l, nth_error ls' i = Some l ->
  (Forall (fun v => 0 < v) (entries (fi_value (f_G l))) ->
     forall k a b, at_freq (fi_prev (f_G l)) k = Some a -> at_freq (fi_value (f_G l)) k = Some b -> pct a b < x_tol F) /\
  (Forall (fun v => 0 < v) (entries (fi_value (f_D l))) ->
     forall k a b, at_freq (fi_prev (f_D l)) k = Some a -> at_freq (fi_value (f_D l)) k = Some b -> pct a b < x_tol F).
Proof.
  intros Hne H i l Hl.
  pose proof (fdm_stops F m lin reset ls) as [_ HS]. rewrite H in HS. destruct HS as (t0 & st0 & Et & (x & Ex & Hx) & _).
  assert (Ht : fr_passes (fdm_call F m lin reset ls) <> []) by (rewrite Et; now destruct t0).
  assert (NF : FConverged <> NotFinite) by discriminate.
  destruct (fcall_end F m lin reset ls _ ls' wv Hne NF Ht H)
    as (start & lsp & st & upd & b & SL & SS & E2 & (K1 & K2 & K3) & E4 & E5 & Hb & Es & ->).
  rewrite Et, last_opt_app in E2. injection E2 as ->.
  destruct (fpass_spec _ _ _ _ _ _ _ Hb E5) as (u & Eu & _ & _ & Em).
  destruct (fset_maxs_nth _ _ _ _ _ _ _ Es) as [M1 M2].
  assert (HL : exists l2, In l2 (fs_layers st) /\ f_G l2 = f_G l /\ f_D l2 = f_D l).
  { destruct (Nat.lt_ge_cases i (length upd)) as [Hi|Hi].
    - rewrite nth_error_app1 in Hl by exact Hi.
      destruct (nth_error (removelast (fs_layers st)) i) as [l2|] eqn:E0; [|apply nth_error_None in E0; lia].
      destruct (M2 i l2 E0) as (mx & _ & E). rewrite Hl in E. injection E as ->. exists l2. split; [|now split].
      apply nth_error_In with i. now apply nth_removelast.
    - rewrite nth_error_app2 in Hl by exact Hi. destruct (i - length upd)%nat as [|[|j]]; cbn in Hl; try discriminate.
      injection Hl as ->. exists l. split; [|now split]. rewrite Eu. apply in_or_app. right. now left. }
  destruct HL as (l2 & Hin & EG & ED).
  destruct (fmax_errors_in _ _ _ Em Ex l2 Hin) as (y & Hy & Hle). unfold fmax_error in Hy.
  destruct (frelative_error (f_G l2)) as [ea|] eqn:EA; [|discriminate]. cbn [bind] in Hy.
  destruct (frelative_error (f_D l2)) as [eb|] eqn:EB; [|discriminate]. cbn [bind] in Hy. injection Hy as Hy.
  apply perr_max_fin in Hy. destruct Hy as (p & q & -> & -> & Hp & Hq). rewrite EG in EA. rewrite ED in EB.
  split; intros HP k a c Ha Hc.
  - pose proof (frelative_small _ _ EA HP k a c Ha Hc). lra.
  - pose proof (frelative_small _ _ EB HP k a c Ha Hc). lra.
Qed.

(** ** C107: other method names *)
Lemma fupdate_method F G m n waves lin ls : x_ratio F = x_ratio G -> x_limit F = x_limit G ->
  (forall a b c, strain_spectrum F a b c = strain_spectrum G a b c) ->
  forall i, fupdate F m n waves lin i ls = fupdate G m n waves lin i ls.
Proof.
  intros HR HLm HM. induction ls as [|l ls IH]; intros i; cbn [fupdate]; [reflexivity|].
  replace (fdm_strain F m n waves lin i l) with (fdm_strain G m n waves lin i l).
  - destruct (fdm_strain G m n waves lin i l) as [[ss|]|]; cbn [bind]; try reflexivity. rewrite HLm, IH. reflexivity.
  - unfold fdm_strain. destruct (calc_strain_tfs _ _ _ _ _); [|reflexivity]. cbn [bind].
    destruct (np_mul _ _); [|reflexivity]. cbn [bind]. destruct (m_peak _ _); [|reflexivity]. cbn [bind]. now rewrite HM, HR.
Qed.
Lemma floop_method F G m lin fuel : x_ratio F = x_ratio G -> x_tol F = x_tol G -> x_limit F = x_limit G ->
  (forall a b c, strain_spectrum F a b c = strain_spectrum G a b c) ->
  forall it lim ls waves, fdm_loop F m lin fuel it lim ls waves = fdm_loop G m lin fuel it lim ls waves.
Proof.
  intros HR HT HLm HM. induction fuel as [|fuel IH]; intros it lim ls waves; cbn [fdm_loop]; [reflexivity|].
  destruct (fcalc_waves _ ls) as [wv|]; [|reflexivity].
  replace (fdm_pass F m lin wv ls) with (fdm_pass G m lin wv ls).
  2:{ unfold fdm_pass. now rewrite (fupdate_method F G m _ wv lin (removelast ls) HR HLm HM). }
  destruct (fdm_pass G m lin wv ls) as [[st|]|]; try reflexivity. rewrite HT.
  destruct (err_below _ _); [reflexivity|]. destruct (_ && _)%bool; [reflexivity|]. rewrite IH. reflexivity.
Qed.
Lemma fdm_other_method F m lin reset ls : x_method F <> KA02 -> (forall b, x_method F <> KO ++ b) ->
  fdm_call F m lin reset ls = fdm_call (with_method F ZR15) m lin reset ls.
Proof.
  intros H1 H2. set (G := with_method F ZR15).
  assert (HM : forall a b c, strain_spectrum F a b c = strain_spectrum G a b c).
  { intros a b c. rewrite (spectrum_other F) by assumption. rewrite (spectrum_other G); [reflexivity| |]; apply zr15_other. }
  assert (HLp : forall fuel it lim xs wv, fdm_loop F m lin fuel it lim xs wv = fdm_loop G m lin fuel it lim xs wv).
  { intros. now apply floop_method. }
  unfold fdm_call. change (estimator G) with (estimator F). change (x_max G) with (x_max F).
  destruct reset.
  - destruct (calc_waves _ _); [|reflexivity]. destruct (eql_call _ _ _ _ _) as [est [[[stop ls1] wv1]|e]]; [|reflexivity].
    now rewrite HLp.
  - destruct (fcalc_waves _ _); [|reflexivity]. now rewrite HLp.
Qed.

(** ** C108: the estimate *)
Lemma fdm_estimate F G m lin reset ls : x_ratio F = x_ratio G -> x_limit F = x_limit G ->
  fr_estimate (fdm_call F m lin reset ls) = fr_estimate (fdm_call G m lin reset ls).
Proof.
  intros HR HL. unfold fdm_call. assert (EE : estimator F = estimator G) by (unfold estimator; congruence). rewrite EE.
  destruct reset.
  - destruct (calc_waves _ _); [|reflexivity]. destruct (eql_call _ _ _ _ _) as [est [[[stop ls1] wv1]|e]]; [|reflexivity].
    destruct (fdm_loop F _ _ _ _ _ _ _), (fdm_loop G _ _ _ _ _ _ _). reflexivity.
  - destruct (fcalc_waves _ _); [|reflexivity].
    destruct (fdm_loop F _ _ _ _ _ _ _), (fdm_loop G _ _ _ _ _ _ _). reflexivity.
Qed.
Lemma fdm_estimate_passes F m lin ls stop ls' wv :
  fr_end (fdm_call F m lin true ls) = Ok (stop, ls', wv) ->
  (1 <= length (fr_estimate (fdm_call F m lin true ls)) <= 15)%nat.
Proof.
  unfold fdm_call. destruct (calc_waves _ _); [|discriminate].
  destruct (eql_call (estimator F) (fm_motion m) lin true (map freset ls)) as [est r] eqn:E.
  destruct r as [[[st ls1] wv1]|e]; [|discriminate].
  destruct (fdm_loop F _ _ _ _ _ _ _). cbn [fr_estimate fr_end]. intros _.
  assert (Hm : (0 < e_max (estimator F))%Z) by (cbn; lia).
  pose proof (estimate_passes (estimator F) _ _ _ _ _ _ _ Hm E) as Ht.
  pose proof (proj1 (eql_stops _ _ _ _ _ _ _ E)) as HL. cbn in HL. change (Pos.to_nat 15) with 15%nat in HL.
  destruct est; [congruence|]. cbn [length] in *. lia.
Qed.
