(** Frequency-dependent runs of physical profiles: no exception but that of the strain limit,
    and finite strain spectra with positive damping. *)
From Coq Require Import String.
From Verif Require Import Common Proof.CommonFacts Model.Curve Model.Layer Model.Cplx Model.Waves Model.Eql Model.Averages Model.Output Model.Motion Model.Text Model.Fdm.
From Verif Require Import Spec.CurveSpec Spec.LayerSpec Spec.WaveSpec Spec.EqlSpec Spec.FdmSpec Spec.FdmPhysicalSpec.
From Verif Require Import Proof.CurveFacts Proof.LayerFacts Proof.CplxFacts Proof.WaveFacts Proof.WaveEnergy Proof.WaveProps Proof.EqlFacts Proof.EqlProps
  Proof.EqlResults Proof.EqlPhysical Proof.EqlRefute Proof.EqlKeeps Proof.FdmFacts Proof.FdmProps Proof.FdmResults Proof.FdmOutput Proof.FdmWaves Proof.FdmRepeat Proof.FdmEx.
From Coq Require Import List.
From Coquelicot Require Import Complex.
Local Open Scope R_scope.

(** ** The strain below a depth where energy flows *)
Lemma driven_flux w l ab z : 0 < w -> phys l -> 0 < Im (wl_vel l) -> 0 < z -> driven w l ab ->
  Cminus (Cmult (fst ab) (Cexp (cterm (Cdiv (RtoC w) (wl_vel l)) z))) (Cmult (snd ab) (Cexp (Copp (cterm (Cdiv (RtoC w) (wl_vel l)) z)))) <> RtoC 0.
Proof.
  intros Hw Pl Hi Hz HD. set (X := Cmult (fst ab) _). set (Y := Cmult (snd ab) _).
  destruct (phys_wave w l Hw Pl) as (s & kr & q & Hs & Hkr & Hq & Hq' & Ek & EK). specialize (Hq' Hi).
  assert (FX : 0 < flux (kappa_of w l) X Y).
  { destruct ab as [[a1 a2] [b1 b2]]. unfold driven in HD. cbn [fst snd] in *.
    pose proof (flux_bound s kr q a1 a2 b1 b2 z Hs Hkr Hq ltac:(lra)) as [HB1 HB2].
    rewrite <- EK, <- Ek in HB1, HB2. fold X Y in HB1, HB2.
    destruct HD as [HD|[HD1 HD2]]; [lra|].
    specialize (HB2 Hq' Hz (or_introl HD2)).
    assert (F0 : flux (kappa_of w l) (a1, a2) (b1, b2) = 0).
    { rewrite flux_fields, <- HD1. unfold Cmult, Cminus, Cplus, Copp, Im; cbn. ring. }
    lra. }
  intros E. rewrite flux_fields, E in FX. revert FX. unfold Cmult, Im, RtoC; cbn. lra.
Qed.

(** ** Waves of sound layers at every frequency *)
Definition rows_ok (m : motion) (n : nat) (D : Prop) (wv : list (list wrow)) : Prop :=
  length wv = length (m_freqs m) /\
  forall k w rs, nth_error (m_freqs m) k = Some w -> nth_error wv k = Some rs ->
  exists lk, lk <> [] /\ List.Forall sound lk /\ length lk = n /\ (D -> List.Forall (fun l => 0 < damping l) lk) /\
    calc_waves_numba w (map wlayer_of lk) = Ok rs.

Lemma nth_some {A} (xs : list A) i : (i < length xs)%nat -> exists x, nth_error xs i = Some x.
Proof. intros H. destruct (nth_error xs i) eqn:E; [now eexists|]. apply nth_error_None in E. lia. Qed.
Lemma combine_at {A B} (xs : list A) : forall (ys : list B) j x y, nth_error (combine xs ys) j = Some (x, y) -> nth_error xs j = Some x /\ nth_error ys j = Some y.
Proof.
  induction xs as [|a xs IH]; intros [|b ys] [|j] x y H; cbn in H; try discriminate.
  - injection H as <- <-. now split.
  - cbn. now apply IH.
Qed.
Lemma combine_some {A B} (xs : list A) : forall (ys : list B) j x y, nth_error xs j = Some x -> nth_error ys j = Some y -> nth_error (combine xs ys) j = Some (x, y).
Proof.
  induction xs as [|a xs IH]; intros [|b ys] [|j] x y H1 H2; cbn in *; try discriminate; [congruence|now apply IH].
Qed.

Lemma row_strain w lk rs lin i z : lk <> [] -> List.Forall sound lk -> (w = 0 \/ 1e-8 < w) ->
  calc_waves_numba w (map wlayer_of lk) = Ok rs -> (loc_index lin < length lk)%nat -> loc_field lin <> Within -> (i < length lk)%nat ->
  exists t, strain_tf_row w rs lin (mkLoc i z Within) = Ok t /\
    (1e-8 < w -> 0 < z -> List.Forall (fun l => 0 < damping l) lk -> t <> RtoC 0).
Proof.
  intros Hne HF Hcw E Hlin Hfld Hi.
  destruct (rows_some w _ rs E) as [RL RS]. rewrite map_length in RL.
  unfold strain_tf_row. cbn [loc_index loc_within].
  destruct (nth_error rs i) as [o|] eqn:Eo; [|apply nth_error_None in Eo; lia].
  destruct (nth_error rs (loc_index lin)) as [r|] eqn:Er; [|apply nth_error_None in Er; lia].
  destruct (RS _ _ Eo) as [ko Eko]. destruct (RS _ _ Er) as [ki Eki]. rewrite Eko, Eki.
  unfold strain_tf_numba. destruct (Rltb (Rabs w) 1e-8) eqn:Et.
  { exists (RtoC 0). split; [reflexivity|]. intros HW. apply Rltb_true in Et. rewrite Rabs_pos_eq in Et by lra. lra. }
  destruct Hcw as [->|Hcw].
  { unfold Rltb in Et. rewrite Rabs_R0 in Et. destruct (Rlt_dec 0 1e-8); [discriminate|lra]. }
  destruct (numba_sound w lk Hne HF (or_intror Hcw)) as (rs2 & F1 & F2).
  assert (rs2 = rs) by congruence. subst rs2.
  destruct (upgoing_motion w lk rs Hcw HF F2 lin Hlin Hfld) as (x & Ex & Nx).
  unfold wave_at_location in Ex. rewrite Er in Ex. unfold wave_at in Ex. rewrite Eki in Ex. injection Ex as Ex.
  unfold cterm in Ex. unfold cdiv_nb.
  match goal with |- context[Ceq_dec ?d _] => assert (ND : d <> RtoC 0) end.
  { apply Cmult_neq_0; [apply RtoC_neq_0; nra|]. rewrite <- Ex in Nx. exact Nx. }
  destruct (Ceq_dec _ _); [contradiction|]. eexists. split; [reflexivity|]. intros _ Hz HD.
  apply Cdiv_neq_0; [|exact ND].
  destruct (nth_some lk i Hi) as [l Hl]. rewrite Forall_forall in HF, HD.
  pose proof (HF l (nth_error_In _ _ Hl)) as Sl. pose proof (sound_phys l Sl) as Pl.
  assert (El : nth_error (map wlayer_of lk) i = Some (wlayer_of l)) by (now apply map_nth_error).
  assert (Hw' : 1e-8 < Rabs w) by (rewrite Rabs_pos_eq; lra).
  destruct (field_plane w _ rs i _ Hw' F2 El (proj1 (phys_carries _ Pl))) as (ab & E1 & E2 & _).
  assert (HP : List.Forall (fun l => phys l /\ 0 < Im (wl_vel l)) (map wlayer_of lk)).
  { apply Forall_forall. intros y Hy. apply in_map_iff in Hy. destruct Hy as (l1 & <- & Hl1).
    split; [now apply sound_phys, HF|]. cbn [wlayer_of wl_vel]. apply damped_vel; auto. }
  pose proof (driven_all w _ ltac:(lra) HP i _ ab El E1) as Dv.
  assert (IM : 0 < Im (wl_vel (wlayer_of l))) by (cbn [wlayer_of wl_vel]; apply damped_vel; [exact Sl|apply HD; eapply nth_error_In; eauto]).
  pose proof (driven_flux w _ ab z ltac:(lra) Pl IM Hz Dv) as NF.
  rewrite Eo in E2. injection E2 as ->. cbn [r_k] in Eko. injection Eko as <-. cbn [r_a r_b].
  assert (NK : Cdiv (RtoC w) (wl_vel (wlayer_of l)) <> RtoC 0) by (apply Cdiv_neq_0; [apply RtoC_neq_0; lra|apply (phys_carries _ Pl)]).
  apply Cmult_neq_0; [apply RtoC_neq_0; unfold GRAVITY; lra|].
  apply Cmult_neq_0; [apply Cmult_neq_0; [|exact NK]; intros Q; injection Q; lra|]. exact NF.
Qed.

Lemma fstrain_ok m n D wv lin i z : rows_ok m n D wv -> clear_freqs m -> (loc_index lin < n)%nat -> loc_field lin <> Within -> (i < n)%nat ->
  exists tf, calc_strain_tfs m n wv lin (mkLoc i z Within) = Ok tf /\ length tf = length (m_freqs m) /\
    (D -> 0 < z -> forall k w, nth_error (m_freqs m) k = Some w -> 1e-8 < w -> exists t, nth_error tf k = Some t /\ t <> RtoC 0).
Proof.
  intros [HL HR] Hm Hlin Hfld Hi. unfold calc_strain_tfs; cbn [loc_field loc_index].
  rewrite (proj2 (Nat.ltb_lt _ _) Hi), (proj2 (Nat.ltb_lt _ _) Hlin). cbn [andb].
  assert (HC : forall w, In w (m_freqs m) -> w = 0 \/ 1e-8 < w) by (unfold clear_freqs in Hm; rewrite Forall_forall in Hm; exact Hm).
  assert (ST : forall j w rs, nth_error (combine (m_freqs m) wv) j = Some (w, rs) -> exists t, strain_tf_row w rs lin (mkLoc i z Within) = Ok t /\
    (1e-8 < w -> 0 < z -> D -> t <> RtoC 0)).
  { intros j w rs Hj. destruct (combine_at _ _ _ _ _ Hj) as [J1 J2]. destruct (HR j w rs J1 J2) as (lk & K1 & K2 & K3 & K4 & K5).
    destruct (row_strain w lk rs lin i z K1 K2 (HC w (nth_error_In _ _ J1)) K5 ltac:(lia) Hfld ltac:(lia)) as (t & Et & Nt).
    exists t. split; [exact Et|]. intros Hw Hz HD. exact (Nt Hw Hz (K4 HD)). }
  destruct (mapM_ok (fun wr => strain_tf_row (fst wr) (snd wr) lin (mkLoc i z Within)) (combine (m_freqs m) wv)) as [tf Etf].
  { intros [w rs] Hin. apply In_nth_error in Hin. destruct Hin as [j Hj]. destruct (ST j w rs Hj) as (t & Et & _). now exists t. }
  exists tf. split; [exact Etf|]. destruct (mapM_nth _ _ _ Etf) as [LT NT]. split; [rewrite LT, combine_length, HL; lia|].
  intros HD Hz k w Hk Hw. destruct (nth_some wv k) as [rs Hrs]; [rewrite HL; apply nth_error_Some; congruence|].
  pose proof (combine_some _ _ _ _ _ Hk Hrs) as Hc. destruct (NT k (w, rs) Hc) as (t & Et & Nt). exists t. split; [exact Nt|].
  destruct (ST k w rs Hc) as (t' & Et' & N'). cbn [fst snd] in Et. assert (t' = t) by congruence. subst t'. now apply N'.
Qed.

(** ** Layers with one value, or one value per frequency *)
Definition shape (N : nat) (v : val) : Prop := match v with Sc _ => True | Ar xs => length xs = N end.
Definition ffit (N : nat) (D : Prop) (l : flayer) : Prop :=
  physical (f_layer l) /\ (shape N (fi_value (f_G l)) /\ shape N (fi_prev (f_G l)) /\ shape N (fi_value (f_D l)) /\ shape N (fi_prev (f_D l))) /\
  (forall k g, at_freq (fi_value (f_G l)) k = Some g -> 0 < g) /\
  (D -> damped_soil (f_layer l) /\ forall k d, at_freq (fi_value (f_D l)) k = Some d -> 0 < d).

Lemma shape_at N v k : shape N v -> (k < N)%nat -> exists x, at_freq v k = Some x.
Proof. destruct v as [x|xs]; cbn; intros H Hk; [now exists x|]. apply nth_some. lia. Qed.

Lemma fwaves_ok m D ls : ls <> [] -> List.Forall (ffit (length (m_freqs m)) D) ls -> clear_freqs m ->
  exists wv, fcalc_waves m ls = Ok wv.
Proof.
  intros NE HF Hm. unfold fcalc_waves. apply mapM_ok. intros [k w] Hin. cbn [fst snd].
  apply In_nth_error in Hin. destruct Hin as [j Hj]. destruct (combine_at _ _ _ _ _ Hj) as [J1 J2].
  assert (Hk : (k < length (m_freqs m))%nat) by (apply nth_error_In, in_seq in J1; lia).
  destruct (mapM_ok (fwlayer k) ls) as [ws Ews].
  { intros l Hl. rewrite Forall_forall in HF. destruct (HF l Hl) as (_ & (S1 & _ & S3 & _) & _).
    destruct (shape_at _ _ k S1 Hk) as [g Eg]. destruct (shape_at _ _ k S3 Hk) as [d Ed]. unfold fwlayer. rewrite Eg, Ed. now eexists. }
  rewrite Ews. cbn [bind]. destruct (frozen_layers k ls ws Ews) as (lk & FZ & <-).
  destruct (numba_sound w lk) as (rs & E & _).
  - intros ->. inversion FZ. congruence.
  - clear -FZ HF. induction FZ as [|a b ls lk (Z1 & Z2 & Z3 & Z4) FZ IH]; constructor; [|apply IH; now inversion HF].
    inversion HF as [|? ? (PH & _ & G & _) _]; subst. destruct PH as (P1 & _ & P3 & _). unfold sound. rewrite Z1, Z2. now repeat split; [apply (G k)|exact P1|exact P3].
  - unfold clear_freqs in Hm. rewrite Forall_forall in Hm. apply Hm. now apply nth_error_In with j.
  - now exists rs.
Qed.
Lemma fwaves_rows m D ls wv : ls <> [] -> List.Forall (ffit (length (m_freqs m)) D) ls -> fcalc_waves m ls = Ok wv -> rows_ok m (length ls) D wv.
Proof.
  intros NE HF H. destruct (fdm_waves m ls wv H) as [L N]. split; [exact L|]. intros k w rs Hw Hr.
  destruct (N k w rs Hw Hr) as (lk & FZ & E). exists lk. split; [intros ->; inversion FZ; congruence|]. split; [|split; [|split; [|exact E]]].
  - clear -FZ HF. induction FZ as [|a b ls lk (Z1 & Z2 & Z3 & Z4) FZ IH]; constructor; [|apply IH; now inversion HF].
    inversion HF as [|? ? (PH & _ & G & _) _]; subst. destruct PH as (P1 & _ & P3 & _). unfold sound. rewrite Z1, Z2. now repeat split; [apply (G k)|exact P1|exact P3].
  - symmetry. now apply forall2_len in FZ.
  - intros HD. clear -FZ HF HD. induction FZ as [|a b ls lk (Z1 & Z2 & Z3 & Z4) FZ IH]; constructor; [|apply IH; now inversion HF].
    inversion HF as [|? ? (_ & _ & _ & G) _]; subst. exact (proj2 (G HD) k _ Z4).
Qed.

Lemma array_in l ss k : (forall g, at_freq (fcompute_mod l ss) k = Some g -> exists s, g = compute_mod l s) /\
  (forall d, at_freq (fcompute_damping l ss) k = Some d -> exists s, d = compute_damping l s).
Proof.
  split; intros x H.
  - destruct (nth_error ss k) as [s|] eqn:E; [exists s; rewrite (fmod_at l ss k s E) in H; congruence|].
    unfold fcompute_mod, compute_mod in *. destruct (s_mod (l_soil l)) as [c|]; [|cbn in H; exists 1; congruence].
    destruct (curve_array_spec c ss) as [(vs & Ev & LV & _)|(e & Ev & HE)]; rewrite Ev in H; cbn [at_freq] in H.
    + apply nth_error_None in E. assert (Q : nth_error (map (fun r => initial_shear_mod l * r) vs) k = None) by (apply nth_error_None; rewrite map_length; lia). congruence.
    + exists 1. destruct (HE 1) as [e' ->]. congruence.
  - destruct (nth_error ss k) as [s|] eqn:E; [exists s; rewrite (fdamp_at l ss k s E) in H; congruence|].
    unfold fcompute_damping, compute_damping, soil_damping_min in *. destruct (s_damp (l_soil l)) as [d0|c]; [cbn in H; exists 1; injection H as <-; lra|].
    destruct (curve_array_spec c ss) as [(vs & Ev & LV & _)|(e & Ev & HE)]; rewrite Ev in H.
    + destruct (c_values c) as [|v0 rest]; cbn [at_freq] in H.
      * exists 1. destruct (curve_call c 1) eqn:Q; congruence.
      * apply nth_error_None in E. assert (Q : nth_error (map (fun d => d - v0 + l_dmin l) vs) k = None) by (apply nth_error_None; rewrite map_length; lia). congruence.
    + exists 1. destruct (HE 1) as [e' ->]. cbn [at_freq] in H. congruence.
Qed.
Lemma array_shape l ss : shape (length ss) (fcompute_mod l ss) /\ shape (length ss) (fcompute_damping l ss).
Proof.
  split.
  - unfold fcompute_mod. destruct (s_mod (l_soil l)) as [c|]; [|exact I].
    destruct (curve_array_spec c ss) as [(vs & -> & LV & _)|(e & -> & HE)]; cbn; [now rewrite map_length|exact I].
  - unfold fcompute_damping. destruct (s_damp (l_soil l)) as [d0|c]; [exact I|].
    destruct (curve_array_spec c ss) as [(vs & -> & LV & _)|(e & -> & HE)]; [|exact I].
    destruct (soil_damping_min (l_soil l)); cbn; [now rewrite map_length|exact I].
Qed.
Lemma fit_fset N D l ss : ffit N D l -> length ss = N -> ffit N D (fset_strain l ss).
Proof.
  intros (PH & (S1 & S2 & S3 & S4) & G & HD) L. destruct (array_shape (f_layer l) ss) as [A1 A2]. rewrite L in A1, A2.
  split; [exact PH|]. split; [exact (conj A1 (conj S1 (conj A2 S3)))|]. split.
  - intros k g H. destruct (proj1 (array_in (f_layer l) ss k) g H) as [s ->].
    exact (proj1 (set_strain_sound (f_layer l) s PH)).
  - intros D0. destruct (HD D0) as [H1 H2]. split; [exact H1|]. intros k d H.
    destruct (proj2 (array_in (f_layer l) ss k) d H) as [s ->]. exact (H1 s).
Qed.

Lemma fpass_fit F m lin D wv ls st : matched F m -> fcalc_waves (fm_motion m) ls = Ok wv -> List.Forall (ffit (length (m_freqs (fm_motion m))) D) ls ->
  fdm_pass F m lin wv ls = Ok (Some st) -> List.Forall (ffit (length (m_freqs (fm_motion m))) D) (fs_layers st) /\ length (fs_layers st) = length ls.
Proof.
  intros HM Hw HF H. destruct (fpass_nonempty _ _ _ _ _ _ H) as [Hne _]. destruct (last_some ls Hne) as [b Hb].
  destruct (fpass_nth _ _ _ _ _ _ _ Hb H) as (L1 & L2 & L3). split; [|exact L1]. rewrite Forall_forall in *. intros x Hx.
  apply In_nth_error in Hx. destruct Hx as [i Hi]. assert (HI : (i < length ls)%nat) by (rewrite <- L1; apply nth_error_Some; congruence).
  destruct (Nat.eq_dec i (length ls - 1)) as [->|Ni].
  - rewrite <- L1, <- last_opt_nth in Hi. assert (x = b) by congruence. subst x. apply HF. now apply last_opt_In.
  - destruct (nth_some (removelast ls) i) as [l Hl]; [pose proof (length_removelast ls b Hb) as LR; lia|].
    destruct (L3 i l Hl) as (pk & used & A & _ & B). apply nth_removelast in B. assert (x = fset_strain l used) by congruence. subst x.
    apply fit_fset; [apply HF, nth_error_In with i; now apply nth_removelast|]. exact (strains_len _ _ _ _ _ _ _ _ _ _ HM Hw A).
Qed.

(** ** The error *)
Lemma zip_ok N a b : (0 < N)%nat -> shape N a -> shape N b -> exists ps, zipv a b = Ok ps /\ ps <> [].
Proof.
  intros HN. destruct a as [x|xs], b as [y|ys]; cbn [shape zipv]; intros Ha Hb.
  - eexists. split; [reflexivity|discriminate].
  - eexists. split; [reflexivity|]. destruct ys; [cbn in Hb; lia|discriminate].
  - eexists. split; [reflexivity|]. destruct xs; [cbn in Ha; lia|discriminate].
  - rewrite Ha, Hb, Nat.eqb_refl. eexists. split; [reflexivity|]. destruct xs, ys; cbn in *; try lia; discriminate.
Qed.
Lemma ferror_ok N i : (0 < N)%nat -> shape N (fi_prev i) -> shape N (fi_value i) -> exists e, frelative_error i = Ok e.
Proof.
  intros HN H1 H2. unfold frelative_error. destruct (zip_ok N _ _ HN H1 H2) as (ps & -> & NP). cbn [bind].
  destruct (forallb _ (entries _)).
  - destruct (np_max_ok (map (fun pv => (fst pv - snd pv) / snd pv) ps)) as [e ->]; [now destruct ps|]. now eexists.
  - destruct (forallb _ _); now eexists.
Qed.
Lemma fmax_ok N D l : (0 < N)%nat -> ffit N D l -> exists e, fmax_error l = Ok e.
Proof.
  intros HN (_ & (S1 & S2 & S3 & S4) & _). unfold fmax_error.
  destruct (ferror_ok N (f_G l) HN S2 S1) as [a ->]. destruct (ferror_ok N (f_D l) HN S4 S3) as [b ->]. now eexists.
Qed.
Lemma fmaxs_ok N D ls : (0 < N)%nat -> ls <> [] -> List.Forall (ffit N D) ls -> exists e, fmax_errors ls = Ok e.
Proof.
  intros HN. induction ls as [|l [|l2 ls] IH]; intros NE HF; [congruence| |].
  - inversion HF; subst. now apply (fmax_ok N D).
  - inversion HF as [|? ? H1 H2]; subst. destruct (fmax_ok N D l HN H1) as [a Ea]. destruct (IH ltac:(discriminate) H2) as [b Eb].
    change (fmax_errors (l :: l2 :: ls)) with (bind (fmax_error l) (fun e => bind (fmax_errors (l2 :: ls)) (fun e' => Ok (perr_max e e')))).
    rewrite Ea. cbn [bind]. rewrite Eb. cbn [bind]. now eexists.
Qed.

(** ** The strain spectrum of a layer *)
Lemma map_rm {A B} (f : A -> B) xs : map f (removelast xs) = removelast (map f xs).
Proof. induction xs as [|x [|y xs] IH]; [reflexivity..|]. cbn [removelast map] in *. now rewrite IH. Qed.
Lemma scaled_ok eff xs : xs <> [] -> exists o, scaled_by_max eff xs = Ok o /\ (List.Exists (fun x => 0 < x) xs -> o <> None).
Proof.
  intros NE. unfold scaled_by_max. destruct (np_max_ok xs NE) as [mx Em]. rewrite Em. cbn [bind]. eexists. split; [reflexivity|].
  intros HE. destruct (np_max_spec _ _ Em) as [_ HM]. rewrite Forall_forall in HM. apply Exists_exists in HE. destruct HE as (x & Hx & Px).
  pose proof (HM x Hx) as HX. assert (Z : Reqb mx 0 = false) by (apply Reqb_false; lra).
  clear -Z. induction xs as [|x xs IH]; cbn [map_opt]; [discriminate|]. unfold div_opt at 1. rewrite Z. cbn [opt_bind].
  destruct (map_opt _ xs); [discriminate|congruence].
Qed.
Lemma spectrum_ok F m fas eff : readable_method F -> matched F m -> length fas = length (m_freqs (fm_motion m)) -> m_freqs (fm_motion m) <> [] ->
  exists o, strain_spectrum F (fm_hz m) fas eff = Ok o /\
    (x_method F <> KA02 -> fair_smoother F -> List.Forall (fun x => 0 <= x) fas -> List.Exists (fun x => 0 < x) fas -> o <> None).
Proof.
  intros HR HM HL NE. unfold strain_spectrum. assert (NF : fas <> []) by (intros ->; destruct (m_freqs (fm_motion m)); [congruence|discriminate]).
  destruct (text_eqb (x_method F) KA02) eqn:E1.
  { eexists. split; [reflexivity|]. intros N. apply text_eqb_eq in E1. contradiction. }
  destruct (starts KO (x_method F)) eqn:E2.
  - apply starts_spec in E2. destruct E2 as [b Eb]. destruct (HR b Eb) as [bw Ew]. replace (skipn 3 (x_method F)) with b by (now rewrite Eb).
    rewrite Ew. cbn [bind].
    destruct (scaled_ok eff (x_smooth F bw (fm_hz m) fas)) as (o & Eo & No).
    { intros Q. assert (L : length (x_smooth F bw (fm_hz m) fas) = length fas) by apply HM. rewrite Q in L. destruct fas; [congruence|discriminate]. }
    rewrite Eo. cbn [bind]. eexists. split; [reflexivity|]. intros _ HS H0 HE. specialize (No (HS _ _ _ H0 HE)).
    destruct o; [discriminate|congruence].
  - destruct (scaled_ok eff fas NF) as (o & Eo & No). rewrite Eo. exists o. split; [reflexivity|]. now intros _ _ _.
Qed.

Definition audible (F : fdm) (m : fmotion) : Prop := x_method F <> KA02 /\ heard m /\ fair_smoother F.

Lemma map2_nth_c (xs ys : list C) k x y : nth_error xs k = Some x -> nth_error ys k = Some y -> nth_error (map2 Cmult xs ys) k = Some (Cmult x y).
Proof. intros H1 H2. unfold map2. exact (map_nth_error (fun p => Cmult (fst p) (snd p)) _ _ (combine_some _ _ _ _ _ H1 H2)). Qed.
Lemma map2_len_c (xs : list C) ys : length xs = length ys -> length (map2 Cmult xs ys) = length xs.
Proof. intros H. unfold map2. rewrite map_length, combine_length. lia. Qed.

Lemma fstrain_of_layer F m n D wv lin i l : rows_ok (fm_motion m) n D wv -> clear_freqs (fm_motion m) -> m_freqs (fm_motion m) <> [] ->
  (loc_index lin < n)%nat -> loc_field lin <> Within -> (i < n)%nat -> answers (fm_motion m) -> matched F m -> readable_method F ->
  (exists o, fdm_strain F m n wv lin i l = Ok o /\ (D -> audible F m -> 0 < l_thick (f_layer l) -> o <> None)) /\
  exists mx, calc_strain_max (fm_motion m) n wv lin i (f_layer l) = Ok mx.
Proof.
  intros HR Hm NE Hlin Hfld Hi HA HM HRd. unfold fdm_strain, calc_strain_max.
  destruct (fstrain_ok _ n D wv lin i (l_thick (f_layer l) / 2) HR Hm Hlin Hfld Hi) as (tf & Et & LT & NT). rewrite Et. cbn [bind].
  destruct (HA tf LT) as [pk Ep]. split; [|rewrite Ep; now eexists].
  destruct HM as (M1 & M2 & M3). unfold np_mul. rewrite LT, M2, Nat.eqb_refl. cbn [bind]. rewrite Ep. cbn [bind].
  destruct (spectrum_ok F m (map Cmod (map2 Cmult tf (fm_amps m))) (x_ratio F * pk) HRd (conj M1 (conj M2 M3))) as (o & Eo & No); [|exact NE|].
  { rewrite map_length, map2_len_c by lia. exact LT. }
  exists o. split; [exact Eo|]. intros HD (A1 & A2 & A3) Hz. apply No; [exact A1|exact A3| |].
  - apply Forall_forall. intros x Hx. apply in_map_iff in Hx. destruct Hx as (c & <- & _). apply Cmod_ge_0.
  - destruct A2 as (k & w & a & B1 & B2 & B3 & B4). destruct (NT HD ltac:(lra) k w B1 B2) as (t & C1 & C2).
    apply Exists_exists. exists (Cmod (Cmult t a)). split; [|apply Cmod_gt_0; now apply Cmult_neq_0].
    apply in_map, nth_error_In with k. now apply map2_nth_c.
Qed.

(** ** A pass *)
Definition deep (D : Prop) (ls : list flayer) : Prop := D -> List.Forall (fun l => 0 < l_thick (f_layer l)) (removelast ls).

Lemma rm_len {A} (ls : list A) : ls <> [] -> length ls = S (length (removelast ls)).
Proof. intros NE. destruct (last_some ls NE) as [b Hb]. exact (length_removelast ls b Hb). Qed.

Lemma fpass_ok F m lin (D : Prop) ls wv : let N := length (m_freqs (fm_motion m)) in ls <> [] -> List.Forall (ffit N D) ls -> deep D ls -> (D -> audible F m) ->
  clear_freqs (fm_motion m) -> m_freqs (fm_motion m) <> [] -> (loc_index lin < length ls)%nat -> loc_field lin <> Within -> answers (fm_motion m) ->
  matched F m -> readable_method F -> fcalc_waves (fm_motion m) ls = Ok wv ->
  exists o, fdm_pass F m lin wv ls = Ok o /\ (D -> o <> None).
Proof.
  intros N NE HF Hdeep HAu Hm NF Hlin Hfld HA HM HR Hw.
  pose proof (fwaves_rows _ D ls wv NE HF Hw) as RO.
  assert (HN : (0 < N)%nat) by (unfold N; destruct (m_freqs (fm_motion m)); [congruence|cbn; lia]).
  assert (HU : forall xs i, (i + length xs <= length ls)%nat -> List.Forall (ffit N D) xs ->
     exists o, fupdate F m (length ls) wv lin i xs = Ok o /\ (D -> List.Forall (fun l => 0 < l_thick (f_layer l)) xs -> o <> None) /\
       forall u b, o = Some (u, b) -> List.Forall (ffit N D) u).
  { induction xs as [|l xs IH]; intros i Hi HX; cbn [fupdate].
    - eexists. split; [reflexivity|]. split; [discriminate|]. intros u b Q. injection Q as <- <-. constructor.
    - cbn [length] in Hi. inversion HX as [|? ? X1 X2]; subst.
      destruct (fstrain_of_layer F m (length ls) D wv lin i l RO Hm NF Hlin Hfld ltac:(lia) HA HM HR) as ((o & Eo & No) & _). rewrite Eo. cbn [bind].
      destruct o as [ss|].
      2:{ eexists. split; [reflexivity|]. split; [|discriminate]. intros HD HT. inversion HT; subst. exfalso. apply (No HD (HAu HD)); auto. }
      assert (LS : length ss = N).
      { assert (SO : exists used pk, strains_of F m (length ls) wv lin i (l_thick (f_layer l)) pk used /\ Forall2 (fused F) ss used).
        { revert Eo. unfold fdm_strain. destruct (calc_strain_tfs _ _ _ _ _) as [tf|] eqn:T1; [|discriminate]. cbn [bind].
          destruct (np_mul _ _) as [pr|] eqn:T2; [|discriminate]. cbn [bind]. destruct (m_peak _ tf) as [pk|] eqn:T3; [|discriminate]. cbn [bind]. intros T4.
          destruct (flimit (x_limit F) ss) as [u bb] eqn:T5. exists u, pk. pose proof (proj1 (flimit_spec F ss u bb T5)) as T6. split; [|exact T6].
          now exists tf, pr, ss. }
        destruct SO as (used & pk & S1 & S2). rewrite (forall2_len _ _ _ S2). exact (strains_len _ _ _ _ _ _ _ _ _ _ HM Hw S1). }
      destruct (flimit (x_limit F) ss) as [s lim] eqn:EL. destruct (IH (S i) ltac:(lia) X2) as (o & E2 & N2 & F2). rewrite E2. cbn [bind].
      eexists. split; [reflexivity|]. split.
      + intros HD HT. inversion HT as [|? ? T1 T2]; subst. specialize (N2 HD T2). destruct o as [[u b]|]; [discriminate|congruence].
      + intros u b Q. destruct o as [[u' b']|]; [|discriminate]. injection Q as <- <-. constructor; [|exact (F2 u' b' eq_refl)].
        apply fit_fset; [exact X1|]. destruct (flimit_spec F ss s lim EL) as [S2 _]. rewrite <- (forall2_len _ _ _ S2). exact LS. }
  pose proof (rm_len ls NE) as LR. destruct (last_some ls NE) as [b Hb].
  destruct (HU (removelast ls) 0%nat ltac:(lia)) as (o & E & N1 & F1).
  { apply Forall_forall. intros x Hx. rewrite Forall_forall in HF. apply HF. rewrite (last_opt_inv ls b Hb). apply in_or_app. now left. }
  unfold fdm_pass. rewrite E. cbn [bind]. destruct o as [[u lm]|].
  - rewrite Hb. destruct (fmaxs_ok N D (u ++ [b]) HN) as [e Ee]; [now destruct u| |].
    + apply Forall_app. split; [exact (F1 u lm eq_refl)|]. constructor; [|constructor]. rewrite Forall_forall in HF. now apply HF, last_opt_In.
    + rewrite Ee. cbn [bind]. eexists. split; [reflexivity|]. discriminate.
  - eexists. split; [reflexivity|]. intros HD. exfalso. exact (N1 HD (Hdeep HD) eq_refl).
Qed.

Definition thick_of (d : soil * R * R * R * R * R * option nat) : R := snd (fst (fst (fst (fst (fst d))))).
Lemma deep_map D ls ls' : map fdescription ls' = map fdescription ls -> deep D ls -> deep D ls'.
Proof.
  intros E H HD. specialize (H HD). 
  assert (E2 : map (fun l => l_thick (f_layer l)) (removelast ls') = map (fun l => l_thick (f_layer l)) (removelast ls)).
  { rewrite !map_rm. f_equal. change (fun l => l_thick (f_layer l)) with (fun l => thick_of (fdescription l)). rewrite <- !(map_map fdescription thick_of). now rewrite E. }
  apply (Forall_map (fun l => l_thick (f_layer l)) (fun t => 0 < t)). rewrite E2. now apply Forall_map.
Qed.

Lemma rows_weaken m n D wv : rows_ok m n D wv -> rows_ok m n False wv.
Proof.
  intros [L H]. split; [exact L|]. intros k w rs H1 H2. destruct (H k w rs H1 H2) as (lk & A & B & C & _ & E). exists lk. tauto.
Qed.

Lemma fpass_limited F m lin wv ls st : fdm_pass F m lin wv ls = Ok (Some st) -> fs_limited st = true -> exists x, flimit_on F x.
Proof.
  intros H HL. destruct (fpass_nonempty _ _ _ _ _ _ H) as [NE _]. destruct (last_some ls NE) as [b Hb].
  destruct (fpass_spec _ _ _ _ _ _ _ Hb H) as (upd & _ & _ & Eu & _). destruct (fupdate_spec _ _ _ _ _ _ _ _ _ Eu) as (_ & _ & Q).
  destruct (Q HL) as (x & _ & _ & _ & Hx & _). now exists x.
Qed.

Lemma floop_ok F m lin (D : Prop) fuel : let N := length (m_freqs (fm_motion m)) in (D -> audible F m) ->
  clear_freqs (fm_motion m) -> m_freqs (fm_motion m) <> [] -> loc_field lin <> Within -> answers (fm_motion m) ->
  matched F m -> readable_method F ->
  forall it lim ls wv0, ls <> [] -> List.Forall (ffit N D) ls -> deep D ls -> (loc_index lin < length ls)%nat -> rows_ok (fm_motion m) (length ls) False wv0 ->
  match snd (fdm_loop F m lin fuel it lim ls wv0) with
  | Ok (stop, ls', wv) => (D -> stop <> NotFinite) /\ rows_ok (fm_motion m) (length ls') False wv /\ length ls' = length ls
  | Err e => e = RuntimeError /\ exists x, flimit_on F x
  end.
Proof.
  intros N HAu Hm NF Hfld HA HM HR. induction fuel as [|fuel IH]; intros it lim ls wv0 NE HF Hd Hlin R0; cbn [fdm_loop].
  { cbn [snd]. split; [discriminate|]. now split. }
  destruct (fwaves_ok _ D ls NE HF Hm) as [wv Ew]. rewrite Ew. pose proof (rows_weaken _ _ _ _ (fwaves_rows _ D ls wv NE HF Ew)) as RW.
  destruct (fpass_ok F m lin D ls wv NE HF Hd HAu Hm NF Hlin Hfld HA HM HR Ew) as (o & Ep & No). rewrite Ep.
  destruct o as [st|]; [|cbn [snd]; split; [intros HD; now elim (No HD)|now split]].
  destruct (fpass_fit F m lin D wv ls st HM Ew HF Ep) as [F2 L2].
  destruct (err_below _ _); [cbn [snd]; split; [discriminate|]; rewrite L2; now split|].
  destruct (fs_limited st && _)%bool eqn:B.
  { cbn [snd]. apply andb_prop in B. split; [reflexivity|]. exact (fpass_limited _ _ _ _ _ _ Ep (proj1 B)). }
  cbn [snd].
  match goal with |- match snd (fdm_loop F m lin fuel ?a ?b ?c ?d) with _ => _ end => specialize (IH a b c d) end.
  rewrite L2 in IH. apply IH; [now destruct (fpass_nonempty _ _ _ _ _ _ Ep)|exact F2| |exact Hlin|exact RW].
  apply deep_map with ls; [|exact Hd]. exact (fpass_keeps _ _ _ _ _ _ Ep).
Qed.

(** ** The estimate *)
Definition lfit (D : Prop) (l : layer) : Prop := fit l /\ (D -> damped_soil l /\ 0 < damping l).
Lemma lfit_set D l s : lfit D l -> lfit D (set_strain l s).
Proof. intros [H1 H2]. split; [now apply fit_set|]. intros HD. destruct (H2 HD) as [A B]. split; [exact A|exact (A s)]. Qed.
Lemma lfit_sounds D ls : List.Forall (lfit D) ls -> List.Forall sound ls.
Proof. intros H. eapply Forall_impl; [|exact H]. now intros l [[] _]. Qed.
Lemma waves_rows m ls wv : ls <> [] -> List.Forall sound ls -> calc_waves m ls = Ok wv -> rows_ok m (length ls) False wv.
Proof.
  intros NE HF H. destruct (mapM_nth _ _ _ H) as [L N]. split; [exact L|]. intros k w rs Hw Hr. destruct (N k w Hw) as (rs' & E & Hr').
  exists ls. split; [exact NE|]. split; [exact HF|]. split; [reflexivity|]. split; [tauto|]. congruence.
Qed.
Lemma lpass_fit P m lin D ls wv st : ls <> [] -> List.Forall (lfit D) ls -> eql_pass P m lin wv ls = Ok st -> List.Forall (lfit D) (st_layers st).
Proof.
  intros Hne HF H. destruct (last_some ls Hne) as [b Hb]. rewrite Forall_forall in HF.
  destruct (pass_spec _ _ _ _ _ _ _ Hb H) as (upd & E & HL & Eu & _). rewrite E.
  apply Forall_forall. intros x Hx. apply in_app_or in Hx. destruct Hx as [Hx|[<-|[]]].
  - apply In_nth_error in Hx. destruct Hx as [i Hi].
    apply update_spec in Eu. destruct Eu as (HL' & HU & _).
    destruct (nth_error (removelast ls) i) as [l|] eqn:El.
    + destruct (HU i l El) as (mx & s & _ & _ & E3). replace x with (set_strain l s) by congruence.
      apply lfit_set, HF, nth_error_In with i. now apply nth_removelast.
    + apply nth_error_None in El. assert (i < length upd)%nat by (apply nth_error_Some; congruence). lia.
  - apply HF. now apply last_opt_In.
Qed.
Lemma update_limited P m n wv lin ls : forall i u, update_strains P m n wv lin i ls = Ok (u, true) -> exists x, e_limit P = Some x /\ x <> 0.
Proof.
  induction ls as [|l ls IH]; intros i u H; cbn [update_strains] in H; [discriminate|].
  destruct (calc_strain_max _ _ _ _ _ _) as [mx|]; [|discriminate]. cbn [bind] in H.
  destruct (limit_strain (e_limit P) (e_ratio P * mx)) as [s b] eqn:EL.
  destruct (update_strains P m n wv lin (S i) ls) as [[u' b']|] eqn:EU; [|discriminate]. cbn [bind] in H. injection H as _ HB.
  destruct b'; [exact (IH _ _ EU)|]. rewrite Bool.orb_false_r in HB. subst b. unfold limit_strain in EL.
  destruct (e_limit P) as [x|]; [|discriminate]. exists x. split; [reflexivity|]. destruct (Reqb x 0) eqn:Z; [discriminate|]. now apply Reqb_false in Z.
Qed.
Lemma lloop_ok P m lin D fuel : clear_freqs m -> loc_field lin <> Within -> answers m ->
  forall it lim ls wv0, ls <> [] -> List.Forall (lfit D) ls -> (loc_index lin < length ls)%nat -> rows_ok m (length ls) False wv0 ->
  match snd (eql_loop P m lin fuel it lim ls wv0) with
  | Ok (_, ls', wv) => List.Forall (lfit D) ls' /\ rows_ok m (length ls') False wv /\ length ls' = length ls
  | Err e => e = RuntimeError /\ exists x, e_limit P = Some x /\ x <> 0
  end.
Proof.
  intros Hm Hfld HA. induction fuel as [|fuel IH]; intros it lim ls wv0 NE HF Hlin R0; cbn [eql_loop].
  { cbn [snd]. now repeat split; try apply R0. }
  destruct (waves_sound m ls NE (lfit_sounds D ls HF) Hm) as [wv Ew]. rewrite Ew.
  pose proof (waves_rows m ls wv NE (lfit_sounds D ls HF) Ew) as RW.
  destruct (pass_ok P m lin ls wv NE (lfit_sounds D ls HF) Hm Hlin Hfld HA Ew) as [st Ep]. rewrite Ep.
  pose proof (lpass_fit _ _ _ D _ _ _ NE HF Ep) as F2. destruct (pass_kept _ _ _ _ _ _ NE Ep) as [L2 _].
  destruct (err_below _ _); [cbn [snd]; rewrite L2; exact (conj F2 (conj RW eq_refl))|].
  destruct (st_limited st && _)%bool eqn:B.
  { cbn [snd]. apply andb_prop in B. split; [reflexivity|]. destruct (last_some ls NE) as [b Hb].
    destruct (pass_spec _ _ _ _ _ _ _ Hb Ep) as (upd & _ & _ & Eu & _). rewrite (proj1 B) in Eu. exact (update_limited _ _ _ _ _ _ _ _ Eu). }
  cbn [snd].
  match goal with |- match snd (eql_loop P m lin fuel ?a ?b ?c ?d) with _ => _ end => specialize (IH a b c d) end.
  rewrite L2 in IH. apply IH; [exact (pass_nonempty _ _ _ _ _ _ NE Ep)|exact F2|exact Hlin|exact RW].
Qed.
Lemma rows_max m n D wv lin i l : rows_ok m n D wv -> clear_freqs m -> (loc_index lin < n)%nat -> loc_field lin <> Within -> (i < n)%nat -> answers m ->
  exists mx, calc_strain_max m n wv lin i l = Ok mx.
Proof.
  intros HR Hm Hlin Hfld Hi HA. unfold calc_strain_max. destruct (fstrain_ok _ n D wv lin i (l_thick l / 2) HR Hm Hlin Hfld Hi) as (tf & -> & LT & _).
  cbn [bind]. exact (HA tf LT).
Qed.
Lemma set_maxs_fit m n D D' wv lin ls : rows_ok m n D wv -> clear_freqs m -> (loc_index lin < n)%nat -> loc_field lin <> Within -> answers m ->
  forall i, (i + length ls <= n)%nat -> List.Forall (lfit D') ls -> exists u, set_strain_maxs m n wv lin i ls = Ok u /\ List.Forall (lfit D') u.
Proof.
  intros HR Hm Hlin Hfld HA. induction ls as [|l ls IH]; intros i Hi HF; cbn [set_strain_maxs]; [now exists []|].
  cbn [length] in Hi. inversion HF as [|? ? F1 F2]; subst. destruct (rows_max m n D wv lin i l HR Hm Hlin Hfld ltac:(lia) HA) as [mx ->]. cbn [bind].
  destruct (IH (S i) ltac:(lia) F2) as (u & -> & Fu). cbn [bind]. eexists. split; [reflexivity|]. constructor; [exact F1|exact Fu].
Qed.

Lemma estimate_ok P m lin (D : Prop) ls : ls <> [] -> List.Forall physical ls -> (D -> List.Forall damped_soil ls) -> clear_freqs m ->
  (loc_index lin < length ls)%nat -> loc_field lin <> Within -> answers m ->
  match snd (eql_call P m lin true ls) with
  | Ok (_, ls1, _) => List.Forall (lfit D) ls1 /\ length ls1 = length ls
  | Err e => e = RuntimeError /\ exists x, e_limit P = Some x /\ x <> 0
  end.
Proof.
  intros NE HF HDs Hm Hlin Hfld HA. destruct (eql_call P m lin true ls) as [t r] eqn:H. cbn [snd].
  assert (HR : List.Forall sound (map layer_reset ls)).
  { apply Forall_forall. intros x Hx. apply in_map_iff in Hx. destruct Hx as (l & <- & Hl). rewrite Forall_forall in HF. now apply reset_sound', HF. }
  assert (NR : map layer_reset ls <> []) by (now destruct ls).
  destruct (waves_sound m _ NR HR Hm) as [wv0' Ew'].
  destruct (call_loop P m lin true ls t r H) as [(_ & e & _ & Ew)|(wv0 & out & Ew & El & ->)]; [congruence|].
  assert (SF : List.Forall (lfit D) (start_layers m true ls)).
  { unfold start_layers, estimate_strains. rewrite map_map. apply Forall_forall. intros x Hx.
    apply in_map_iff in Hx. destruct Hx as (l & <- & Hl). rewrite Forall_forall in HF. pose proof (HF l Hl) as Pl.
    split; [split; [exact Pl|apply set_strain_sound; exact Pl]|]. intros HD. specialize (HDs HD). rewrite Forall_forall in HDs.
    split; [exact (HDs l Hl)|]. exact (HDs l Hl _). }
  pose proof (lloop_ok P m lin D (Z.to_nat (e_max P)) Hm Hfld HA 0 (-2) _ wv0 (start_nonempty m true ls NE) SF) as HO.
  rewrite start_length in HO. specialize (HO Hlin). pose proof (waves_rows m _ wv0 NR HR Ew) as RW. rewrite map_length in RW. specialize (HO RW).
  rewrite El in HO. cbn [snd] in HO. destruct out as [[[stop ls2] wv]|e]; [|exact HO]. destruct HO as (F2 & R2 & L2). cbn [bind].
  assert (NE2 : ls2 <> []) by (intros ->; destruct ls; [congruence|discriminate]). pose proof (rm_len ls2 NE2) as LR. destruct (last_some ls2 NE2) as [b Hb].
  assert (Fb : lfit D b) by (rewrite Forall_forall in F2; now apply F2, last_opt_In).
  destruct (set_maxs_fit m (length ls2) False D wv lin (removelast ls2) R2 Hm ltac:(lia) Hfld HA 0 ltac:(lia)) as (u & Eu & Fu).
  { rewrite (last_opt_inv ls2 b Hb) in F2. now apply Forall_app in F2. }
  rewrite Eu. cbn [bind]. rewrite Hb. split; [apply Forall_app; split; [exact Fu|now constructor]|].
  pose proof (f_equal (@length _) (maxs_keep _ _ _ _ _ _ _ Eu)) as LU. rewrite !map_length in LU. rewrite app_length, LU. cbn. lia.
Qed.

(** ** The call *)
Lemma fdm_ends F m lin (D : Prop) ls : ls <> [] -> List.Forall (fun l => physical (f_layer l)) ls ->
  (D -> audible F m /\ List.Forall (fun l => damped_soil (f_layer l)) ls /\ List.Forall (fun l => 0 < l_thick (f_layer l)) (removelast ls)) ->
  clear_freqs (fm_motion m) -> m_freqs (fm_motion m) <> [] -> (loc_index lin < length ls)%nat -> loc_field lin <> Within ->
  answers (fm_motion m) -> matched F m -> readable_method F ->
  (fr_end (fdm_call F m lin true ls) = Err RuntimeError /\ exists x, flimit_on F x) \/
  exists stop ls' wv, fr_end (fdm_call F m lin true ls) = Ok (stop, ls', wv) /\ (D -> stop <> NotFinite).
Proof.
  intros NE HP HD Hm NF Hlin Hfld HA HM HR. unfold fdm_call. set (ls0 := map freset ls).
  assert (NE0 : ls0 <> []) by (unfold ls0; now destruct ls). assert (L0 : length ls0 = length ls) by (unfold ls0; apply map_length).
  assert (P0 : List.Forall physical ls0) by (unfold ls0; apply Forall_map; exact HP).
  assert (S0 : List.Forall sound ls0).
  { unfold ls0. apply Forall_map. eapply Forall_impl; [|exact HP]. intros l. apply reset_sound'. }
  destruct (waves_sound (fm_motion m) ls0 NE0 S0 Hm) as [wv0 Ew]. rewrite Ew.
  pose proof (estimate_ok (estimator F) (fm_motion m) lin D ls0 NE0 P0) as EST.
  destruct (eql_call (estimator F) (fm_motion m) lin true ls0) as [est r] eqn:EC. cbn [snd] in EST.
  rewrite L0 in EST.
  assert (D0 : D -> List.Forall damped_soil ls0) by (intros d; unfold ls0; apply Forall_map; exact (proj1 (proj2 (HD d)))).
  specialize (EST D0 Hm Hlin Hfld HA).
  destruct r as [[[stop0 ls1] wv1]|e]; [|left; destruct EST as [-> Lm]; split; [reflexivity|exact Lm]].
  destruct EST as [F1 L1].
  assert (KD : map description ls1 = map description ls0) by exact (proj2 (eql_keeps _ _ _ _ _ _ _ EC) _ _ _ eq_refl).
  set (st := map of_layer ls1).
  assert (LS : length st = length ls) by (unfold st; now rewrite map_length).
  assert (NS : st <> []) by (intros Q; rewrite Q in LS; destruct ls; [congruence|discriminate]).
  assert (FS : List.Forall (ffit (length (m_freqs (fm_motion m))) D) st).
  { unfold st. apply Forall_map. eapply Forall_impl; [|exact F1]. intros l [[Q1 Q2] Q3]. split; [exact Q1|]. split; [now repeat split|]. split.
    - cbn. intros _ g Q. injection Q as <-. apply Q2.
    - intros d. destruct (Q3 d) as [Q4 Q5]. split; [exact Q4|]. cbn. intros _ x Q. injection Q as <-. exact Q5. }
  assert (DS : deep D st).
  { apply deep_map with ls; [|intros d; apply (HD d)]. unfold st, fdescription. rewrite map_map. 
    change (map (fun x => description (f_layer (of_layer x))) ls1) with (map description ls1). rewrite KD. unfold ls0. rewrite map_map. reflexivity. }
  pose proof (waves_rows (fm_motion m) ls0 wv0 NE0 S0 Ew) as R0. rewrite L0, <- LS in R0.
  assert (Hlin2 : (loc_index lin < length st)%nat) by lia.
  pose proof (floop_ok F m lin D (Z.to_nat (x_max F)) (fun d => proj1 (HD d)) Hm NF Hfld HA HM HR 0 (-2) st wv0 NS FS DS Hlin2 R0) as HO.
  destruct (fdm_loop F m lin (Z.to_nat (x_max F)) 0 (-2) st wv0) as [t out]. cbn [snd fr_end] in *.
  destruct out as [[[stop ls2] wv]|e]; [|left; destruct HO as [-> Lm]; split; [reflexivity|exact Lm]].
  right. destruct HO as (O1 & O2 & O3).
  assert (FM : exists u, fset_maxs m (length ls2) wv lin 0 (removelast ls2) = Ok u).
  { apply fset_maxs_ok. intros j l Hj. assert (j < length (removelast ls2))%nat by (apply nth_error_Some; congruence).
    assert (N2 : ls2 <> []) by (intros ->; cbn in H; lia). pose proof (rm_len ls2 N2) as LR.
    apply (rows_max _ _ False); [exact O2|exact Hm|lia|exact Hfld|lia|exact HA]. }
  destruct FM as [u Eu]. unfold fdm_finish. cbn [bind]. destruct stop.
  - rewrite Eu. cbn [bind]. do 3 eexists. split; [reflexivity|exact O1].
  - rewrite Eu. cbn [bind]. do 3 eexists. split; [reflexivity|exact O1].
  - do 3 eexists. split; [reflexivity|exact O1].
Qed.

Theorem fdm_only_limit_error F m lin ls : ls <> nil -> List.Forall (fun l => physical (f_layer l)) ls ->
  clear_freqs (fm_motion m) -> m_freqs (fm_motion m) <> nil -> (loc_index lin < length ls)%nat -> loc_field lin <> Within ->
  answers (fm_motion m) -> matched F m -> readable_method F ->
  (fr_end (fdm_call F m lin true ls) = Err RuntimeError /\ exists x, flimit_on F x) \/
  exists stop ls' wv, fr_end (fdm_call F m lin true ls) = Ok (stop, ls', wv).
Proof.
  intros NE HP Hm NF Hlin Hfld HA HM HR.
  destruct (fdm_ends F m lin False ls NE HP ltac:(tauto) Hm NF Hlin Hfld HA HM HR) as [H|(a & b & c & H & _)]; [now left|right; now exists a, b, c].
Qed.

Theorem fdm_finite F m lin ls : ls <> nil -> List.Forall (fun l => physical (f_layer l)) ls ->
  clear_freqs (fm_motion m) -> (loc_index lin < length ls)%nat -> loc_field lin <> Within ->
  answers (fm_motion m) -> matched F m -> readable_method F -> x_method F <> KA02 ->
  heard m -> fair_smoother F -> List.Forall (fun l => damped_soil (f_layer l)) ls ->
  List.Forall (fun l => 0 < l_thick (f_layer l)) (removelast ls) ->
  (fr_end (fdm_call F m lin true ls) = Err RuntimeError /\ exists x, flimit_on F x) \/
  exists stop ls' wv, fr_end (fdm_call F m lin true ls) = Ok (stop, ls', wv) /\ (stop = FConverged \/ stop = FExhausted).
Proof.
  intros NE HP Hm Hlin Hfld HA HM HR HK HH HS HDm HT.
  assert (NF : m_freqs (fm_motion m) <> []) by (destruct HH as (k & w & a & H1 & _); intros Q; rewrite Q in H1; destruct k; discriminate).
  destruct (fdm_ends F m lin True ls NE HP) as [HL|(stop & b & c & H & N)]; try assumption.
  - intros _. split; [now repeat split|]. now split.
  - now left.
  - right. exists stop, b, c. split; [exact H|]. specialize (N I). destruct stop; [now left|now right|congruence].
Qed.

(** ** The damping profile after such a run *)
Lemma fcall_passes F m lin reset ls stop ls' wv : (0 < x_max F)%Z -> stop <> NotFinite ->
  fr_end (fdm_call F m lin reset ls) = Ok (stop, ls', wv) -> fr_passes (fdm_call F m lin reset ls) <> [].
Proof.
  intros HX HN HE. destruct (fcall_loop F m lin reset ls) as [(_ & e & Q & _)|(st & wv0 & out & El & Ef & _)]; [congruence|].
  rewrite Ef in HE. destruct out as [[[s0 l0] w0]|e]; [|discriminate].
  assert (S0 : s0 = stop).
  { unfold fdm_finish in HE. cbn [bind] in HE. destruct s0; try (destruct (fset_maxs _ _ _ _ _ _); [|discriminate]; cbn [bind] in HE); congruence. }
  subst s0. destruct (floop_stop _ _ _ _ _ _ _ _ _ _ El) as [_ Q]. destruct stop; [|destruct Q as [Q _]|congruence].
  - destruct Q as (t0 & x & -> & _). now destruct t0.
  - intros E. rewrite E in Q. cbn in Q. lia.
Qed.

Theorem fdm_mixed_always F m lin ls l1 l2 d c : List.Forall (fun l => physical (f_layer l)) ls ->
  clear_freqs (fm_motion m) -> (loc_index lin < length ls)%nat -> loc_field lin <> Within ->
  answers (fm_motion m) -> matched F m -> readable_method F -> x_method F <> KA02 ->
  heard m -> fair_smoother F -> List.Forall (fun l => damped_soil (f_layer l)) ls ->
  List.Forall (fun l => 0 < l_thick (f_layer l)) (removelast ls) -> (forall x, ~ flimit_on F x) -> (0 < x_max F)%Z ->
  In l1 (removelast ls) -> s_damp (l_soil (f_layer l1)) = DConst d ->
  In l2 (removelast ls) -> s_damp (l_soil (f_layer l2)) = DCurve c -> usable c ->
  exists stop ls' wv, fr_end (fdm_call F m lin true ls) = Ok (stop, ls', wv) /\ damping_entries ls' = Err ValueError.
Proof.
  intros HP Hm Hlin Hfld HA HM HR HK HH HS HDm HT HL HX I1 E1 I2 E2 HU.
  assert (NE : ls <> []) by (intros ->; destruct I1).
  destruct (fdm_finite F m lin ls NE HP Hm Hlin Hfld HA HM HR HK HH HS HDm HT) as [[_ [x Q]]|(stop & ls' & wv & E & N)]; [now elim (HL x)|].
  assert (NN : stop <> NotFinite) by (destruct N; congruence).
  exists stop, ls', wv. split; [exact E|].
  exact (fdm_damping_mixed F m lin true ls stop ls' wv l1 l2 d c NN HM (fcall_passes _ _ _ _ _ _ _ _ HX NN E) E I1 E1 I2 E2 HU).
Qed.

(** ** A site for the examples *)
Definition fp_soil : soil := mkSoil 3 "stiff"%string GRAVITY None (DConst 0.02).
Definition fp_site : list flayer := map of_layer [layer_make fp_soil 10 300 0.02; layer_make dc_soil 10 200 0.02; layer_make fp_soil 0 800 0.02].
Definition fp_fdm : fdm := mkFdm ZR15 0.65 0.01 15 None (fun _ _ => (0, 0)) (fun _ _ xs => xs).
Lemma fp_physical : List.Forall (fun l => physical (f_layer l)) fp_site.
Proof.
  unfold fp_site. cbn [map]. repeat constructor;
    unfold physical, positive_modulus, dc_soil, fp_soil, layer_make, layer_reset,
      modulus_curve, damping_curve, mod_reduc_limits, damping_limits, GRAVITY; cbn; repeat split; lra.
Qed.
Lemma fp_damped : List.Forall (fun l => damped_soil (f_layer l)) fp_site.
Proof.
  assert (A : forall t v, damped_soil (layer_make fp_soil t v 0.02)).
  { intros t v s. unfold compute_damping; cbn. lra. }
  unfold fp_site. cbn [map]. repeat constructor; cbn [of_layer f_layer]; try apply A.
  intros s. unfold compute_damping. cbn [layer_make layer_reset l_soil l_dmin dc_soil s_damp].
  destruct (curve_call (damping_curve 2 [5e-3; 1e-2] [0; 0.1]) s) as [v|] eqn:E; [|cbn; lra].
  assert (HC : c_lo (damping_curve 2 [5e-3; 1e-2] [0; 0.1]) <= c_hi (damping_curve 2 [5e-3; 1e-2] [0; 0.1])) by (cbn; lra).
  pose proof (curve_call_bounds _ _ _ HC E) as HB. cbn in HB |- *. lra.
Qed.
Lemma fp_case : List.Forall (fun l => physical (f_layer l)) fp_site /\ clear_freqs (fm_motion dc_motion) /\
  (loc_index soft_input < length fp_site)%nat /\ loc_field soft_input <> Within /\
  answers (fm_motion dc_motion) /\ matched fp_fdm dc_motion /\ readable_method fp_fdm /\ x_method fp_fdm <> KA02 /\
  heard dc_motion /\ fair_smoother fp_fdm /\ List.Forall (fun l => damped_soil (f_layer l)) fp_site /\
  List.Forall (fun l => 0 < l_thick (f_layer l)) (removelast fp_site) /\ (forall x, ~ flimit_on fp_fdm x).
Proof.
  split; [exact fp_physical|]. split; [exact soft_clear|]. split; [cbn; lia|]. split; [discriminate|]. split; [intros tf _; now eexists|].
  split; [repeat split|]. split; [intros b Q; discriminate Q|]. split; [discriminate|].
  split. { exists 0%nat, 1, (RtoC 1). split; [reflexivity|]. split; [lra|]. split; [reflexivity|]. intros Q. injection Q. lra. }
  split; [intros bw fs xs _ H; exact H|]. split; [exact fp_damped|]. split; [cbn; repeat constructor; cbn; lra|].
  intros x [Q _]. discriminate Q.
Qed.
