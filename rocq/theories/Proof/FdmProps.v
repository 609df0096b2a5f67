(** The iteration of the frequency-dependent calculator. *)
From Verif Require Import Common Proof.CommonFacts Model.Curve Model.Layer Model.Waves Model.Eql Model.Motion Model.Text
  Model.Fdm Spec.LayerSpec Spec.EqlSpec Spec.FdmSpec Proof.LayerFacts Proof.EqlFacts Proof.EqlProps Proof.EqlResults
  Proof.FdmFacts.
From Coq Require Import List.
From Coquelicot Require Import Complex.
Local Open Scope R_scope.

(** ** The limit *)
Lemma flimit_spec F ss s' b : flimit (x_limit F) ss = (s', b) ->
  Forall2 (fused F) ss s' /\ (b = true <-> exists x s, flimit_on F x /\ In s ss /\ x < s).
Proof.
  unfold flimit, flimit_on. destruct (x_limit F) as [x|] eqn:E.
  2:{ intros H. injection H as <- <-. split.
      - induction ss; constructor; auto. split; [|reflexivity]. intros x [Hx _]. congruence.
      - split; [discriminate|]. intros (x & s & [Hx _] & _). discriminate. }
  destruct (Reqb x 0) eqn:Z.
  { apply Reqb_true in Z. intros H. injection H as <- <-. split.
    - induction ss; constructor; auto. split; [|reflexivity]. intros y [Hy Ny]. congruence.
    - split; [discriminate|]. intros (y & s & [Hy Ny] & _). congruence. }
  apply Reqb_false in Z.
  assert (HX : existsb (fun s => Rltb x s) ss = true <-> exists s, In s ss /\ x < s).
  { rewrite existsb_exists. split; intros (s & Hs & H); exists s; (split; [exact Hs|]).
    - unfold Rltb in H. destruct (Rlt_dec x s); [assumption|discriminate].
    - unfold Rltb. destruct (Rlt_dec x s); [reflexivity|contradiction]. }
  destruct (existsb (fun s => Rltb x s) ss) eqn:B; intros H; injection H as <- <-.
  - split.
    + clear B HX. induction ss as [|s ss IH]; constructor; auto. unfold fused, flimit_on. rewrite E. split.
      * intros y [Hy _] Hlt. injection Hy as <-. apply Rmin_right. lra.
      * intros H. apply Rmin_left. apply (H x). now split.
    + split; [|reflexivity]. intros _. destruct (proj1 HX eq_refl) as (s & Hs & Hlt). now exists x, s.
  - split.
    + assert (HN : forall s, In s ss -> s <= x).
      { intros s Hs. apply Rnot_lt_le. intros Hlt. apply diff_false_true. apply HX. now exists s. }
      clear B HX. induction ss as [|s ss IH]; constructor.
      * unfold fused, flimit_on. rewrite E. split; [|reflexivity]. intros y [Hy _] Hlt. injection Hy as <-.
        pose proof (HN s (or_introl eq_refl)). lra.
      * apply IH. intros. apply HN. now right.
    + split; [discriminate|]. intros (y & s & [Hy _] & Hs & Hlt). injection Hy as <-. apply HX. now exists s.
Qed.
Lemma fused_le F s s' x : fused F s s' -> flimit_on F x -> s' <= x.
Proof.
  intros [H1 H2] Hx. destruct (Rlt_dec x s) as [H|H]; [rewrite (H1 x Hx H); lra|].
  rewrite H2; [lra|]. intros y [Hy _]. destruct Hx as [Hx _]. replace y with x by congruence. lra.
Qed.

(** ** One pass *)
Lemma fdm_strain_spec F m n waves lin i l ss used : fdm_strain F m n waves lin i l = Ok (Some ss) ->
  Forall2 (fused F) ss used ->
  exists pk, strains_of F m n waves lin i (l_thick (f_layer l)) pk used /\
    calc_strain_max (fm_motion m) n waves lin i (f_layer l) = Ok pk.
Proof.
  unfold fdm_strain, calc_strain_max.
  destruct (calc_strain_tfs _ _ _ _ _) as [tf|] eqn:E1; [|discriminate]. cbn [bind].
  destruct (np_mul _ _) as [prod|] eqn:E2; [|discriminate]. cbn [bind].
  destruct (m_peak (fm_motion m) tf) as [pk|] eqn:E3; [|discriminate]. cbn [bind].
  intros H HU. exists pk. split; [|reflexivity]. exists tf, prod, ss. now repeat split.
Qed.

Lemma fupdate_spec F m n waves lin ls : forall i upd lim,
  fupdate F m n waves lin i ls = Ok (Some (upd, lim)) ->
  length upd = length ls /\
  (forall j l, nth_error ls j = Some l -> exists pk used,
     strains_of F m n waves lin (i + j) (l_thick (f_layer l)) pk used /\
     calc_strain_max (fm_motion m) n waves lin (i + j) (f_layer l) = Ok pk /\
     nth_error upd j = Some (fset_strain l used)) /\
  (lim = true -> exists x j l k, flimit_on F x /\ nth_error upd j = Some l /\ at_freq (f_strain l) k = Some x).
Proof.
  induction ls as [|l ls IH]; intros i upd lim H; cbn [fupdate] in H.
  { injection H as <- <-. split; [reflexivity|]. split; [intros [|j] l Hl; discriminate|discriminate]. }
  destruct (fdm_strain F m n waves lin i l) as [[ss|]|e] eqn:Es; try discriminate. cbn [bind] in H.
  destruct (flimit (x_limit F) ss) as [s b] eqn:El.
  destruct (fupdate F m n waves lin (S i) ls) as [[[upd' lim']|]|e] eqn:Eu; try discriminate.
  cbn [bind] in H. injection H as <- <-.
  destruct (flimit_spec F ss s b El) as [U HB].
  destruct (fdm_strain_spec _ _ _ _ _ _ _ _ _ Es U) as (pk & S1 & S2).
  destruct (IH (S i) upd' lim' Eu) as (HL & HU & HLim).
  split; [cbn; now rewrite HL|]. split.
  - intros [|j] l' Hl'; cbn [nth_error] in *.
    + injection Hl' as <-. exists pk, s. rewrite Nat.add_0_r. now split.
    + replace (i + S j)%nat with (S i + j)%nat by lia. exact (HU j l' Hl').
  - intros HO. apply orb_true_iff in HO. destruct HO as [HO|HO].
    + apply HB in HO. destruct HO as (x & s0 & Hx & Hin & Hlt).
      apply In_nth_error in Hin. destruct Hin as [k Hk].
      destruct (forall2_nth_l _ _ _ U k s0 Hk) as (s1 & Hs1 & Hu).
      exists x, 0%nat, (fset_strain l s), k. split; [exact Hx|]. split; [reflexivity|]. cbn [fset_strain f_strain at_freq].
      rewrite Hs1. f_equal. now apply (proj1 Hu).
    + destruct (HLim HO) as (x & j & l' & k & A & B & C). exists x, (S j), l', k. now split.
Qed.

Lemma fpass_spec F m lin waves ls b st : last_opt ls = Some b ->
  fdm_pass F m lin waves ls = Ok (Some st) ->
  exists upd, fs_layers st = upd ++ [b] /\ length upd = length (removelast ls) /\
    fupdate F m (length ls) waves lin 0 (removelast ls) = Ok (Some (upd, fs_limited st)) /\
    fmax_errors (fs_layers st) = Ok (fs_error st).
Proof.
  intros Hb H. unfold fdm_pass in H. rewrite Hb in H.
  destruct (fupdate F m (length ls) waves lin 0 (removelast ls)) as [[[upd lim]|]|e] eqn:Eu; try discriminate.
  cbn [bind] in H. destruct (fmax_errors (upd ++ [b])) as [e|e] eqn:Ee; [|discriminate].
  cbn [bind] in H. injection H as <-. cbn [fs_layers fs_limited fs_error].
  exists upd. apply fupdate_spec in Eu as HU. destruct HU as (HL & _ & _). now repeat split.
Qed.
Lemma fpass_empty F m lin waves st : fdm_pass F m lin waves [] <> Ok (Some st).
Proof. discriminate. Qed.

Lemma fpass_nth F m lin waves ls st b : last_opt ls = Some b -> fdm_pass F m lin waves ls = Ok (Some st) ->
  length (fs_layers st) = length ls /\ last_opt (fs_layers st) = Some b /\
  forall i l, nth_error (removelast ls) i = Some l -> exists pk used,
    strains_of F m (length ls) waves lin i (l_thick (f_layer l)) pk used /\
    calc_strain_max (fm_motion m) (length ls) waves lin i (f_layer l) = Ok pk /\
    nth_error (removelast (fs_layers st)) i = Some (fset_strain l used).
Proof.
  intros Hb H. destruct (fpass_spec F m lin waves ls b st Hb H) as (upd & E & HL & Eu & _).
  rewrite E, app_length, HL, (length_removelast ls b Hb), last_opt_app, removelast_app_1.
  split; [cbn; lia|]. split; [reflexivity|].
  apply fupdate_spec in Eu. destruct Eu as (_ & HU & _). intros i l Hl.
  destruct (HU i l Hl) as (pk & used & E1 & E2 & E3). exists pk, used.
  rewrite (length_removelast ls b Hb) in E1, E2. now split.
Qed.
Lemma fpass_nonempty F m lin waves ls st : fdm_pass F m lin waves ls = Ok (Some st) -> ls <> [] /\ fs_layers st <> [].
Proof.
  intros H. destruct ls as [|l ls]; [discriminate H|]. split; [discriminate|].
  destruct (last_some (l :: ls)) as [b Hb]; [discriminate|].
  destruct (fpass_spec _ _ _ _ _ _ _ Hb H) as (upd & -> & _). now destruct upd.
Qed.

(** ** The loop *)
Lemma fbelow_err tol s : fbelow tol s <-> err_below (fs_error s) tol = true.
Proof. symmetry. apply err_below_true. Qed.
Lemma not_fbelow tol s : err_below (fs_error s) tol = false -> ~ fbelow tol s.
Proof. rewrite fbelow_err. congruence. Qed.

Lemma floop_stop F m lin fuel : forall it lim ls waves t r,
  fdm_loop F m lin fuel it lim ls waves = (t, r) ->
  (length t <= fuel)%nat /\
  match r with
  | Ok (FConverged, ls', _) => exists t0 st, t = t0 ++ [st] /\ fbelow (x_tol F) st /\
      Forall (fun s => ~ fbelow (x_tol F) s) t0
  | Ok (FExhausted, ls', _) => length t = fuel /\ Forall (fun s => ~ fbelow (x_tol F) s) t
  | _ => Forall (fun s => ~ fbelow (x_tol F) s) t
  end.
Proof.
  induction fuel as [|fuel IH]; intros it lim ls waves t r H; cbn [fdm_loop] in H.
  { injection H as <- <-. split; [cbn; lia|]. now split. }
  destruct (fcalc_waves (fm_motion m) ls) as [wv|e]; [|injection H as <- <-; split; [cbn; lia|constructor]].
  destruct (fdm_pass F m lin wv ls) as [[st|]|e];
    [|injection H as <- <-; split; [cbn; lia|constructor]|injection H as <- <-; split; [cbn; lia|constructor]].
  destruct (err_below (fs_error st) (x_tol F)) eqn:Eb.
  { injection H as <- <-. split; [cbn; lia|]. exists [], st. apply fbelow_err in Eb. now repeat split. }
  apply not_fbelow in Eb.
  destruct (fs_limited st && (lim =? it - 1)%Z)%bool eqn:El.
  { injection H as <- <-. split; [cbn; lia|]. now repeat constructor. }
  set (nl := if fs_limited st then it else lim) in H.
  destruct (fdm_loop F m lin fuel (it + 1) nl (fs_layers st) wv) as [t' r'] eqn:E.
  cbn [fst snd] in H. injection H as <- <-.
  destruct (IH _ _ _ _ _ _ E) as [HL HR]. split; [cbn; lia|].
  destruct r' as [[[[| |] ls'] wv']|e].
  - destruct HR as (t0 & s & -> & B & G). exists (st :: t0), s. repeat split; auto.
  - destruct HR as (E1 & G). split; [cbn; now rewrite E1|now constructor].
  - now constructor.
  - now constructor.
Qed.

(** The passes follow one another. *)
Fixpoint fpasses (F : fdm) (m : fmotion) (lin : wloc) (ls : list flayer) (t : list fstep) : Prop :=
  match t with
  | [] => True
  | st :: t' => exists wv, fcalc_waves (fm_motion m) ls = Ok wv /\ fdm_pass F m lin wv ls = Ok (Some st) /\
                           fpasses F m lin (fs_layers st) t'
  end.
Lemma floop_passes F m lin fuel : forall it lim ls waves t r,
  fdm_loop F m lin fuel it lim ls waves = (t, r) -> fpasses F m lin ls t.
Proof.
  induction fuel as [|fuel IH]; intros it lim ls waves t r H; cbn [fdm_loop] in H.
  { injection H as <- <-. exact I. }
  destruct (fcalc_waves (fm_motion m) ls) as [wv|e] eqn:Ew; [|injection H as <- <-; exact I].
  destruct (fdm_pass F m lin wv ls) as [[st|]|e] eqn:Ep; [|injection H as <- <-; exact I|injection H as <- <-; exact I].
  destruct (err_below _ _); [injection H as <- <-; exists wv; now repeat split|].
  destruct (_ && _)%bool; [injection H as <- <-; exists wv; now repeat split|].
  set (nl := if fs_limited st then it else lim) in H.
  destruct (fdm_loop F m lin fuel (it + 1) nl (fs_layers st) wv) as [t' r'] eqn:E.
  injection H as <- <-. exists wv. split; [exact Ew|]. split; [exact Ep|]. exact (IH _ _ _ _ _ _ E).
Qed.

Lemma floop_last F m lin fuel : forall it lim ls waves t stop ls' wv', stop <> NotFinite ->
  fdm_loop F m lin fuel it lim ls waves = (t, Ok (stop, ls', wv')) ->
  (t = [] /\ ls' = ls /\ wv' = waves) \/
  exists h0 lsp st, fhistory ls t = h0 ++ [lsp; ls'] /\ last_opt t = Some st /\ fs_layers st = ls' /\
    fcalc_waves (fm_motion m) lsp = Ok wv' /\ fdm_pass F m lin wv' lsp = Ok (Some st).
Proof.
  induction fuel as [|fuel IH]; intros it lim ls waves t stop ls' wv' HS H; cbn [fdm_loop] in H.
  { injection H as <- <- <- <-. left. now repeat split. }
  destruct (fcalc_waves (fm_motion m) ls) as [wv|e] eqn:Ew; [|discriminate].
  destruct (fdm_pass F m lin wv ls) as [[st|]|e] eqn:Ep; [| |discriminate].
  2:{ injection H as _ <- _ _. contradiction. }
  destruct (err_below _ _).
  { injection H as <- <- <- <-. right. exists [], ls, st. now repeat split. }
  destruct (_ && _)%bool; [discriminate|].
  set (nl := if fs_limited st then it else lim) in H.
  destruct (fdm_loop F m lin fuel (it + 1) nl (fs_layers st) wv) as [t' r'] eqn:E.
  cbn [fst snd] in H. injection H as <- ->.
  destruct (IH _ _ _ _ _ _ _ _ HS E) as [(-> & -> & ->)|(h0 & lsp & s & E1 & E2 & E3 & E4 & E5)].
  - right. exists [], ls, st. now repeat split.
  - right. exists (ls :: h0), lsp, s. split; [|split; [|now repeat split]].
    + unfold fhistory in *. cbn [map]. rewrite E1. reflexivity.
    + cbn [last_opt]. destruct t'; [discriminate|exact E2].
Qed.

(** ** The maximum strains *)
Lemma fset_maxs_ok m n waves lin ls : forall i,
  (forall j l, nth_error ls j = Some l -> exists mx, calc_strain_max (fm_motion m) n waves lin (i + j) (f_layer l) = Ok mx) ->
  exists upd, fset_maxs m n waves lin i ls = Ok upd.
Proof.
  induction ls as [|l ls IH]; intros i H; [now exists []|].
  cbn [fset_maxs]. destruct (H 0%nat l eq_refl) as [mx E0]. rewrite Nat.add_0_r in E0. rewrite E0. cbn [bind].
  destruct (IH (S i)) as (upd & E1); [|rewrite E1; cbn [bind]; now eexists].
  intros j l' Hj. replace (S i + j)%nat with (i + S j)%nat by lia. exact (H (S j) l' Hj).
Qed.
Lemma fset_maxs_nth m n waves lin ls : forall i upd, fset_maxs m n waves lin i ls = Ok upd ->
  length upd = length ls /\ forall j l, nth_error ls j = Some l -> exists mx,
      calc_strain_max (fm_motion m) n waves lin (i + j) (f_layer l) = Ok mx /\ nth_error upd j = Some (fset_max l mx).
Proof.
  induction ls as [|l ls IH]; intros i upd H; cbn [fset_maxs] in H.
  { injection H as <-. split; [reflexivity|]. intros [|j] l E; discriminate. }
  destruct (calc_strain_max (fm_motion m) n waves lin i (f_layer l)) as [mx|] eqn:E0; [|discriminate]. cbn [bind] in H.
  destruct (fset_maxs m n waves lin (S i) ls) as [u|] eqn:E1; [|discriminate]. cbn [bind] in H.
  injection H as <-. destruct (IH _ _ E1) as [HL HN]. split; [cbn; now rewrite HL|].
  intros [|j] l' Hj; cbn [nth_error] in *.
  - injection Hj as <-. exists mx. rewrite Nat.add_0_r. now split.
  - replace (i + S j)%nat with (S i + j)%nat by lia. exact (HN j l' Hj).
Qed.

(** ** The call *)
Lemma fcall_loop F m lin reset ls :
  (fr_passes (fdm_call F m lin reset ls) = [] /\
     exists e, fr_end (fdm_call F m lin reset ls) = Err e /\
       ((reset = true /\ calc_waves (fm_motion m) (map freset ls) = Err e) \/
        (reset = true /\ snd (eql_call (estimator F) (fm_motion m) lin true (map freset ls)) = Err e) \/
        (reset = false /\ fcalc_waves (fm_motion m) ls = Err e))) \/
  exists start wv0 out,
    fdm_loop F m lin (Z.to_nat (x_max F)) 0 (-2) start wv0 = (fr_passes (fdm_call F m lin reset ls), out) /\
    fr_end (fdm_call F m lin reset ls) = fdm_finish m lin out /\
    (if reset then calc_waves (fm_motion m) (map freset ls) = Ok wv0 /\ exists est stop ls1 wv1,
        eql_call (estimator F) (fm_motion m) lin true (map freset ls) = (est, Ok (stop, ls1, wv1)) /\
        fr_estimate (fdm_call F m lin reset ls) = est /\ start = map of_layer ls1
     else start = ls /\ fcalc_waves (fm_motion m) ls = Ok wv0).
Proof.
  unfold fdm_call. destruct reset.
  - destruct (calc_waves (fm_motion m) (map freset ls)) as [wv0|e].
    2:{ left. cbn. split; [reflexivity|]. exists e. split; [reflexivity|]. now left. }
    destruct (eql_call (estimator F) (fm_motion m) lin true (map freset ls)) as [est [[[stop ls1] wv1]|e]].
    2:{ left. cbn. split; [reflexivity|]. exists e. split; [reflexivity|]. right. now left. }
    destruct (fdm_loop F m lin (Z.to_nat (x_max F)) 0 (-2) (map of_layer ls1) wv0) as [t out] eqn:E.
    right. exists (map of_layer ls1), wv0, out. cbn [fr_passes fr_end fr_estimate]. split; [exact E|].
    split; [reflexivity|]. split; [reflexivity|]. exists est, stop, ls1, wv1. now repeat split.
  - destruct (fcalc_waves (fm_motion m) ls) as [wv0|e].
    2:{ left. cbn. split; [reflexivity|]. exists e. split; [reflexivity|]. right. now right. }
    destruct (fdm_loop F m lin (Z.to_nat (x_max F)) 0 (-2) ls wv0) as [t out] eqn:E.
    right. exists ls, wv0, out. cbn [fr_passes fr_end fr_estimate]. now repeat split.
Qed.

Lemma finish_converged F m lin fuel it lim ls waves t ls' wv :
  fdm_loop F m lin fuel it lim ls waves = (t, Ok (FConverged, ls', wv)) ->
  exists ls'', fdm_finish m lin (Ok (FConverged, ls', wv)) = Ok (FConverged, ls'', wv).
Proof.
  intros El. assert (HS : FConverged <> NotFinite) by discriminate.
  destruct (floop_stop _ _ _ _ _ _ _ _ _ _ El) as [_ (t0 & st0 & -> & _)].
  destruct (floop_last _ _ _ _ _ _ _ _ _ _ _ _ HS El) as [(E & _)|(h0 & lsp & st & _ & E2 & E3 & E4 & E5)]; [now destruct t0|].
  destruct (fpass_nonempty _ _ _ _ _ _ E5) as [Hne _]. destruct (last_some lsp Hne) as [b Hb].
  destruct (fpass_nth _ _ _ _ _ _ _ Hb E5) as (L1 & L2 & L3). subst ls'.
  unfold fdm_finish. cbn [bind].
  destruct (fset_maxs_ok m (length (fs_layers st)) wv lin (removelast (fs_layers st)) 0) as (upd & E).
  { intros j l Hj. cbn [plus].
    assert (HJ : (j < length (removelast lsp))%nat).
    { assert (Hj' : (j < length (removelast (fs_layers st)))%nat) by (apply nth_error_Some; congruence).
      pose proof (length_removelast _ _ L2). pose proof (length_removelast _ _ Hb). lia. }
    destruct (nth_error (removelast lsp) j) as [l0|] eqn:E0; [|apply nth_error_None in E0; lia].
    destruct (L3 j l0 E0) as (pk & used & _ & A & A3). rewrite Hj in A3. injection A3 as ->.
    exists pk. rewrite L1. rewrite <- A. now apply strain_max_thick. }
  rewrite E. cbn [bind]. now eexists.
Qed.

(** ** C105 *)
Lemma fdm_stops F m lin reset ls :
  (length (fr_passes (fdm_call F m lin reset ls)) <= Z.to_nat (x_max F))%nat /\
  match fr_end (fdm_call F m lin reset ls) with
  | Ok (FConverged, _, _) => exists t0 st, fr_passes (fdm_call F m lin reset ls) = t0 ++ [st] /\
      fbelow (x_tol F) st /\ Forall (fun s => ~ fbelow (x_tol F) s) t0
  | Ok (FExhausted, _, _) => length (fr_passes (fdm_call F m lin reset ls)) = Z.to_nat (x_max F) /\
      Forall (fun s => ~ fbelow (x_tol F) s) (fr_passes (fdm_call F m lin reset ls))
  | _ => Forall (fun s => ~ fbelow (x_tol F) s) (fr_passes (fdm_call F m lin reset ls))
  end.
Proof.
  destruct (fcall_loop F m lin reset ls) as [(-> & e & -> & _)|(start & wv0 & out & El & -> & _)].
  { split; [cbn; lia|constructor]. }
  pose proof (floop_stop _ _ _ _ _ _ _ _ _ _ El) as [HL HR]. split; [exact HL|].
  destruct out as [[[stop ls2] wv]|e]; [|exact HR]. destruct stop.
  - destruct (finish_converged _ _ _ _ _ _ _ _ _ _ _ El) as [ls'' ->]. exact HR.
  - unfold fdm_finish. cbn [bind]. destruct (fset_maxs _ _ _ _ _ _) as [upd|e]; cbn [bind]; [exact HR|exact (proj2 HR)].
  - exact HR.
Qed.

Lemma fpasses_limited F m lin x t : flimit_on F x -> forall ls, fpasses F m lin ls t ->
  forall st, In st t -> Forall (fun l => forall k s, at_freq (f_strain l) k = Some s -> s <= x) (removelast (fs_layers st)).
Proof.
  intros Hx. induction t as [|s t IH]; intros ls HP st Hin; [contradiction|].
  destruct HP as (wv & Ew & Ep & HP). destruct Hin as [<-|Hin]; [|exact (IH _ HP st Hin)].
  destruct (fpass_nonempty _ _ _ _ _ _ Ep) as [Hne _]. destruct (last_some ls Hne) as [b Hb].
  destruct (fpass_nth _ _ _ _ _ _ _ Hb Ep) as (L1 & L2 & L3).
  apply Forall_forall. intros l Hl k v Hv. apply In_nth_error in Hl. destruct Hl as [j Hj].
  assert (HJ : (j < length (removelast ls))%nat).
  { assert (Hj' : (j < length (removelast (fs_layers s)))%nat) by (apply nth_error_Some; congruence).
    pose proof (length_removelast _ _ L2). pose proof (length_removelast _ _ Hb). lia. }
  destruct (nth_error (removelast ls) j) as [l0|] eqn:E0; [|apply nth_error_None in E0; lia].
  destruct (L3 j l0 E0) as (pk & used & (tf & prod & ss & _ & _ & _ & _ & U) & _ & A). rewrite Hj in A. injection A as ->.
  cbn [fset_strain f_strain at_freq] in Hv.
  destruct (forall2_nth_r _ _ _ U k v Hv) as (s0 & _ & Hu). exact (fused_le _ _ _ _ Hu Hx).
Qed.
Lemma fdm_limit_enforced F m lin reset ls x : flimit_on F x ->
  forall st, In st (fr_passes (fdm_call F m lin reset ls)) ->
  Forall (fun l => forall k s, at_freq (f_strain l) k = Some s -> s <= x) (removelast (fs_layers st)).
Proof.
  intros Hx. destruct (fcall_loop F m lin reset ls) as [(-> & _)|(start & wv0 & out & El & _)]; [contradiction|].
  exact (fpasses_limited F m lin x _ Hx _ (floop_passes _ _ _ _ _ _ _ _ _ _ El)).
Qed.

(** ** Errors *)
Lemma spectrum_err F freqs fas eff e : strain_spectrum F freqs fas eff = Err e -> e = ValueError.
Proof.
  assert (HM : forall ef xs e0, scaled_by_max ef xs = Err e0 -> e0 = ValueError).
  { intros ef xs e0. unfold scaled_by_max. destruct xs; cbn [np_max bind]; [|discriminate]. intros H. now injection H as <-. }
  unfold strain_spectrum. destruct (text_eqb _ _); [discriminate|]. destruct (starts _ _).
  - destruct (py_float _) as [bw|e0] eqn:Ep; cbn [bind].
    + destruct (scaled_by_max _ _) as [os|e0] eqn:Es; cbn [bind]; [discriminate|]. intros H. injection H as <-. exact (HM _ _ _ Es).
    + intros H. injection H as <-. unfold py_float in Ep. destruct (signed _) as [neg r]. destruct (span_digits r) as [whole r1].
      match type of Ep with (let (_, _) := ?x in _) = _ => destruct x as [frac r2] end.
      destruct (nat_text _); [|now injection Ep as <-]. destruct (exponent r2); [discriminate|now injection Ep as <-].
  - apply HM.
Qed.
Lemma np_mul_err x ys e : np_mul x ys = Err e -> e = ValueError.
Proof.
  unfold np_mul. destruct x as [c|xs]; [discriminate|]. destruct (Nat.eqb _ _); [discriminate|].
  destruct xs as [|c [|c' xs]]; destruct ys as [|d [|d' ys]]; try discriminate; intros H; now injection H as <-.
Qed.
Lemma zipv_err a b e : zipv a b = Err e -> e = ValueError.
Proof. destruct a, b; cbn; try discriminate. destruct (Nat.eqb _ _); [discriminate|]. intros H. now injection H as <-. Qed.
Lemma frelative_err i e : frelative_error i = Err e -> e = ValueError.
Proof.
  unfold frelative_error. destruct (zipv _ _) as [ps|e0] eqn:E; cbn [bind].
  - destruct (forallb _ _).
    + destruct (map _ ps); cbn [np_max bind]; [|discriminate]. intros H. now injection H as <-.
    + destruct (forallb _ _); discriminate.
  - intros H. injection H as <-. exact (zipv_err _ _ _ E).
Qed.
Lemma fmax_error_err l e : fmax_error l = Err e -> e = ValueError.
Proof.
  unfold fmax_error. destruct (frelative_error (f_G l)) as [a|e0] eqn:E1; cbn [bind].
  - destruct (frelative_error (f_D l)) as [b|e0] eqn:E2; cbn [bind]; [discriminate|]. intros H. injection H as <-. exact (frelative_err _ _ E2).
  - intros H. injection H as <-. exact (frelative_err _ _ E1).
Qed.
Lemma fmax_errors_err ls e : fmax_errors ls = Err e -> e = ValueError.
Proof.
  induction ls as [|l ls IH]; cbn [fmax_errors]; [intros H; now injection H as <-|].
  destruct ls as [|l' ls]; [apply fmax_error_err|].
  destruct (fmax_error l) as [a|e0] eqn:E1; cbn [bind].
  - destruct (fmax_errors (l' :: ls)) as [b|e0]; cbn [bind]; [discriminate|]. intros H. injection H as <-. now apply IH.
  - intros H. injection H as <-. exact (fmax_error_err _ _ E1).
Qed.
Definition quiet (m : fmotion) (e : exn) : Prop := kernel_exn e \/ e = ValueError \/ exists tf, m_peak (fm_motion m) tf = Err e.
Lemma strain_tfs_err m n waves lin i z e : calc_strain_tfs m n waves lin (mkLoc i z Within) = Err e -> kernel_exn e.
Proof.
  unfold calc_strain_tfs; cbn [loc_field loc_index].
  destruct (_ && _)%bool; [|intros H; right; cbn in H; congruence].
  intros E. apply mapM_err in E. destruct E as (wr & _ & E).
  unfold strain_tf_row in E. destruct (nth_error (snd wr) _) as [o|]; [|right; congruence].
  destruct (nth_error (snd wr) _) as [j|]; [|right; congruence].
  destruct (r_k o); [|left; congruence]. destruct (r_k j); [|left; congruence].
  left. unfold strain_tf_numba in E. destruct (Rltb _ _); [discriminate|]. now apply cdiv_nb_err in E.
Qed.
Lemma fdm_strain_err F m n waves lin i l e : fdm_strain F m n waves lin i l = Err e -> quiet m e.
Proof.
  unfold fdm_strain. destruct (calc_strain_tfs _ _ _ _ _) as [tf|e0] eqn:E1; cbn [bind].
  2:{ intros H. injection H as <-. left. exact (strain_tfs_err _ _ _ _ _ _ _ E1). }
  destruct (np_mul _ _) as [prod|e0] eqn:E2; cbn [bind].
  2:{ intros H. injection H as <-. right. left. exact (np_mul_err _ _ _ E2). }
  destruct (m_peak (fm_motion m) tf) as [pk|e0] eqn:E3; cbn [bind].
  2:{ intros H. injection H as <-. right. right. now exists tf. }
  intros H. right. left. exact (spectrum_err _ _ _ _ _ H).
Qed.
Lemma fupdate_err F m n waves lin ls : forall i e, fupdate F m n waves lin i ls = Err e -> quiet m e.
Proof.
  induction ls as [|l ls IH]; intros i e H; cbn [fupdate] in H; [discriminate|].
  destruct (fdm_strain F m n waves lin i l) as [[ss|]|e0] eqn:Es; cbn [bind] in H; [| discriminate|].
  2:{ injection H as <-. exact (fdm_strain_err _ _ _ _ _ _ _ _ Es). }
  destruct (flimit _ _) as [s b]. destruct (fupdate F m n waves lin (S i) ls) as [r|e0] eqn:Eu; cbn [bind] in H; [discriminate|].
  injection H as <-. exact (IH _ _ Eu).
Qed.
Lemma fpass_err F m lin waves ls e : fdm_pass F m lin waves ls = Err e -> quiet m e.
Proof.
  unfold fdm_pass. destruct (fupdate _ _ _ _ _ _ _) as [[[upd lim]|]|e0] eqn:Eu; cbn [bind]; [|discriminate|].
  - destruct (fmax_errors _) as [x|e0] eqn:Em; cbn [bind]; [discriminate|]. intros H. injection H as <-. right. left.
    exact (fmax_errors_err _ _ Em).
  - intros H. injection H as <-. exact (fupdate_err _ _ _ _ _ _ _ _ Eu).
Qed.
Lemma fwlayer_err k l e : fwlayer k l = Err e -> e = ValueError.
Proof. unfold fwlayer. destruct (at_freq _ k); [destruct (at_freq _ k)|]; try discriminate; intros H; now injection H as <-. Qed.
Lemma numba_err w ls e : calc_waves_numba w ls = Err e -> kernel_exn e.
Proof.
  unfold calc_waves_numba. intros H. destruct ls as [|l ls].
  - injection H as <-. now right.
  - destruct (wave_nums_nb w (l :: ls)) as [ks|e'] eqn:Ek; cbn [bind] in H.
    + discriminate.
    + injection H as <-. left. now apply wave_nums_nb_err in Ek.
Qed.
Lemma fwaves_err m ls e : fcalc_waves m ls = Err e -> kernel_exn e \/ e = ValueError.
Proof.
  intros H. apply mapM_err in H. destruct H as (kw & _ & H).
  destruct (mapM (fwlayer (fst kw)) ls) as [ws|e0] eqn:E; cbn [bind] in H.
  - left. exact (numba_err _ _ _ H).
  - injection H as ->. apply mapM_err in E. destruct E as (l & _ & E). right. exact (fwlayer_err _ _ _ E).
Qed.
Lemma fset_maxs_err m n waves lin ls : forall i e, fset_maxs m n waves lin i ls = Err e -> quiet m e.
Proof.
  induction ls as [|l ls IH]; intros i e H; cbn [fset_maxs] in H; [discriminate|].
  destruct (calc_strain_max _ _ _ _ _ _) as [mx|e0] eqn:Em; cbn [bind] in H.
  - destruct (fset_maxs m n waves lin (S i) ls) as [u|e0] eqn:Eu; cbn [bind] in H; [discriminate|].
    injection H as <-. exact (IH _ _ Eu).
  - injection H as <-. apply strain_max_err in Em. destruct Em as [E|E]; [now left|right; now right].
Qed.
Lemma quiet_runtime m : (forall tf, m_peak (fm_motion m) tf <> Err RuntimeError) -> ~ quiet m RuntimeError.
Proof. intros H [[G|G]|[G|[tf G]]]; try discriminate. exact (H tf G). Qed.

Lemma floop_limit F m lin fuel : (forall tf, m_peak (fm_motion m) tf <> Err RuntimeError) ->
  forall it lim ls waves t r (prev : bool), (lim <= it - 1)%Z ->
  (prev = true <-> lim = (it - 1)%Z) ->
  fdm_loop F m lin fuel it lim ls waves = (t, r) ->
  (forall pre a b post, t = pre ++ a :: b :: post -> fs_limited a = true -> fs_limited b = true ->
     ~ fbelow (x_tol F) b -> post = [] /\ r = Err RuntimeError) /\
  (forall b post, t = b :: post -> prev = true -> fs_limited b = true -> ~ fbelow (x_tol F) b ->
     post = [] /\ r = Err RuntimeError) /\
  (r = Err RuntimeError ->
     (exists pre a b, t = pre ++ [a; b] /\ fs_limited a = true /\ fs_limited b = true) \/
     (prev = true /\ exists b, t = [b] /\ fs_limited b = true)).
Proof.
  intros Hpk. induction fuel as [|fuel IH]; intros it lim ls waves t r prev Hle Hprev H; cbn [fdm_loop] in H.
  { injection H as <- <-. split; [intros [|? ?]; discriminate|]. split; discriminate. }
  destruct (fcalc_waves (fm_motion m) ls) as [wv|e] eqn:Ew.
  2:{ injection H as <- <-. split; [intros [|? ?]; discriminate|]. split; [discriminate|].
      intros E. injection E as ->. apply fwaves_err in Ew. destruct Ew as [[G|G]|G]; discriminate. }
  destruct (fdm_pass F m lin wv ls) as [[st|]|e] eqn:Ep.
  2:{ injection H as <- <-. split; [intros [|? ?]; discriminate|]. split; discriminate. }
  2:{ injection H as <- <-. split; [intros [|? ?]; discriminate|]. split; [discriminate|].
      intros E. injection E as ->. apply fpass_err in Ep. now apply quiet_runtime in Ep. }
  destruct (err_below (fs_error st) (x_tol F)) eqn:Eb.
  { injection H as <- <-. split; [intros [|x [|? ?]]; discriminate|]. split.
    - intros b post E _ _ N. injection E as <- <-. elim N. now apply fbelow_err.
    - discriminate. }
  apply not_fbelow in Eb.
  destruct (fs_limited st && (lim =? it - 1)%Z)%bool eqn:El.
  { injection H as <- <-. apply andb_prop in El. destruct El as [L1 L2]. apply Z.eqb_eq in L2.
    split; [intros [|x [|? ?]]; discriminate|]. split.
    - intros b post E _ _ N. injection E as <- <-. now split.
    - intros _. right. split; [now apply Hprev|]. now exists st. }
  set (nl := if fs_limited st then it else lim) in H.
  destruct (fdm_loop F m lin fuel (it + 1) nl (fs_layers st) wv) as [t' r'] eqn:E.
  cbn [fst snd] in H. injection H as <- <-.
  destruct (IH (it + 1)%Z nl (fs_layers st) wv t' r' (fs_limited st)) as (A1 & A2 & A3).
  { unfold nl. destruct (fs_limited st); lia. }
  { unfold nl. destruct (fs_limited st); split; intros G; try discriminate; try lia. }
  { exact E. }
  split; [|split].
  - intros [|x pre] a b post Et La Lb Nb; cbn [app] in Et; injection Et as Ex Et'.
    + subst a. exact (A2 b post Et' La Lb Nb).
    + exact (A1 pre a b post Et' La Lb Nb).
  - intros b post Et Hp Lb Nb. injection Et as <- <-. rewrite Lb in El. cbn in El.
    apply Z.eqb_neq in El. elim El. now apply Hprev.
  - intros Hr. left. destruct (A3 Hr) as [(pre & a & b & -> & La & Lb)|(Hp & b & -> & Lb)].
    + exists (st :: pre), a, b. now repeat split.
    + exists [], st, b. now repeat split.
Qed.

Lemma fdm_limit_error F m lin reset ls : ls <> [] ->
  (forall tf, m_peak (fm_motion m) tf <> Err RuntimeError) ->
  (fr_end (fdm_call F m lin reset ls) = Err RuntimeError <->
   (exists pre a b, fr_passes (fdm_call F m lin reset ls) = pre ++ [a; b] /\ fs_limited a = true /\ fs_limited b = true /\
      ~ fbelow (x_tol F) a /\ ~ fbelow (x_tol F) b) \/
   (exists pre a b post, fr_estimate (fdm_call F m lin reset ls) = pre ++ a :: b :: post /\ st_limited a = true /\
      st_limited b = true /\ ~ below 0.01 a /\ ~ below 0.01 b)) /\
  (forall pre a b post, fr_passes (fdm_call F m lin reset ls) = pre ++ a :: b :: post ->
     fs_limited a = true -> fs_limited b = true -> ~ fbelow (x_tol F) b -> post = []).
Proof.
  intros Hne Hpk.
  assert (Hne' : map freset ls <> []) by (now destruct ls).
  pose proof (fdm_stops F m lin reset ls) as [_ HS].
  assert (HE : forall est r, eql_call (estimator F) (fm_motion m) lin true (map freset ls) = (est, r) ->
    (r = Err RuntimeError <-> exists pre a b post, est = pre ++ a :: b :: post /\ st_limited a = true /\
      st_limited b = true /\ ~ below 0.01 a /\ ~ below 0.01 b)).
  { intros est r E. exact (proj1 (eql_limit_error _ _ _ _ _ _ _ Hne' Hpk E)). }
  unfold fdm_call in *. destruct reset.
  - destruct (calc_waves (fm_motion m) (map freset ls)) as [wv0|e] eqn:Ew.
    2:{ cbn [fr_passes fr_end fr_estimate]. split; [|intros [|? ?]; discriminate]. split.
        - intros H. injection H as ->. apply calc_waves_err in Ew. destruct Ew; discriminate.
        - intros [([|? ?] & ? & ? & ? & _)|([|? ?] & ? & ? & ? & ? & _)]; discriminate. }
    destruct (eql_call (estimator F) (fm_motion m) lin true (map freset ls)) as [est r] eqn:Ee.
    specialize (HE est r eq_refl).
    destruct r as [[[stop ls1] wv1]|e].
    2:{ cbn [fr_passes fr_end fr_estimate]. split; [|intros [|? ?]; discriminate]. split.
        - intros H. right. apply HE. congruence.
        - intros [([|? ?] & ? & ? & ? & _)|H]; try discriminate. apply HE in H. congruence. }
    destruct (fdm_loop F m lin (Z.to_nat (x_max F)) 0 (-2) (map of_layer ls1) wv0) as [t out] eqn:El.
    cbn [fr_passes fr_end fr_estimate] in *.
    destruct (floop_limit F m lin _ Hpk 0%Z (-2)%Z _ _ _ _ false ltac:(lia) ltac:(split; [discriminate|lia]) El) as (A1 & _ & A3).
    split; [split|].
    + intros H. left.
      assert (Eo : out = Err RuntimeError).
      { destruct out as [[[[| |] ls2] wv]|e]; unfold fdm_finish in H; cbn [bind] in H; try congruence;
        destruct (fset_maxs _ _ _ _ _ _) as [u|e] eqn:Es; cbn [bind] in H; try discriminate; injection H as ->;
        apply fset_maxs_err in Es; now apply quiet_runtime in Es. }
      subst out. destruct (A3 eq_refl) as [(pre & a & b & -> & La & Lb)|(D & _)]; [|discriminate].
      cbn [fdm_finish bind] in HS. rewrite Forall_forall in HS.
      exists pre, a, b. split; [reflexivity|]. split; [exact La|]. split; [exact Lb|].
      split; apply HS; apply in_or_app; right; [left|right; left]; reflexivity.
    + intros [(pre & a & b & Et & La & Lb & _ & Nb)|H].
      * destruct (A1 pre a b [] Et La Lb Nb) as [_ ->]. reflexivity.
      * apply HE in H. discriminate.
    + intros pre a b post Et La Lb Nb. exact (proj1 (A1 pre a b post Et La Lb Nb)).
  - destruct (fcalc_waves (fm_motion m) ls) as [wv0|e] eqn:Ew.
    2:{ cbn [fr_passes fr_end fr_estimate]. split; [|intros [|? ?]; discriminate]. split.
        - intros H. injection H as ->. apply fwaves_err in Ew. destruct Ew as [[G|G]|G]; discriminate.
        - intros [([|? ?] & ? & ? & ? & _)|([|? ?] & ? & ? & ? & ? & _)]; discriminate. }
    destruct (fdm_loop F m lin (Z.to_nat (x_max F)) 0 (-2) ls wv0) as [t out] eqn:El.
    cbn [fr_passes fr_end fr_estimate] in *.
    destruct (floop_limit F m lin _ Hpk 0%Z (-2)%Z _ _ _ _ false ltac:(lia) ltac:(split; [discriminate|lia]) El) as (A1 & _ & A3).
    split; [split|].
    + intros H. left.
      assert (Eo : out = Err RuntimeError).
      { destruct out as [[[[| |] ls2] wv]|e]; unfold fdm_finish in H; cbn [bind] in H; try congruence;
        destruct (fset_maxs _ _ _ _ _ _) as [u|e] eqn:Es; cbn [bind] in H; try discriminate; injection H as ->;
        apply fset_maxs_err in Es; now apply quiet_runtime in Es. }
      subst out. destruct (A3 eq_refl) as [(pre & a & b & -> & La & Lb)|(D & _)]; [|discriminate].
      cbn [fdm_finish bind] in HS. rewrite Forall_forall in HS.
      exists pre, a, b. split; [reflexivity|]. split; [exact La|]. split; [exact Lb|].
      split; apply HS; apply in_or_app; right; [left|right; left]; reflexivity.
    + intros [(pre & a & b & Et & La & Lb & _ & Nb)|([|? ?] & ? & ? & ? & H & _)]; try discriminate.
      destruct (A1 pre a b [] Et La Lb Nb) as [_ ->]. reflexivity.
    + intros pre a b post Et La Lb Nb. exact (proj1 (A1 pre a b post Et La Lb Nb)).
Qed.
