(** What an equivalent-linear run leaves behind. *)
From Verif Require Import Common Proof.CommonFacts Model.Curve Model.Layer Model.Cplx Model.Waves Model.Eql
  Spec.CurveSpec Spec.LayerSpec Spec.WaveSpec Spec.EqlSpec Proof.CurveFacts Proof.LayerFacts Proof.CplxFacts
  Proof.WaveFacts Proof.WaveEnergy Proof.WaveProps Proof.EqlFacts Proof.EqlProps.
From Coq Require Import List.
From Coquelicot Require Import Complex.
Local Open Scope R_scope.

(** The description of a layer that no iteration changes. *)
Definition same_site (a b : layer) : Prop :=
  l_soil a = l_soil b /\ l_thick a = l_thick b /\ l_vs a = l_vs b /\ l_dmin a = l_dmin b.

Lemma same_site_refl l : same_site l l. Proof. now repeat split. Qed.

Definition sites_kept (h ls : list layer) : Prop :=
  length h = length ls /\ last_opt h = last_opt ls /\
  forall i l, nth_error ls i = Some l -> exists l', nth_error h i = Some l' /\ same_site l' l.

Lemma pass_kept P m lin waves ls st : ls <> [] -> eql_pass P m lin waves ls = Ok st ->
  sites_kept (st_layers st) ls.
Proof.
  intros Hne H. destruct (last_some ls Hne) as [b Hb].
  destruct (pass_nth _ _ _ _ _ _ _ Hb H) as (L1 & L2 & L3).
  split; [exact L1|]. split; [congruence|]. intros i l Hl.
  destruct (Nat.eq_dec i (length ls - 1)) as [->|Ni].
  - exists b. rewrite <- last_opt_nth in Hl. rewrite <- L1, <- last_opt_nth. split; [exact L2|].
    replace l with b by congruence. apply same_site_refl.
  - assert (Hi : (i < length ls)%nat) by (apply nth_error_Some; congruence).
    rewrite <- nth_removelast_lt in Hl by lia.
    destruct (L3 i l Hl) as (mx & s & _ & _ & E). exists (set_strain l s).
    split; [now apply nth_removelast|]. now repeat split.
Qed.

Lemma sites_kept_trans a b c : sites_kept a b -> sites_kept b c -> sites_kept a c.
Proof.
  intros (A1 & A2 & A3) (B1 & B2 & B3). split; [congruence|]. split; [congruence|].
  intros i l Hl. destruct (B3 i l Hl) as (l1 & E1 & S1). destruct (A3 i l1 E1) as (l2 & E2 & S2).
  exists l2. split; [exact E2|]. destruct S1 as (? & ? & ? & ?), S2 as (? & ? & ? & ?).
  repeat split; congruence.
Qed.

Lemma passes_kept P m lin t : forall ls, ls <> [] -> passes P m lin ls t ->
  forall h, In h (history ls t) -> sites_kept h ls.
Proof.
  induction t as [|s t IH]; intros ls Hne HP h Hh.
  - destruct Hh as [<-|[]]. split; [reflexivity|]. split; [reflexivity|].
    intros i l Hl. exists l. split; [exact Hl|apply same_site_refl].
  - destruct HP as (wv & _ & Ep & HP). destruct Hh as [<-|Hh].
    + split; [reflexivity|]. split; [reflexivity|].
      intros i l Hl. exists l. split; [exact Hl|apply same_site_refl].
    + eapply sites_kept_trans; [|exact (pass_kept _ _ _ _ _ _ Hne Ep)].
      apply (IH (st_layers s)); [exact (pass_nonempty _ _ _ _ _ _ Hne Ep)|exact HP|exact Hh].
Qed.

Lemma passes_assignable P m lin t : forall ls, ls <> [] -> Forall assignable ls -> passes P m lin ls t ->
  forall h, In h (history ls t) -> Forall assignable h.
Proof.
  induction t as [|s t IH]; intros ls Hne HF HP h Hh.
  - destruct Hh as [<-|[]]. exact HF.
  - destruct HP as (wv & _ & Ep & HP). destruct Hh as [<-|Hh]; [exact HF|].
    apply (IH (st_layers s)); [exact (pass_nonempty _ _ _ _ _ _ Hne Ep)| |exact HP|exact Hh].
    exact (proj1 (pass_assignable _ _ _ _ _ _ Hne HF Ep)).
Qed.

Lemma start_site m reset ls i l : nth_error ls i = Some l ->
  exists l', nth_error (start_layers m reset ls) i = Some l' /\ same_site l' l.
Proof.
  intros H. unfold start_layers. destruct reset; [|exists l; split; [exact H|apply same_site_refl]].
  unfold estimate_strains. rewrite map_map. eexists. split; [apply map_nth_error, H|]. now repeat split.
Qed.

Lemma start_length m reset ls : length (start_layers m reset ls) = length ls.
Proof. unfold start_layers, estimate_strains. destruct reset; rewrite ?map_length; reflexivity. Qed.

(** The end of a run that made at least one pass. *)
Lemma call_end P m lin reset ls t stop ls' wv : ls <> [] -> t <> [] ->
  eql_call P m lin reset ls = (t, Ok (stop, ls', wv)) ->
  exists h0 lsp st upd b, history (start_layers m reset ls) t = h0 ++ [lsp; st_layers st] /\
    last_opt t = Some st /\ lsp <> [] /\
    calc_waves m lsp = Ok wv /\ eql_pass P m lin wv lsp = Ok st /\
    passes P m lin (start_layers m reset ls) t /\
    last_opt lsp = Some b /\
    set_strain_maxs m (length (st_layers st)) wv lin 0 (removelast (st_layers st)) = Ok upd /\
    ls' = upd ++ [b].
Proof.
  intros Hne Ht H.
  destruct (call_loop P m lin reset ls t _ H) as [(-> & _)|(wv0 & out & Ew & El & Er)]; [contradiction|].
  destruct out as [[[stop2 ls2] wv2]|e]; cbn [bind] in Er; [|discriminate].
  destruct (set_strain_maxs m (length ls2) wv2 lin 0 (removelast ls2)) as [upd|e] eqn:Es; cbn [bind] in Er; [|discriminate].
  injection Er as <- -> <-.
  destruct (loop_last _ _ _ _ _ _ _ _ _ _ _ _ El) as [(-> & _)|(h0 & lsp & st & E1 & E2 & <- & E4 & E5)];
    [contradiction|].
  pose proof (loop_passes _ _ _ _ _ _ _ _ _ _ El) as HP.
  assert (Hlsp : lsp <> []).
  { assert (K : sites_kept lsp (start_layers m reset ls)).
    { apply (passes_kept P m lin t); [now apply start_nonempty|exact HP|].
      rewrite E1. apply in_or_app. right. now left. }
    destruct K as [K _]. rewrite start_length in K. destruct lsp; [|discriminate].
    destruct ls; [contradiction|discriminate]. }
  destruct (last_some lsp Hlsp) as [b Hb].
  exists h0, lsp, st, upd, b. destruct (pass_nth _ _ _ _ _ _ _ Hb E5) as (_ & L2 & _).
  rewrite L2. split; [exact E1|]. split; [exact E2|]. split; [exact Hlsp|]. split; [exact E4|].
  split; [exact E5|]. split; [exact HP|]. split; [exact Hb|]. split; [exact Es|reflexivity].
Qed.

(** ** C71: strain compatibility *)
Theorem eql_compatible P m lin reset ls t stop ls' wv : ls <> [] ->
  (reset = false -> Forall assignable ls) -> t <> [] ->
  eql_call P m lin reset ls = (t, Ok (stop, ls', wv)) ->
  length ls' = length ls /\
  forall i l0, (i < length ls - 1)%nat -> nth_error ls i = Some l0 ->
  exists l mx, nth_error ls' i = Some l /\
    l_soil l = l_soil l0 /\ l_thick l = l_thick l0 /\ l_vs l = l_vs l0 /\ l_dmin l = l_dmin l0 /\
    l_smax l = Some mx /\ used_strain P mx (strain l) /\
    shear_mod l = spec_G (density (l_soil l0)) (l_vs l0) (soil_behaviour (l_soil l0)) (Some (strain l)) /\
    damping l = spec_D (l_dmin l0) (soil_behaviour (l_soil l0)) (Some (strain l)).
Proof.
  intros Hne HA Ht H.
  destruct (call_end P m lin reset ls t stop ls' wv Hne Ht H)
    as (h0 & lsp & st & upd & b & E1 & E2 & Hlsp & E4 & E5 & HP & Hb & Es & ->).
  assert (Hin : In lsp (history (start_layers m reset ls) t)) by (rewrite E1; apply in_or_app; right; now left).
  pose proof (passes_kept P m lin t _ (start_nonempty m reset ls Hne) HP lsp Hin) as (K1 & K2 & K3).
  rewrite start_length in K1.
  pose proof (passes_assignable P m lin t _ (start_nonempty m reset ls Hne) (start_assignable m reset ls HA) HP lsp Hin) as HF.
  destruct (pass_nth _ _ _ _ _ _ _ Hb E5) as (L1 & L2 & L3).
  destruct (set_maxs_nth _ _ _ _ _ _ _ Es) as [M1 M2].
  pose proof (length_removelast _ _ L2) as R1. pose proof (length_removelast _ _ Hb) as R2.
  split; [rewrite app_length; cbn; lia|].
  intros i l0 Hi Hl0.
  destruct (start_site m reset ls i l0 Hl0) as (l1 & N1 & S1).
  destruct (K3 i l1 N1) as (lp & Np & Sp).
  rewrite <- nth_removelast_lt in Np by lia.
  destruct (L3 i lp Np) as (mx & s & A1 & A2 & A3).
  destruct (M2 i _ A3) as (mx' & B1 & B2).
  assert (mx' = mx).
  { assert (G : Ok mx' = Ok mx); [|congruence]. rewrite <- B1, <- A1, L1. now apply strain_max_thick. }
  subst mx'.
  assert (As : assignable lp).
  { rewrite Forall_forall in HF. apply HF. apply nth_error_In with i. now apply nth_removelast. }
  destruct (assignable_set lp s As) as [_ Estr].
  exists (set_strain_max (set_strain lp s) mx), mx.
  destruct S1 as (S11 & S12 & S13 & S14), Sp as (S21 & S22 & S23 & S24).
  assert (E' : strain (set_strain_max (set_strain lp s) mx) = s) by exact Estr.
  rewrite E'. split; [rewrite nth_error_app1; [exact B2|apply nth_error_Some; congruence]|].
  split; [cbn; congruence|]. split; [cbn; congruence|]. split; [cbn; congruence|]. split; [cbn; congruence|].
  split; [reflexivity|]. split; [exact A2|].
  rewrite <- S11, <- S13, <- S14, <- S21, <- S23, <- S24. split.
  - exact (compute_mod_spec lp s).
  - exact (compute_damping_spec lp s).
Qed.

(** The half-space keeps the strain estimated from the peak velocity. *)
Theorem eql_bedrock P m lin ls t stop ls' wv b : last_opt ls = Some b ->
  eql_call P m lin true ls = (t, Ok (stop, ls', wv)) ->
  exists b', last_opt ls' = Some b' /\ strain b' = (m_pgv m / 100) / l_vs b /\
    shear_mod b' = spec_G (density (l_soil b)) (l_vs b) (soil_behaviour (l_soil b)) (Some (strain b')) /\
    damping b' = spec_D (l_dmin b) (soil_behaviour (l_soil b)) (Some (strain b')) /\
    forall st, In st t -> last_opt (st_layers st) = Some b'.
Proof.
  intros Hb H.
  assert (Hne : ls <> []) by (intros ->; discriminate).
  destruct (call_loop P m lin true ls t _ H) as [(_ & e & E & _)|(wv0 & out & Ew & El & Er)]; [discriminate|].
  destruct out as [[[stop2 ls2] wv2]|e]; cbn [bind] in Er; [|discriminate].
  destruct (set_strain_maxs m (length ls2) wv2 lin 0 (removelast ls2)) as [upd|e] eqn:Es; cbn [bind] in Er; [|discriminate].
  injection Er as <- -> <-.
  pose proof (loop_passes _ _ _ _ _ _ _ _ _ _ El) as HP.
  set (v := (m_pgv m / 100) / l_vs b).
  assert (Hs : last_opt (start_layers m true ls) = Some (set_strain (layer_reset (layer_reset b)) v)).
  { unfold start_layers, estimate_strains. rewrite map_map, last_opt_map, Hb. reflexivity. }
  assert (HK : forall h, In h (history (start_layers m true ls) t) ->
     last_opt h = Some (set_strain (layer_reset (layer_reset b)) v)).
  { intros h Hh. destruct (passes_kept P m lin t _ (start_nonempty m true ls Hne) HP h Hh) as (_ & K & _).
    now rewrite K. }
  assert (H2 : In ls2 (history (start_layers m true ls) t)).
  { destruct (loop_last _ _ _ _ _ _ _ _ _ _ _ _ El) as [(-> & -> & _)|(h0 & lsp & st & E1 & _)].
    - now left.
    - rewrite E1. apply in_or_app. right. right. now left. }
  rewrite (HK ls2 H2).
  exists (set_strain (layer_reset (layer_reset b)) v).
  rewrite last_opt_app. split; [reflexivity|].
  assert (Estr : strain (set_strain (layer_reset (layer_reset b)) v) = v).
  { apply assignable_set, assignable_reset. }
  rewrite Estr. split; [reflexivity|]. split; [exact (compute_mod_spec (layer_reset (layer_reset b)) v)|].
  split; [exact (compute_damping_spec (layer_reset (layer_reset b)) v)|].
  intros st Hst. apply HK. right. now apply in_map.
Qed.

(** ** C27 *)
Lemma max_errors_below ls e tol : max_errors ls = Ok e -> err_below e tol = true ->
  forall l, In l ls -> err_below (max_error l) tol = true.
Proof.
  revert e. induction ls as [|l ls IH]; intros e He Hb l' Hl'; [contradiction|]. cbn [max_errors] in He.
  destruct ls as [|l2 ls].
  - injection He as <-. destruct Hl' as [<-|[]]. exact Hb.
  - destruct (max_errors (l2 :: ls)) as [e2|] eqn:E2; [|discriminate]. cbn [bind] in He. injection He as <-.
    assert (G : err_below (max_error l) tol = true /\ err_below e2 tol = true).
    { destruct (max_error l) as [x|], e2 as [y|]; cbn [perr_max err_below] in *; try discriminate.
      unfold Rltb in *. destruct (Rlt_dec (Rmax x y) tol) as [G|]; [|discriminate].
      pose proof (Rmax_l x y). pose proof (Rmax_r x y).
      destruct (Rlt_dec x tol), (Rlt_dec y tol); try lra; try (now split). }
    destruct Hl' as [<-|Hl']; [apply G|]. exact (IH e2 eq_refl (proj2 G) l' Hl').
Qed.

Lemma max_error_parts l tol : err_below (max_error l) tol = true ->
  (0 < shear_mod l -> pct (it_prev (l_G l)) (shear_mod l) < tol) /\
  (0 < damping l -> pct (it_prev (l_D l)) (damping l) < tol).
Proof.
  unfold max_error, relative_error, shear_mod, damping, pct. intros H.
  unfold Rltb in H. split; intros Hp.
  - destruct (Rlt_dec 0 (it_value (l_G l))) as [_|N]; [|contradiction].
    destruct (if Rlt_dec 0 (it_value (l_D l)) then true else false).
    + cbn [perr_max err_below] in H. unfold Rltb in H. destruct (Rlt_dec _ tol) as [G|]; [|discriminate].
      eapply Rle_lt_trans; [apply Rmax_l|exact G].
    + destruct (isclose _ _); cbn [perr_max err_below] in H; [|discriminate].
      unfold Rltb in H. destruct (Rlt_dec _ tol) as [G|]; [|discriminate].
      eapply Rle_lt_trans; [apply Rmax_l|exact G].
  - destruct (Rlt_dec 0 (it_value (l_D l))) as [_|N]; [|contradiction].
    destruct (if Rlt_dec 0 (it_value (l_G l)) then true else false).
    + cbn [perr_max err_below] in H. unfold Rltb in H. destruct (Rlt_dec _ tol) as [G|]; [|discriminate].
      eapply Rle_lt_trans; [apply Rmax_r|exact G].
    + destruct (isclose _ _); cbn [perr_max err_below] in H; [|discriminate].
      unfold Rltb in H. destruct (Rlt_dec _ tol) as [G|]; [|discriminate].
      eapply Rle_lt_trans; [apply Rmax_r|exact G].
Qed.

Theorem eql_converged_one_sided P m lin reset ls t ls' wv : ls <> [] ->
  eql_call P m lin reset ls = (t, Ok (Converged, ls', wv)) ->
  exists h0 before after, history (start_layers m reset ls) t = h0 ++ [before; after] /\
  forall i l l', (i < length ls - 1)%nat -> nth_error before i = Some l -> nth_error ls' i = Some l' ->
    (0 < shear_mod l' -> pct (shear_mod l) (shear_mod l') < e_tol P) /\
    (0 < damping l' -> pct (damping l) (damping l') < e_tol P).
Proof.
  intros Hne H. pose proof (eql_stops _ _ _ _ _ _ _ H) as [_ (t0 & st0 & Et & B & _)].
  assert (Ht : t <> []) by (rewrite Et; now destruct t0).
  destruct (call_end P m lin reset ls t Converged ls' wv Hne Ht H)
    as (h0 & lsp & st & upd & b & E1 & E2 & Hlsp & E4 & E5 & HP & Hb & Es & ->).
  rewrite Et, last_opt_app in E2. injection E2 as <-.
  exists h0, lsp, (st_layers st0). split; [exact E1|].
  assert (Hin : In lsp (history (start_layers m reset ls) t)) by (rewrite E1; apply in_or_app; right; now left).
  pose proof (passes_kept P m lin t _ (start_nonempty m reset ls Hne) HP lsp Hin) as (K1 & K2 & K3).
  rewrite start_length in K1.
  destruct (pass_nth _ _ _ _ _ _ _ Hb E5) as (L1 & L2 & L3).
  destruct (set_maxs_nth _ _ _ _ _ _ _ Es) as [M1 M2].
  pose proof (length_removelast _ _ L2) as R1. pose proof (length_removelast _ _ Hb) as R2.
  destruct (pass_spec _ _ _ _ _ _ _ Hb E5) as (_ & _ & _ & _ & Emax).
  intros i l l' Hi Hl Hl'. rewrite <- nth_removelast_lt in Hl by lia.
  destruct (L3 i l Hl) as (mx & s & A1 & A2 & A3). destruct (M2 i _ A3) as (mx' & B1 & B2).
  assert (El' : l' = set_strain_max (set_strain l s) mx').
  { rewrite nth_error_app1 in Hl'; [congruence|]. apply nth_error_Some. congruence. }
  assert (Hbel : err_below (max_error (set_strain l s)) (e_tol P) = true).
  { apply below_err in B. apply (max_errors_below _ _ _ Emax B). apply nth_error_In with i.
    now apply nth_removelast. }
  subst l'. exact (max_error_parts _ _ Hbel).
Qed.

(** A half-space whose own error is too large stops the run from converging. *)
Theorem eql_bedrock_blocks P m lin ls t r b : last_opt ls = Some b ->
  eql_call P m lin true ls = (t, r) ->
  let s := (m_pgv m / 100) / l_vs b in
  let G0 := density (l_soil b) * (l_vs b * l_vs b) in
  let G := spec_G (density (l_soil b)) (l_vs b) (soil_behaviour (l_soil b)) (Some s) in
  0 < G -> e_tol P <= pct G0 G ->
  forall ls' wv, r <> Ok (Converged, ls', wv).
Proof.
  intros Hb H s G0 G HG Htol ls' wv ->.
  assert (Hne : ls <> []) by (intros ->; discriminate).
  pose proof (eql_stops _ _ _ _ _ _ _ H) as [_ (t0 & st0 & Et & B & _)].
  assert (Ht : t <> []) by (rewrite Et; now destruct t0).
  destruct (call_end P m lin true ls t Converged ls' wv Hne Ht H)
    as (h0 & lsp & st & upd & b1 & E1 & E2 & Hlsp & E4 & E5 & HP & Hb1 & Es & ->).
  rewrite Et, last_opt_app in E2. injection E2 as <-.
  destruct (pass_spec _ _ _ _ _ _ _ Hb1 E5) as (upd' & Eu & _ & _ & Emax).
  assert (Hin : In lsp (history (start_layers m true ls) t)) by (rewrite E1; apply in_or_app; right; now left).
  pose proof (passes_kept P m lin t _ (start_nonempty m true ls Hne) HP lsp Hin) as (_ & K2 & _).
  assert (Hs : last_opt (start_layers m true ls) = Some (set_strain (layer_reset (layer_reset b)) s)).
  { unfold start_layers, estimate_strains. rewrite map_map, last_opt_map, Hb. reflexivity. }
  rewrite Hs, Hb1 in K2. injection K2 as K2.
  assert (Hbel : err_below (max_error b1) (e_tol P) = true).
  { apply below_err in B. apply (max_errors_below _ _ _ Emax B). rewrite Eu. apply in_or_app. right. now left. }
  destruct (max_error_parts _ _ Hbel) as [HX _].
  assert (EG : shear_mod b1 = G).
  { rewrite K2. exact (compute_mod_spec (layer_reset (layer_reset b)) s). }
  assert (EP : it_prev (l_G b1) = G0).
  { rewrite K2. unfold set_strain, layer_reset, iter_new, iter_set; cbn [l_G it_prev it_value].
    unfold initial_shear_mod, G0; cbn [l_soil l_vs]. ring. }
  rewrite EG, EP in HX. specialize (HX HG). lra.
Qed.
