(** Equivalent-linear runs of physical profiles: no kernel exception; linear
    profiles; a run that reports convergence too early. *)
From Verif Require Import Common Proof.CommonFacts Model.Curve Model.Layer Model.Cplx Model.Waves Model.Eql
  Spec.CurveSpec Spec.LayerSpec Spec.WaveSpec Spec.EqlSpec Proof.CurveFacts Proof.LayerFacts Proof.CplxFacts
  Proof.WaveFacts Proof.WaveEnergy Proof.WaveProps Proof.EqlFacts Proof.EqlProps Proof.EqlResults.
From Coq Require Import List.
From Coquelicot Require Import Complex.
Local Open Scope R_scope.

Lemma map_nth_inv {A B} (f : A -> B) l i y : nth_error (map f l) i = Some y ->
  exists x, nth_error l i = Some x /\ f x = y.
Proof.
  revert i; induction l as [|a l IH]; intros [|i] H; cbn in *; try discriminate.
  - injection H as <-. now exists a.
  - now apply IH.
Qed.

Lemma nth_error_ext_len {A} (xs ys : list A) : length xs = length ys ->
  (forall i x y, nth_error xs i = Some x -> nth_error ys i = Some y -> x = y) -> xs = ys.
Proof.
  revert ys; induction xs as [|x xs IH]; intros [|y ys] HL H; try discriminate; [reflexivity|].
  f_equal; [exact (H 0%nat x y eq_refl eq_refl)|]. apply IH; [now injection HL|].
  intros i a b Ha Hb. exact (H (S i) a b Ha Hb).
Qed.

Lemma modred_pos s e : positive_modulus s -> 0 < modred (soil_behaviour s) e.
Proof.
  unfold positive_modulus, soil_behaviour; cbn [modred]. destruct (s_mod s) as [c|]; [|intros _; lra].
  intros [H1 H2]. destruct (curve_call c e) as [v|] eqn:E; [|lra].
  pose proof (curve_call_bounds c e v H2 E). lra.
Qed.

Lemma physical_G l : physical l -> 0 < initial_shear_mod l.
Proof.
  intros (H1 & H2 & _). unfold initial_shear_mod, density, GRAVITY.
  apply Rmult_lt_0_compat; [apply Rdiv_lt_0_compat; lra|nra].
Qed.

Lemma set_strain_sound l s : physical l -> sound (set_strain l s).
Proof.
  intros H. pose proof (physical_G l H) as HG. destruct H as (H1 & H2 & H3 & H4).
  unfold sound. cbn [set_strain l_soil l_thick]. split; [|now split].
  change (shear_mod (set_strain l s)) with (compute_mod l s). unfold compute_mod.
  apply Rmult_lt_0_compat; [exact HG|]. exact (modred_pos _ s H4).
Qed.

Lemma reset_sound' l : physical l -> sound (layer_reset l).
Proof.
  intros H. pose proof (physical_G l H) as HG. destruct H as (H1 & H2 & H3 & H4).
  unfold sound. cbn [layer_reset l_soil l_thick]. split; [exact HG|now split].
Qed.

Definition fit (l : layer) : Prop := physical l /\ sound l.

Lemma fit_set l s : fit l -> fit (set_strain l s).
Proof. intros [H _]. split; [exact H|now apply set_strain_sound]. Qed.

Lemma sound_vel l : sound l -> wl_vel (wlayer_of l) <> RtoC 0.
Proof. intros H. apply (phys_carries _ (sound_phys l H)). Qed.

Lemma numba_sound w ls : ls <> [] -> List.Forall sound ls -> (w = 0 \/ 1e-8 < w) ->
  exists rs, calc_waves_numba w (map wlayer_of ls) = Ok rs /\
             calc_waves_python w (map wlayer_of ls) = Ok rs.
Proof.
  intros Hne HF Hw.
  assert (E : calc_waves_numba w (map wlayer_of ls) = calc_waves_python w (map wlayer_of ls)).
  { apply kernels_waves.
    - destruct Hw as [->|Hw]; [rewrite Rabs_R0; lra|rewrite Rabs_pos_eq; lra].
    - apply Forall_forall. intros x Hx. apply in_map_iff in Hx. destruct Hx as (l & <- & Hl).
      rewrite Forall_forall in HF. now apply sound_vel, HF. }
  rewrite E. destruct ls as [|l ls]; [contradiction|]. eexists. split; reflexivity.
Qed.

Lemma waves_sound m ls : ls <> [] -> List.Forall sound ls -> clear_freqs m ->
  exists wv, calc_waves m ls = Ok wv.
Proof.
  intros Hne HF Hm. unfold calc_waves. apply mapM_ok. intros w Hw. unfold clear_freqs in Hm.
  rewrite Forall_forall in Hm. destruct (numba_sound w ls Hne HF (Hm w Hw)) as (rs & E & _). now exists rs.
Qed.

Lemma rows_some w ls rs : calc_waves_numba w ls = Ok rs ->
  length rs = length ls /\ forall i r, nth_error rs i = Some r -> exists k, r_k r = Some k.
Proof.
  unfold calc_waves_numba. destruct ls as [|l ls]; [discriminate|].
  destruct (wave_nums_nb w (l :: ls)) as [ks|] eqn:Ek; [|discriminate]. cbn [bind]. intros H.
  apply Ok_inj in H. subst rs.
  assert (HLk : forall xs ys, wave_nums_nb w xs = Ok ys -> length ys = length xs).
  { clear. induction xs as [|x xs IH]; intros ys H; cbn [wave_nums_nb] in H; [injection H as <-; reflexivity|].
    destruct (cdiv_nb _ _); [|discriminate]. cbn [bind] in H.
    destruct (wave_nums_nb w xs) as [zs|]; [|discriminate]. cbn [bind] in H. injection H as <-. cbn. now rewrite (IH zs). }
  apply HLk in Ek.
  assert (HLw : forall lks ab, length (waves_from_nb lks ab) = length lks).
  { clear. induction lks as [|[l k] lks IH]; intros ab; [reflexivity|]. cbn [waves_from_nb].
    destruct lks as [|[l' k'] lks]; [reflexivity|]. cbn [length]. now rewrite IH. }
  split.
  - rewrite map_length, combine_length.
    destruct (Rltb _ _); [rewrite set_last_ones_length|]; rewrite HLw, combine_length, Ek; lia.
  - intros i r Hr. apply nth_error_In in Hr. apply in_map_iff in Hr. destruct Hr as (x & <- & _). now eexists.
Qed.

Lemma strain_sound m ls wv lin i z : ls <> [] -> List.Forall sound ls -> clear_freqs m ->
  calc_waves m ls = Ok wv -> (loc_index lin < length ls)%nat -> loc_field lin <> Within ->
  (i < length ls)%nat ->
  exists tf, calc_strain_tfs m (length ls) wv lin (mkLoc i z Within) = Ok tf /\ length tf = length (m_freqs m).
Proof.
  intros Hne HF Hm Hw Hlin Hfld Hi. unfold calc_strain_tfs; cbn [loc_field loc_index].
  rewrite (proj2 (Nat.ltb_lt _ _) Hi), (proj2 (Nat.ltb_lt _ _) Hlin). cbn [andb].
  match goal with |- exists tf, mapM ?f ?xs = Ok tf /\ _ => assert (HM : exists tf, mapM f xs = Ok tf) end.
  2:{ destruct HM as [tf Etf]. exists tf. split; [exact Etf|]. destruct (mapM_nth _ _ _ Etf) as [HLt _].
      destruct (mapM_nth _ _ _ Hw) as [HLw _]. rewrite HLt, combine_length, HLw. lia. }
  apply mapM_ok. intros [w rs] Hin. cbn [fst snd].
  apply In_nth_error in Hin. destruct Hin as [j Hj].
  destruct (mapM_nth _ _ _ Hw) as [HL HN].
  assert (Hwj : nth_error (m_freqs m) j = Some w /\ nth_error wv j = Some rs).
  { clear -Hj. revert wv j Hj. induction (m_freqs m) as [|a xs IH]; intros [|b ys] [|j] Hj; cbn in Hj; try discriminate.
    - injection Hj as <- <-. now split.
    - cbn. now apply IH. }
  destruct Hwj as [J1 J2]. destruct (HN j w J1) as (rs' & E & J3).
  assert (rs' = rs) by congruence. subst rs'.
  assert (Hcw : w = 0 \/ 1e-8 < w).
  { unfold clear_freqs in Hm. rewrite Forall_forall in Hm. apply Hm. now apply nth_error_In with j. }
  destruct (rows_some w _ rs E) as [RL RS]. rewrite map_length in RL.
  unfold strain_tf_row. cbn [loc_index].
  destruct (nth_error rs i) as [o|] eqn:Eo; [|apply nth_error_None in Eo; lia].
  destruct (nth_error rs (loc_index lin)) as [r|] eqn:Er; [|apply nth_error_None in Er; lia].
  destruct (RS _ _ Eo) as [ko Eko]. destruct (RS _ _ Er) as [ki Eki]. rewrite Eko, Eki.
  unfold strain_tf_numba. destruct (Rltb (Rabs w) 1e-8) eqn:Et; [now eexists|].
  destruct Hcw as [->|Hcw].
  { unfold Rltb in Et. rewrite Rabs_R0 in Et. destruct (Rlt_dec 0 1e-8); [discriminate|lra]. }
  destruct (numba_sound w ls Hne HF (or_intror Hcw)) as (rs2 & F1 & F2).
  assert (rs2 = rs) by congruence. subst rs2.
  destruct (upgoing_motion w ls rs Hcw HF F2 lin Hlin Hfld) as (x & Ex & Nx).
  unfold wave_at_location in Ex. rewrite Er in Ex. unfold wave_at in Ex. rewrite Eki in Ex. injection Ex as Ex.
  unfold cterm in Ex. unfold cdiv_nb.
  match goal with |- context[Ceq_dec ?d _] => assert (ND : d <> RtoC 0) end.
  { apply Cmult_neq_0; [apply RtoC_neq_0; nra|]. rewrite <- Ex in Nx. exact Nx. }
  destruct (Ceq_dec _ _); [contradiction|]. now eexists.
Qed.

Lemma pass_ok P m lin ls wv : ls <> [] -> List.Forall sound ls -> clear_freqs m ->
  (loc_index lin < length ls)%nat -> loc_field lin <> Within ->
  answers m -> calc_waves m ls = Ok wv ->
  exists st, eql_pass P m lin wv ls = Ok st.
Proof.
  intros Hne HF Hm Hlin Hfld Hpk Hw.
  assert (HU : forall xs i, (i + length xs <= length ls)%nat ->
     exists u, update_strains P m (length ls) wv lin i xs = Ok u).
  { induction xs as [|l xs IH]; intros i Hi; [now eexists|]. cbn [length] in Hi. cbn [update_strains].
    unfold calc_strain_max.
    destruct (strain_sound m ls wv lin i (l_thick l / 2) Hne HF Hm Hw Hlin Hfld) as (tf & -> & Ltf); [lia|]. cbn [bind].
    destruct (Hpk tf Ltf) as [p ->]. cbn [bind]. destruct (limit_strain _ _) as [s b].
    destruct (IH (S i)) as [[u b'] ->]; [lia|]. cbn [bind]. now eexists. }
  destruct (last_some ls Hne) as [b Hb]. unfold eql_pass. rewrite Hb.
  destruct (HU (removelast ls) 0%nat) as [[upd lim] ->].
  { pose proof (length_removelast _ _ Hb). lia. }
  cbn [bind]. destruct (max_errors_ok (upd ++ [b])) as [e ->]; [now destruct upd|]. cbn [bind]. now eexists.
Qed.

Lemma pass_fit P m lin ls wv st : ls <> [] -> List.Forall fit ls ->
  eql_pass P m lin wv ls = Ok st -> List.Forall fit (st_layers st).
Proof.
  intros Hne HF H. destruct (last_some ls Hne) as [b Hb]. rewrite Forall_forall in HF.
  destruct (pass_spec _ _ _ _ _ _ _ Hb H) as (upd & E & HL & Eu & _). rewrite E.
  apply Forall_forall. intros x Hx. apply in_app_or in Hx. destruct Hx as [Hx|[<-|[]]].
  - apply In_nth_error in Hx. destruct Hx as [i Hi].
    apply update_spec in Eu. destruct Eu as (HL' & HU & _).
    destruct (nth_error (removelast ls) i) as [l|] eqn:El.
    + destruct (HU i l El) as (mx & s & _ & _ & E3). replace x with (set_strain l s) by congruence.
      apply fit_set, HF, nth_error_In with i. now apply nth_removelast.
    + apply nth_error_None in El. assert (i < length upd)%nat by (apply nth_error_Some; congruence). lia.
  - apply HF. now apply last_opt_In.
Qed.

Lemma fit_sounds ls : List.Forall fit ls -> List.Forall sound ls.
Proof. intros H. eapply Forall_impl; [|exact H]. now intros l []. Qed.

Lemma loop_ok P m lin fuel : clear_freqs m -> loc_field lin <> Within ->
  answers m ->
  forall it lim ls waves, ls <> [] -> List.Forall fit ls -> (loc_index lin < length ls)%nat ->
  match snd (eql_loop P m lin fuel it lim ls waves) with Ok _ => True | Err e => e = RuntimeError end.
Proof.
  intros Hm Hfld Hpk. induction fuel as [|fuel IH]; intros it lim ls waves Hne HF Hlin; cbn [eql_loop]; [exact I|].
  destruct (waves_sound m ls Hne (fit_sounds ls HF) Hm) as [wv Ew]. rewrite Ew.
  destruct (pass_ok P m lin ls wv Hne (fit_sounds ls HF) Hm Hlin Hfld Hpk Ew) as [st Ep]. rewrite Ep.
  destruct (err_below _ _); [exact I|]. destruct (_ && _)%bool; [reflexivity|]. cbn [snd].
  apply IH.
  - exact (pass_nonempty _ _ _ _ _ _ Hne Ep).
  - exact (pass_fit _ _ _ _ _ _ Hne HF Ep).
  - destruct (pass_kept _ _ _ _ _ _ Hne Ep) as [K _]. lia.
Qed.

Lemma start_fit m ls : List.Forall physical ls -> List.Forall fit (start_layers m true ls).
Proof.
  intros H. unfold start_layers, estimate_strains. rewrite map_map. apply Forall_forall. intros x Hx.
  apply in_map_iff in Hx. destruct Hx as (l & <- & Hl). rewrite Forall_forall in H. specialize (H l Hl).
  split; [exact H|]. apply set_strain_sound. exact H.
Qed.

Theorem eql_only_limit_error P m lin ls t r : ls <> [] -> List.Forall physical ls -> clear_freqs m ->
  (loc_index lin < length ls)%nat -> loc_field lin <> Within ->
  answers m ->
  eql_call P m lin true ls = (t, r) ->
  r = Err RuntimeError \/ exists out, r = Ok out.
Proof.
  intros Hne HF Hm Hlin Hfld Hpk H.
  assert (HR : List.Forall sound (map layer_reset ls)).
  { apply Forall_forall. intros x Hx. apply in_map_iff in Hx. destruct Hx as (l & <- & Hl).
    rewrite Forall_forall in HF. now apply reset_sound', HF. }
  destruct (waves_sound m (map layer_reset ls)) as [wv0' Ew']; [now destruct ls|exact HR|exact Hm|].
  destruct (call_loop P m lin true ls t r H) as [(_ & e & _ & Ew)|(wv0 & out & Ew & El & ->)]; [congruence|].
  pose proof (loop_ok P m lin (Z.to_nat (e_max P)) Hm Hfld Hpk 0 (-2) (start_layers m true ls) wv0
    (start_nonempty m true ls Hne) (start_fit m ls HF)) as HO.
  rewrite start_length in HO. specialize (HO Hlin). rewrite El in HO. cbn [snd] in HO.
  destruct out as [[[stop ls2] wv]|e]; [|left; cbn [bind]; now rewrite HO]. right. cbn [bind].
  assert (HMX : exists lsw, lsw <> [] /\ List.Forall sound lsw /\ calc_waves m lsw = Ok wv /\ length lsw = length ls2
                 /\ length ls2 = length ls).
  { destruct (loop_last _ _ _ _ _ _ _ _ _ _ _ _ El) as [(-> & -> & ->)|(h0 & lsp & st & E1 & _ & <- & E4 & E5)].
    - exists (map layer_reset ls). split; [now destruct ls|]. split; [exact HR|]. split; [exact Ew|].
      rewrite map_length, start_length. now split.
    - pose proof (loop_passes _ _ _ _ _ _ _ _ _ _ El) as HP.
      assert (Hin : In lsp (history (start_layers m true ls) t)) by (rewrite E1; apply in_or_app; right; now left).
      pose proof (passes_kept P m lin t _ (start_nonempty m true ls Hne) HP lsp Hin) as (K1 & _ & _).
      rewrite start_length in K1.
      assert (Hlsp : lsp <> []) by (intros ->; destruct ls; [contradiction|discriminate]).
      exists lsp. split; [exact Hlsp|]. split; [|split; [exact E4|]].
      + apply fit_sounds. clear -HP Hin HF Hne.
        revert HP Hin. pose proof (start_fit m ls HF) as HS. pose proof (start_nonempty m true ls Hne) as HN.
        revert HS HN. generalize (start_layers m true ls) as ls1. revert lsp.
        induction t as [|s t IH]; intros lsp ls1 HS HN HP Hin.
        * destruct Hin as [<-|[]]. exact HS.
        * destruct HP as (w & _ & Ep & HP). destruct Hin as [<-|Hin]; [exact HS|].
          apply (IH lsp (st_layers s)); [exact (pass_fit _ _ _ _ _ _ HN HS Ep)| |exact HP|exact Hin].
          exact (pass_nonempty _ _ _ _ _ _ HN Ep).
      + destruct (pass_kept _ _ _ _ _ _ Hlsp E5) as [K _]. split; congruence. }
  destruct HMX as (lsw & W1 & W2 & W3 & W4 & W5).
  destruct (set_maxs_spec m (length ls2) wv lin (removelast ls2) 0) as (upd & Eu & _).
  { intros j l Hj. assert (HJ : (j < length ls2)%nat).
    { assert (j < length (removelast ls2))%nat by (apply nth_error_Some; congruence).
      destruct (last_opt ls2) as [b|] eqn:Eb; [pose proof (length_removelast _ _ Eb); lia|].
      apply last_opt_none in Eb. subst ls2. destruct j; discriminate. }
    unfold calc_strain_max. rewrite <- W4.
    destruct (strain_sound m lsw wv lin (0 + j)%nat (l_thick l / 2) W1 W2 Hm W3) as (tf & -> & Ltf); [lia|exact Hfld|cbn; lia|].
    cbn [bind]. now apply Hpk. }
  rewrite Eu. cbn [bind]. now eexists.
Qed.

(** ** C29 *)
Lemma linear_soil s : is_nonlinear s = false -> s_mod s = None /\ exists d, s_damp s = DConst d.
Proof. unfold is_nonlinear. destruct (s_mod s), (s_damp s) as [d|c1]; try discriminate. intros _. split; [reflexivity|now exists d]. Qed.

Lemma linear_set l s : is_nonlinear (l_soil l) = false ->
  l_G (set_strain l s) = mkIter (initial_shear_mod l) (shear_mod l) /\
  l_D (set_strain l s) = mkIter (l_dmin l) (damping l).
Proof.
  intros H. apply linear_soil in H. destruct H as [H1 [d H2]].
  unfold set_strain, compute_mod, compute_damping, iter_set; cbn [l_G l_D]. rewrite H1, H2.
  rewrite Rmult_1_r, Rplus_0_l. now split.
Qed.

Definition at_rest (l : layer) : Prop := shear_mod l = initial_shear_mod l /\ damping l = l_dmin l.

Lemma rest_error l : it_value (l_G l) = it_prev (l_G l) -> it_value (l_D l) = it_prev (l_D l) ->
  max_error l = EFin 0.
Proof.
  intros H1 H2. unfold max_error.
  assert (HE : forall i, it_value i = it_prev i -> relative_error i = EFin 0).
  { intros i E. unfold relative_error, Rltb. rewrite <- E. destruct (Rlt_dec 0 (it_value i)).
    - f_equal. field. lra.
    - unfold isclose, Rleb. rewrite Rminus_diag_eq by reflexivity. rewrite Rabs_R0.
      pose proof (Rabs_pos (it_value i)). destruct (Rle_dec 0 _); [reflexivity|lra]. }
  rewrite !HE by assumption. cbn [perr_max]. f_equal. apply Rmax_left. lra.
Qed.

Lemma wlayer_at_rest a b : same_site a b -> at_rest a -> at_rest b -> wlayer_of a = wlayer_of b.
Proof.
  intros (S1 & S2 & S3 & S4) [A1 A2] [B1 B2].
  assert (EG : initial_shear_mod a = initial_shear_mod b) by (unfold initial_shear_mod; now rewrite S1, S3).
  unfold wlayer_of, comp_shear_vel, comp_shear_mod. now rewrite A1, A2, B1, B2, EG, S4, S1, S2.
Qed.

Theorem eql_linear P m lin ls wv : ls <> [] ->
  List.Forall (fun l => is_nonlinear (l_soil l) = false) ls -> 0 < e_tol P -> (0 < e_max P)%Z ->
  le_call m true ls = Ok wv ->
  forall t r, eql_call P m lin true ls = (t, r) ->
  (exists e, r = Err e /\ (kernel_exn e \/ exists tf, m_peak m tf = Err e)) \/
  (length t = 1%nat /\ exists ls', r = Ok (Converged, ls', wv) /\ length ls' = length ls /\
   forall i l0, nth_error ls i = Some l0 -> exists l, nth_error ls' i = Some l /\
     l_soil l = l_soil l0 /\ l_thick l = l_thick l0 /\
     shear_mod l = initial_shear_mod l0 /\ damping l = l_dmin l0).
Proof.
  intros Hne HF Htol Hmax Hle t r H. unfold le_call in Hle.
  destruct (call_loop P m lin true ls t r H) as [(_ & e & _ & Ew)|(wv0 & out & Ew & El & ->)]; [congruence|].
  set (ls1 := start_layers m true ls) in *.
  assert (HR : forall i l0, nth_error ls i = Some l0 -> exists l1, nth_error ls1 i = Some l1 /\
     same_site l1 l0 /\ at_rest l1 /\ max_error l1 = EFin 0).
  { intros i l0 Hi. unfold ls1, start_layers, estimate_strains. rewrite map_map.
    eexists. split; [apply map_nth_error, Hi|].
    assert (HL : is_nonlinear (l_soil (layer_reset (layer_reset l0))) = false).
    { rewrite Forall_forall in HF. apply (HF l0). now apply nth_error_In with i. }
    destruct (linear_set (layer_reset (layer_reset l0)) ((m_pgv m / 100) / l_vs (layer_reset (layer_reset l0))) HL)
      as [G1 G2].
    split; [now repeat split|]. split.
    - split; [unfold shear_mod at 1; now rewrite G1|unfold damping; now rewrite G2].
    - apply rest_error; [rewrite G1|rewrite G2]; reflexivity. }
  assert (Hlen1 : length ls1 = length ls) by apply start_length.
  assert (EW : calc_waves m ls1 = Ok wv).
  { rewrite <- Hle. unfold calc_waves. f_equal.
    replace (map wlayer_of ls1) with (map wlayer_of (map layer_reset ls)); [reflexivity|].
    apply nth_error_ext_len; [rewrite !map_length; lia|]. intros i x y Hx Hy.
    rewrite map_map in Hx. apply map_nth_inv in Hx. destruct Hx as (l0 & Hl0 & <-).
    apply map_nth_inv in Hy. destruct Hy as (l1 & Hl1 & <-).
    destruct (HR i l0 Hl0) as (l1' & E & S & A & _). replace l1' with l1 in * by congruence.
    symmetry. apply wlayer_at_rest; [|exact A|].
    - destruct S as (? & ? & ? & ?). now repeat split.
    - split; reflexivity. }
  destruct (Z.to_nat (e_max P)) as [|fuel] eqn:Ef; [lia|]. cbn [eql_loop] in El. rewrite EW in El.
  assert (Hne1 : ls1 <> []) by (now apply start_nonempty).
  destruct (eql_pass P m lin wv ls1) as [st|e] eqn:Ep.
  2:{ injection El as <- <-. left. exists e. split; [reflexivity|]. exact (pass_err _ _ _ _ _ _ Hne1 Ep). }
  destruct (last_some ls1 Hne1) as [b Hb].
  destruct (pass_nth _ _ _ _ _ _ _ Hb Ep) as (L1 & L2 & L3).
  destruct (pass_spec _ _ _ _ _ _ _ Hb Ep) as (upd & Eu & Hlu & Eup & Emax).
  assert (HQ : forall i l0, nth_error ls i = Some l0 -> exists l, nth_error (st_layers st) i = Some l /\
     same_site l l0 /\ at_rest l /\ max_error l = EFin 0).
  { intros i l0 Hi. destruct (HR i l0 Hi) as (l1 & E1 & S1 & A1 & X1).
    assert (Hil : (i < length ls)%nat) by (apply nth_error_Some; congruence).
    destruct (Nat.eq_dec i (length ls1 - 1)) as [->|Ni].
    - exists l1. rewrite <- L1, <- last_opt_nth, L2. rewrite <- last_opt_nth in E1.
      split; [congruence|]. split; [exact S1|]. split; [exact A1|exact X1].
    - assert (E1' : nth_error (removelast ls1) i = Some l1) by (rewrite nth_removelast_lt by lia; exact E1).
      destruct (L3 i l1 E1') as (mx & s & _ & _ & E3). exists (set_strain l1 s).
      assert (HL : is_nonlinear (l_soil l1) = false).
      { destruct S1 as [-> _]. rewrite Forall_forall in HF. apply HF. now apply nth_error_In with i. }
      destruct (linear_set l1 s HL) as [G1 G2].
      split; [now apply nth_removelast|]. split; [exact S1|]. split.
      + split; [unfold shear_mod at 1; now rewrite G1|unfold damping; now rewrite G2].
      + destruct A1 as [A1 A2].
        apply rest_error; [rewrite G1|rewrite G2]; cbn [it_value it_prev]; congruence. }
  assert (HE0 : st_error st = EFin 0).
  { assert (HE : forall xs, xs <> [] -> (forall x, In x xs -> max_error x = EFin 0) -> max_errors xs = Ok (EFin 0)).
    { clear. induction xs as [|x xs IH]; [congruence|]. intros _ H. cbn [max_errors]. destruct xs as [|y ys].
      - rewrite (H x (or_introl eq_refl)). reflexivity.
      - rewrite IH; [|discriminate|intros z Hz; apply H; now right]. cbn [bind].
        rewrite (H x (or_introl eq_refl)). cbn [perr_max]. do 2 f_equal. apply Rmax_left. lra. }
    rewrite HE in Emax; [congruence| |].
    - rewrite Eu. now destruct upd.
    - intros x Hx. apply In_nth_error in Hx. destruct Hx as [i Hi].
      destruct (nth_error ls i) as [l0|] eqn:El0.
      + destruct (HQ i l0 El0) as (l & E & _ & _ & X). congruence.
      + apply nth_error_None in El0. assert (i < length (st_layers st))%nat by (apply nth_error_Some; congruence). lia. }
  assert (Hbel : err_below (st_error st) (e_tol P) = true).
  { rewrite HE0. cbn. unfold Rltb. destruct (Rlt_dec 0 (e_tol P)); [reflexivity|contradiction]. }
  rewrite Hbel in El. injection El as <- <-. right. split; [reflexivity|]. cbn [bind].
  destruct (set_maxs_spec m (length (st_layers st)) wv lin (removelast (st_layers st)) 0) as (u & E1 & E2 & E3).
  { intros j l Hj. cbn [plus].
    assert (HJ : (j < length (removelast ls1))%nat).
    { assert (j < length (removelast (st_layers st)))%nat by (apply nth_error_Some; congruence).
      pose proof (length_removelast _ _ L2). pose proof (length_removelast _ _ Hb). lia. }
    destruct (nth_error (removelast ls1) j) as [l1|] eqn:E1; [|apply nth_error_None in E1; lia].
    destruct (L3 j l1 E1) as (mx & s & B1 & _ & B3). exists mx. rewrite L1, <- B1.
    apply strain_max_thick. replace l with (set_strain l1 s) by congruence. reflexivity. }
  rewrite E1, L2. cbn [bind]. eexists. split; [reflexivity|]. pose proof (length_removelast _ _ L2) as R.
  split; [rewrite app_length; cbn [length]; lia|].
  intros i l0 Hi. destruct (HQ i l0 Hi) as (l & Q1 & (Q2 & Q2' & Q2'' & Q2v) & (Q3 & Q3') & _).
  assert (Hil : (i < length ls)%nat) by (apply nth_error_Some; congruence).
  assert (EG : initial_shear_mod l = initial_shear_mod l0) by (unfold initial_shear_mod; now rewrite Q2, Q2'').
  destruct (Nat.eq_dec i (length (st_layers st) - 1)) as [->|Ni].
  - exists l. rewrite <- last_opt_nth in Q1. rewrite nth_error_app2 by lia.
    replace (length (st_layers st) - 1 - length u)%nat with 0%nat by lia. cbn [nth_error].
    split; [congruence|]. repeat split; congruence.
  - rewrite <- nth_removelast_lt in Q1 by lia. destruct (E3 i l Q1) as (mx & _ & Eu').
    exists (set_strain_max l mx). rewrite nth_error_app1 by (apply nth_error_Some; congruence).
    split; [exact Eu'|]. unfold shear_mod, damping in *. cbn [set_strain_max l_soil l_thick l_G l_D].
    repeat split; congruence.
Qed.

Theorem eql_linear_physical P m lin ls wv : ls <> [] -> List.Forall physical ls -> clear_freqs m ->
  List.Forall (fun l => is_nonlinear (l_soil l) = false) ls -> 0 < e_tol P -> (0 < e_max P)%Z ->
  (loc_index lin < length ls)%nat -> loc_field lin <> Within ->
  answers m -> (forall tf, m_peak m tf <> Err RuntimeError) ->
  le_call m true ls = Ok wv ->
  exists t ls', eql_call P m lin true ls = (t, Ok (Converged, ls', wv)) /\ length t = 1%nat.
Proof.
  intros Hne HF Hm HL Htol Hmax Hlin Hfld Hpk Hrt Hle.
  destruct (eql_call P m lin true ls) as [t r] eqn:E.
  destruct (eql_linear P m lin ls wv Hne HL Htol Hmax Hle t r E) as [(e & -> & He)|(Ht & ls' & -> & _)].
  - exfalso. destruct (eql_only_limit_error P m lin ls t _ Hne HF Hm Hlin Hfld Hpk E) as [G|[o G]]; [|discriminate].
    injection G as ->. destruct He as [[G|G]|[tf G]]; try discriminate. now apply (Hrt tf).
  - exists t, ls'. now split.
Qed.
