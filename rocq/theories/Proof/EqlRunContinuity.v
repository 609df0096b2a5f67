(** Equivalent-linear runs at nearby sites. *)
From Verif Require Import Common Proof.CommonFacts Model.Curve Model.Layer Model.Cplx Model.Waves Model.Eql
  Spec.CurveSpec Spec.LayerSpec Spec.WaveSpec Spec.EqlSpec Spec.ContinuitySpec Spec.EqlContinuitySpec Spec.CompatibleSpec Proof.CurveFacts Proof.LayerFacts Proof.CplxFacts Proof.WaveFacts Proof.WaveEnergy
  Proof.WaveProps Proof.EqlFacts Proof.EqlProps Proof.EqlResults Proof.EqlPhysical Proof.EqlKeeps Proof.EqlRepeat Proof.WaveContinuity Proof.StrainRows Proof.CurveContinuity Proof.CompatibleExists
  Proof.CompatibleLimit Proof.OutputsContinuity Proof.EqlContinuity.
From Coq Require Import List.
From Coquelicot Require Import Complex.
Local Open Scope R_scope.

Lemma Forall2_len {A B} (R0 : A -> B -> Prop) la lb : Forall2 R0 la lb -> length la = length lb.
Proof. induction 1; cbn; congruence. Qed.
Lemma nth_some {A} (ls : list A) j : (j < length ls)%nat -> exists x, nth_error ls j = Some x.
Proof. intros H. destruct (nth_error ls j) as [x|] eqn:E; [now exists x|]. apply nth_error_None in E. lia. Qed.

Lemma pass_end P m lin wv ls st : ls <> [] -> eql_pass P m lin wv ls = Ok st ->
  length (st_layers st) = length ls /\ nth_error (st_layers st) (length ls - 1) = nth_error ls (length ls - 1).
Proof.
  intros NE H. destruct (last_some ls NE) as [b Hb]. destruct (pass_spec _ _ _ _ _ _ _ Hb H) as (upd & E & HL & _ & _).
  pose proof (last_split ls) as Q. rewrite Hb in Q. rewrite removelast_len in HL.
  assert (LN : (0 < length ls)%nat) by (destruct ls; [congruence|cbn; lia]).
  assert (A : nth_error ls (length ls - 1) = Some b).
  { rewrite <- Q at 1. rewrite nth_error_app2; rewrite removelast_len; [now rewrite Nat.sub_diag|lia]. }
  rewrite A, E, app_length, HL. split; [cbn; lia|]. now rewrite <- HL, nth_error_app2, Nat.sub_diag by lia.
Qed.

Section Run.
  Variable P : eql_params.
  Variable m : motion.
  Variable lin : wloc.
  Hypothesis Hm : clear_freqs m.
  Hypothesis Hp : steady_peak m.
  Hypothesis Ha : answers m.
  Hypothesis Fin : loc_field lin <> Within.

  Definition tabs (ls : list layer) : Prop := List.Forall (fun l => tabulated (l_soil l)) ls.

  Lemma pass_tabs ls wv st : eql_pass P m lin wv ls = Ok st -> tabs ls -> tabs (st_layers st).
  Proof.
    intros H T. pose proof (pass_keeps _ _ _ _ _ _ H) as K. unfold tabs in *. rewrite Forall_forall in *. intros x Hx.
    apply (in_map description) in Hx. rewrite K in Hx. apply in_map_iff in Hx. destruct Hx as (y & E & Hy). specialize (T y Hy).
    unfold description in E. replace (l_soil x) with (l_soil y) by congruence. exact T.
  Qed.

  Lemma limits_near ls wv st : ls <> [] -> List.Forall fit ls -> (loc_index lin < length ls)%nat ->
    calc_waves m ls = Ok wv -> eql_pass P m lin wv ls = Ok st -> clear_limit P m lin ls ->
    exists d, 0 < d /\ forall ls' wv' st', List.Forall fit ls' -> Forall2 (near_state d) ls' ls -> calc_waves m ls' = Ok wv' ->
      eql_pass P m lin wv' ls' = Ok st' -> st_limited st' = st_limited st.
  Proof.
    intros NE HF Hi Ew Ep CL. pose proof (fit_sounds ls HF) as HS.
    destruct (pass_successor _ _ _ _ _ _ NE Ew Ep) as (wv0 & Ew0 & LS & SU). assert (wv0 = wv) by congruence. subst wv0.
    set (Q := fun (j : nat) (d : R) => forall ls' wv' l l' mx mx' x, List.Forall fit ls' -> Forall2 (near_state d) ls' ls -> calc_waves m ls' = Ok wv' ->
      nth_error ls j = Some l -> calc_strain_max m (length ls) wv lin j l = Ok mx ->
      nth_error ls' j = Some l' -> calc_strain_max m (length ls') wv' lin j l' = Ok mx' -> limit_on P x -> (x < e_ratio P * mx' <-> x < e_ratio P * mx)).
    destruct (uniform_delta (length ls - 1) Q) as (d & Hd & HQ).
    - intros j d d' D0 DL H ls' wv' l l' mx mx' x F1 N. apply H; [exact F1|]. exact (states_mono _ _ _ _ DL N).
    - intros j Hj. destruct (nth_some ls j ltac:(lia)) as [l0 El0].
      assert (R0 : nth_error (removelast ls) j = Some l0) by (rewrite removelast_nth by lia; exact El0).
      destruct (SU j l0 R0) as (mx0 & s0 & C0 & _ & _).
      destruct (e_limit P) as [x0|] eqn:EL; [|exists 1; split; [lra|]; intros ls' wv' l l' mx mx' x _ _ _ _ _ _ _ [Q1 _]; congruence].
      destruct (Req_dec x0 0) as [EX|NX]; [exists 1; split; [lra|]; intros ls' wv' l l' mx mx' x _ _ _ _ _ _ _ [Q1 Q2]; congruence|].
      assert (LX : limit_on P x0) by (split; assumption).
      assert (G : 0 < Rabs (e_ratio P * mx0 - x0)) by (apply Rabs_pos_lt; pose proof (CL wv j l0 mx0 x0 Ew R0 C0 LX); lra).
      assert (CC : continuity (fun x => e_ratio P * x)) by (intros x; apply derivable_continuous_pt; apply derivable_pt_scal, derivable_pt_id).
      destruct (continuous_near _ mx0 _ CC G) as (d2 & D2 & H2).
      destruct (peak_close2 ls lin j (l_thick l0 / 2) HS Hi Fin ltac:(lia) m Hm Hp Ha wv mx0 l0 Ew eq_refl C0 d2 D2) as (d3 & D3 & H3).
      exists d3. split; [exact D3|]. intros ls' wv' l l' mx mx' x F1 N E1 Hl Hmx Hl' Hmx' [Q1 _].
      assert (x = x0) by congruence. subst x. assert (l = l0) by congruence. subst l. assert (mx = mx0) by congruence. subst mx.
      pose proof (Forall2_at _ _ _ j _ _ N Hl' El0) as NJ1.
      assert (B : Rabs (e_ratio P * mx' - e_ratio P * mx0) < Rabs (e_ratio P * mx0 - x0)).
      { apply H2. apply (H3 ls' wv' mx' l'); [now apply fit_sounds|exact (states_layers _ _ _ N)| |exact E1|exact Hmx'].
        destruct NJ1 as ((_ & _ & _ & _ & _ & TH) & _). exact TH. }
      destruct (Rlt_dec x0 (e_ratio P * mx0)) as [C1|C1].
      + rewrite (Rabs_pos_eq (e_ratio P * mx0 - x0)) in B by lra. destruct (Rabs_def2 _ _ B). lra.
      + rewrite (Rabs_left1 (e_ratio P * mx0 - x0)) in B by lra. destruct (Rabs_def2 _ _ B). lra.
    - exists d. split; [exact Hd|]. intros ls' wv' st' F1 N E1 E2. pose proof (Forall2_len _ _ _ N) as LN.
      assert (NE' : ls' <> []) by (intros ->; destruct ls; [congruence|discriminate]).
      destruct (last_some ls NE) as [b Hb]. destruct (pass_spec _ _ _ _ _ _ _ Hb Ep) as (upd & _ & _ & Eu & _).
      destruct (last_some ls' NE') as [b' Hb']. destruct (pass_spec _ _ _ _ _ _ _ Hb' E2) as (upd' & _ & _ & Eu' & _).
      destruct (update_spec _ _ _ _ _ _ _ _ _ Eu) as (_ & U & K). destruct (update_spec _ _ _ _ _ _ _ _ _ Eu') as (_ & U' & K').
      assert (A : st_limited st' = true <-> st_limited st = true); [|destruct (st_limited st'), (st_limited st); try reflexivity; [symmetry; now apply A|now apply A]].
      rewrite K, K'. split; intros (j & l & mx & x & J1 & J2 & J3 & J4); cbn [Nat.add] in J2.
      + assert (J : (j < length ls - 1)%nat) by (rewrite <- LN, <- removelast_len; apply nth_error_Some; congruence).
        destruct (nth_some (removelast ls) j) as [l0 El0]; [rewrite removelast_len; exact J|]. destruct (U j l0 El0) as (mx0 & _ & C0 & _). cbn [Nat.add] in C0.
        exists j, l0, mx0, x. split; [exact El0|]. split; [exact C0|]. split; [exact J3|].
        rewrite removelast_nth in El0, J1 by lia. exact (proj1 (HQ j J ls' wv' l0 l mx0 mx x F1 N E1 El0 C0 J1 J2 J3) J4).
      + assert (J : (j < length ls - 1)%nat) by (rewrite <- removelast_len; apply nth_error_Some; congruence).
        destruct (nth_some (removelast ls') j) as [l0 El0]; [rewrite removelast_len; lia|]. destruct (U' j l0 El0) as (mx0 & _ & C0 & _). cbn [Nat.add] in C0.
        exists j, l0, mx0, x. split; [exact El0|]. split; [exact C0|]. split; [exact J3|].
        rewrite removelast_nth in El0, J1 by lia. exact (proj2 (HQ j J ls' wv' l l0 mx mx0 x F1 N E1 J1 J2 El0 C0 J3) J4).
  Qed.

  Lemma pass_near ls wv st eps : ls <> [] -> List.Forall fit ls -> tabs ls -> (loc_index lin < length ls)%nat ->
    calc_waves m ls = Ok wv -> eql_pass P m lin wv ls = Ok st -> clear_limit P m lin ls -> 0 < eps ->
    exists d, 0 < d /\ forall ls', List.Forall fit ls' -> Forall2 (near_state d) ls' ls ->
    exists wv' st', calc_waves m ls' = Ok wv' /\ eql_pass P m lin wv' ls' = Ok st' /\ st_limited st' = st_limited st /\
      Forall2 (near_state eps) (st_layers st') (st_layers st).
  Proof.
    intros NE HF HT Hi Ew Ep CL He.
    destruct (limits_near ls wv st NE HF Hi Ew Ep CL) as (dl & Dl & HL). pose proof (fit_sounds ls HF) as HS.
    destruct (pass_successor _ _ _ _ _ _ NE Ew Ep) as (wv0 & Ew0 & LS & SU). assert (wv0 = wv) by congruence. subst wv0.
    destruct (pass_end _ _ _ _ _ _ NE Ep) as [_ EE].
    set (Q := fun (j : nat) (d : R) => forall ls' wv' st' x x0, List.Forall fit ls' -> Forall2 (near_state d) ls' ls -> calc_waves m ls' = Ok wv' ->
      eql_pass P m lin wv' ls' = Ok st' -> nth_error (st_layers st') j = Some x -> nth_error (st_layers st) j = Some x0 -> near_state eps x x0).
    destruct (uniform_delta (length ls) Q) as (d & Hd & HQ).
    - intros j d d' D0 DL H ls' wv' st' x x0 F1 N. apply H; [exact F1|]. exact (states_mono _ _ _ _ DL N).
    - intros j Hj. destruct (Nat.eq_dec (S j) (length ls)) as [EJ|NJ].
      + exists eps. split; [exact He|]. intros ls' wv' st' x x0 F1 N E1 E2 X1 X2.
        pose proof (Forall2_len _ _ _ N) as LN. assert (NE' : ls' <> []) by (intros ->; destruct ls; [congruence|discriminate]).
        destruct (pass_end _ _ _ _ _ _ NE' E2) as [_ EE']. rewrite LN in EE'.
        replace (length ls - 1)%nat with j in * by lia. rewrite X1 in EE'. rewrite X2 in EE. exact (Forall2_at _ _ _ j _ _ N (eq_sym EE') (eq_sym EE)).
      + destruct (nth_some ls j Hj) as [l0 El0].
        assert (R0 : nth_error (removelast ls) j = Some l0) by (rewrite removelast_nth by lia; exact El0).
        destruct (SU j l0 R0) as (mx0 & s0 & C0 & U0 & S0).
        assert (T0 : tabulated (l_soil l0)) by (unfold tabs in HT; rewrite Forall_forall in HT; apply HT, nth_error_In with j; exact El0).
        destruct (set_near l0 s0 eps T0 He) as (d1 & D1 & H1).
        assert (CC : continuity (fun x => fst (limit_strain (e_limit P) (e_ratio P * x)))).
        { intros x. apply (continuity_pt_comp (fun x => e_ratio P * x) (fun y => fst (limit_strain (e_limit P) y))); [|apply limit_continuous].
          apply derivable_continuous_pt. apply derivable_pt_scal, derivable_pt_id. }
        destruct (continuous_near _ mx0 d1 CC D1) as (d2 & D2 & H2).
        destruct (peak_close2 ls lin j (l_thick l0 / 2) HS Hi Fin Hj m Hm Hp Ha wv mx0 l0 Ew eq_refl C0 d2 D2) as (d3 & D3 & H3).
        exists (Rmin d1 d3). split; [now apply Rmin_pos|]. intros ls' wv' st' x x0 F1 N E1 E2 X1 X2.
        pose proof (Forall2_len _ _ _ N) as LN. assert (NE' : ls' <> []) by (intros ->; destruct ls; [congruence|discriminate]).
        destruct (pass_successor _ _ _ _ _ _ NE' E1 E2) as (wv1 & Ew1 & LS1 & SU1). assert (wv1 = wv') by congruence. subst wv1.
        destruct (nth_some ls' j ltac:(lia)) as [l1 El1].
        assert (R1 : nth_error (removelast ls') j = Some l1) by (rewrite removelast_nth by lia; exact El1).
        destruct (SU1 j l1 R1) as (mx1 & s1 & C1 & U1 & S1).
        pose proof (Forall2_at _ _ _ j _ _ N El1 El0) as NJ1.
        replace x with (set_strain l1 s1) by congruence. replace x0 with (set_strain l0 s0) by congruence.
        apply H1; [exact (state_mono _ _ _ _ (Rmin_l d1 d3) NJ1)|]. rewrite (used_limit _ _ _ U0), (used_limit _ _ _ U1). apply H2.
        apply (H3 ls' wv' mx1 l1); [now apply fit_sounds|apply states_layers; exact (states_mono _ _ _ _ (Rmin_r d1 d3) N)| |exact E1|exact C1].
        destruct NJ1 as ((_ & _ & _ & _ & _ & TH) & _). pose proof (Rmin_r d1 d3). lra.
    - exists (Rmin d dl). split; [now apply Rmin_pos|]. intros ls' F1 N0. pose proof (states_mono _ _ _ _ (Rmin_l d dl) N0) as N. pose proof (Forall2_len _ _ _ N) as LN.
      assert (NE' : ls' <> []) by (intros ->; destruct ls; [congruence|discriminate]).
      destruct (waves_sound m ls' NE' (fit_sounds _ F1) Hm) as [wv' Ew'].
      destruct (pass_ok P m lin ls' wv' NE' (fit_sounds _ F1) Hm ltac:(lia) Fin Ha Ew') as [st' Ep'].
      exists wv', st'. split; [exact Ew'|]. split; [exact Ep'|].
      split; [exact (HL ls' wv' st' F1 (states_mono _ _ _ _ (Rmin_r d dl) N0) Ew' Ep')|].
      destruct (pass_end _ _ _ _ _ _ NE' Ep') as [LS' _].
      apply Forall2_from_nth; [lia|]. intros j x x0 X1 X2.
      assert (Hj : (j < length ls)%nat) by (rewrite <- LS; apply nth_error_Some; congruence).
      exact (HQ j Hj ls' wv' st' x x0 F1 N Ew' Ep' X1 X2).
  Qed.

  Lemma loop_near k : forall it lim ls wv t stop Y w L0, ls <> [] -> List.Forall fit ls -> tabs ls -> (loc_index lin < length ls)%nat ->
    eql_loop P m lin k it lim ls wv = (t, Ok (stop, Y, w)) -> List.Forall (clear_cut P) t -> List.Forall (clear_limit P m lin) (removelast (history ls t)) ->
    calc_waves m L0 = Ok wv -> List.Forall sound L0 -> length L0 = length ls ->
    exists X, calc_waves m X = Ok w /\ List.Forall sound X /\ length X = length ls /\ length Y = length ls /\
    forall eps, 0 < eps -> exists d, 0 < d /\ forall ls' L0' wv', List.Forall fit ls' -> Forall2 (near_state d) ls' ls ->
      calc_waves m L0' = Ok wv' -> List.Forall sound L0' -> Forall2 (near_layer d) L0' L0 ->
    exists t' Y' w' X', eql_loop P m lin k it lim ls' wv' = (t', Ok (stop, Y', w')) /\ length t' = length t /\
      Forall2 (near_state eps) Y' Y /\ calc_waves m X' = Ok w' /\ List.Forall sound X' /\ Forall2 (near_layer eps) X' X.
  Proof.
    induction k as [|k IH]; intros it lim ls wv t stop Y w L0 NE HF HT Hi H HC HK EW SL LL; cbn [eql_loop] in H.
    - injection H as <- <- <- <-. exists L0. split; [exact EW|]. split; [exact SL|]. split; [exact LL|]. split; [reflexivity|].
      intros eps He. exists eps. split; [exact He|]. intros ls' L0' wv' F1 N E1 S1 N1. exists [], ls', wv', L0'. now repeat split.
    - destruct (calc_waves m ls) as [wv1|] eqn:Ew; [|discriminate].
      destruct (eql_pass P m lin wv1 ls) as [st|] eqn:Ep; [|discriminate].
      destruct (pass_end _ _ _ _ _ _ NE Ep) as [LS _]. pose proof (pass_nonempty _ _ _ _ _ _ NE Ep) as NE1.
      pose proof (pass_fit _ _ _ _ _ _ NE HF Ep) as HF1. pose proof (pass_tabs _ _ _ Ep HT) as HT1.
      assert (CC : clear_cut P st).
      { destruct (err_below (st_error st) (e_tol P)); [assert (t = [st]) by congruence; subst t|]; [now inversion HC|].
        destruct (_ && _)%bool; [discriminate|]. injection H as E1 E2. rewrite <- E1 in HC. now inversion HC. }
      destruct CC as [CD CT].
      assert (CL : clear_limit P m lin ls).
      { assert (TN : exists t1, t = st :: t1).
        { destruct (err_below (st_error st) (e_tol P)); [exists []; congruence|]. destruct (_ && _)%bool; [discriminate|]. injection H as E1 E2. eexists. symmetry. exact E1. }
        destruct TN as [t1 ->]. destruct t1; now inversion HK. }
      destruct (last_some ls NE) as [b Hb]. destruct (pass_spec _ _ _ _ _ _ _ Hb Ep) as (upd & _ & _ & _ & ME).
      (* the same comparison with the tolerance *)
      assert (CMP : exists d, 0 < d /\ forall Z z, Forall2 (near_state d) Z (st_layers st) -> max_errors Z = Ok z ->
        err_below z (e_tol P) = err_below (st_error st) (e_tol P)).
      { destruct (errors_near (st_layers st) 1 NE1 (fit_sounds _ HF1) CD Rlt_0_1) as (e & E & _).
        assert (ES : st_error st = EFin e) by congruence. rewrite ES in CT.
        assert (ET : 0 < Rabs (e - e_tol P)) by (apply Rabs_pos_lt; intros Q; apply CT; f_equal; lra).
        destruct (errors_near (st_layers st) (Rabs (e - e_tol P)) NE1 (fit_sounds _ HF1) CD ET) as (e1 & E1 & d & Hd & HE).
        assert (e1 = e) by congruence. subst e1. exists d. split; [exact Hd|]. intros Z z N MZ.
        destruct (HE Z N) as (e' & E' & B). assert (z = EFin e') by congruence. subst z. rewrite ES. cbn [err_below].
        destruct (Rltb e (e_tol P)) eqn:C1.
        - apply Rltb_true in C1. apply Rltb_true. rewrite (Rabs_left (e - e_tol P)) in B by lra. destruct (Rabs_def2 _ _ B). lra.
        - apply Rltb_false in C1. apply Rltb_false. rewrite (Rabs_pos_eq (e - e_tol P)) in B by lra. destruct (Rabs_def2 _ _ B). lra. }
      destruct CMP as (d0 & D0 & CMP).
      destruct (err_below (st_error st) (e_tol P)) eqn:EB.
      + injection H as <- <- <- <-. exists ls. split; [exact Ew|]. split; [now apply fit_sounds|]. split; [reflexivity|]. split; [exact LS|].
        intros eps He. destruct (pass_near ls wv1 st (Rmin eps d0) NE HF HT Hi Ew Ep CL) as (d & Hd & HN); [now apply Rmin_pos|].
        exists (Rmin d eps). split; [now apply Rmin_pos|]. intros ls' L0' wv' F1 N E1 S1 N1.
        destruct (HN ls' F1 (states_mono _ _ _ _ (Rmin_l d eps) N)) as (wv2 & st2 & Ew2 & Ep2 & LM & N2).
        pose proof (Forall2_len _ _ _ N) as LN. assert (NE' : ls' <> []) by (intros ->; destruct ls; [congruence|discriminate]).
        destruct (last_some ls' NE') as [b2 Hb2]. destruct (pass_spec _ _ _ _ _ _ _ Hb2 Ep2) as (upd2 & _ & _ & _ & ME2).
        exists [st2], (st_layers st2), wv2, ls'. split; [cbn [eql_loop]; now rewrite Ew2, Ep2, (CMP _ _ (states_mono _ _ _ _ (Rmin_r eps d0) N2) ME2)|]. split; [reflexivity|]. split; [exact (states_mono _ _ _ _ (Rmin_l eps d0) N2)|]. split; [exact Ew2|].
        split; [now apply fit_sounds|]. apply states_layers. exact (states_mono _ _ _ _ (Rmin_r d eps) N).
      + destruct (st_limited st && (lim =? it - 1)%Z)%bool eqn:EA; [discriminate|].
        destruct (eql_loop P m lin k (it + 1) (if st_limited st then it else lim) (st_layers st) wv1) as [t1 out1] eqn:EL. cbn [fst snd] in H.
        assert (out1 = Ok (stop, Y, w)) by congruence. subst out1. assert (t = st :: t1) by congruence. subst t. inversion HC as [|? ? _ HC1]; subst.
        assert (HK1 : List.Forall (clear_limit P m lin) (removelast (history (st_layers st) t1))) by (destruct t1; inversion HK; [constructor|assumption]).
        destruct (IH (it + 1)%Z (if st_limited st then it else lim) (st_layers st) wv1 t1 stop Y w ls NE1 HF1 HT1 ltac:(lia) EL HC1 HK1 Ew (fit_sounds _ HF) (eq_sym LS)) as (X & EX & SX & LX & LY & HX).
        exists X. split; [exact EX|]. split; [exact SX|]. split; [lia|]. split; [lia|]. intros eps He.
        destruct (HX eps He) as (d1 & D1 & H1).
        destruct (pass_near ls wv1 st (Rmin d1 d0) NE HF HT Hi Ew Ep CL) as (d & Hd & HN); [now apply Rmin_pos|].
        exists (Rmin d d1). split; [now apply Rmin_pos|]. intros ls' L0' wv' F1 N E1 S1 N1.
        destruct (HN ls' F1 (states_mono _ _ _ _ (Rmin_l d d1) N)) as (wv2 & st2 & Ew2 & Ep2 & LM & N2).
        pose proof (Forall2_len _ _ _ N) as LN. assert (NE' : ls' <> []) by (intros ->; destruct ls; [congruence|discriminate]).
        destruct (last_some ls' NE') as [b2 Hb2]. destruct (pass_spec _ _ _ _ _ _ _ Hb2 Ep2) as (upd2 & _ & _ & _ & ME2).
        destruct (H1 (st_layers st2) ls' wv2 (pass_fit _ _ _ _ _ _ NE' F1 Ep2) (states_mono _ _ _ _ (Rmin_l d1 d0) N2) Ew2 (fit_sounds _ F1)
          (states_layers _ _ _ (states_mono _ _ _ _ (Rmin_r d d1) N))) as (t2 & Y2 & w2 & X2 & EL2 & LT & NY & EX2 & SX2 & NX2).
        exists (st2 :: t2), Y2, w2, X2. split.
        { cbn [eql_loop]. rewrite Ew2, Ep2, (CMP _ _ (states_mono _ _ _ _ (Rmin_r d1 d0) N2) ME2), LM, EA. now rewrite EL2. } split; [cbn; lia|]. now repeat split.
  Qed.
End Run.

(** ** The whole call *)
Lemma list_near (Q : layer -> layer -> Prop) ls : List.Forall (fun l => exists d, 0 < d /\ forall l', near_site d l' l -> Q l' l) ls ->
  exists d, 0 < d /\ forall ls', Forall2 (near_site d) ls' ls -> Forall2 Q ls' ls.
Proof.
  induction 1 as [|l ls (d1 & D1 & H1) _ (d2 & D2 & H2)]; [exists 1; split; [lra|]; intros ls' N; inversion N; constructor|].
  exists (Rmin d1 d2). split; [now apply Rmin_pos|]. intros ls' N. inversion N as [|l' ? r ? N1 N2]; subst.
  constructor; [apply H1; exact (site_mono _ _ _ _ (Rmin_l d1 d2) N1)|]. apply H2. eapply Forall2_weaken; [|exact N2].
  intros a b. apply site_mono, Rmin_r.
Qed.
Lemma Forall2_maps {A B} (f : A -> B) (R0 : B -> B -> Prop) la lb : Forall2 (fun a b => R0 (f a) (f b)) la lb -> Forall2 R0 (map f la) (map f lb).
Proof. induction 1; cbn; constructor; auto. Qed.

Lemma reset_state_near l eps : 0 < eps -> exists d, 0 < d /\ forall l', near_site d l' l -> near_state eps (layer_reset l') (layer_reset l).
Proof.
  intros He. destruct (initial_near l eps He) as (d & Hd & H). exists (Rmin d eps). split; [now apply Rmin_pos|]. intros l' N.
  pose proof (Rmin_r d eps). pose proof N as (E1 & E2 & _ & Dm & _). split; [exact (site_mono _ _ _ _ (Rmin_r d eps) N)|].
  cbn [layer_reset l_G l_D l_smax iter_new it_value it_prev]. rewrite (Rminus_diag_eq 1e-9 1e-9 eq_refl), Rabs_R0.
  split; [apply H; exact (site_mono _ _ _ _ (Rmin_l d eps) N)|]. repeat split; lra.
Qed.

Definition start_layer (m : motion) (l : layer) : layer := set_strain (layer_reset (layer_reset l)) (m_pgv m / 100 / l_vs (layer_reset (layer_reset l))).
Lemma start_map m ls : start_layers m true ls = map (start_layer m) ls.
Proof. unfold start_layers, estimate_strains. now rewrite map_map. Qed.
Lemma start_near m l eps : physical l -> tabulated (l_soil l) -> 0 < eps ->
  exists d, 0 < d /\ forall l', near_site d l' l -> near_state eps (start_layer m l') (start_layer m l).
Proof.
  intros (_ & Hv & _) HT He. destruct (set_near (layer_reset (layer_reset l)) (m_pgv m / 100 / l_vs l) eps HT He) as (d1 & D1 & H1).
  destruct (quotient_near (m_pgv m / 100) (l_vs l) d1 Hv D1) as (d2 & D2 & H2). destruct (reset_state_near l d1 D1) as (d3 & D3 & H3).
  exists (Rmin d2 d3). split; [now apply Rmin_pos|]. intros l' N. unfold start_layer. apply H1.
  - exact (H3 l' (site_mono _ _ _ _ (Rmin_r d2 d3) N)).
  - apply H2; [rewrite Rminus_diag_eq by reflexivity; rewrite Rabs_R0; exact D2|]. destruct N as (_ & _ & V & _). pose proof (Rmin_l d2 d3). cbn [layer_reset l_vs]. lra.
Qed.

Lemma maxs_ok m lin X Y wv : X <> [] -> List.Forall sound X -> clear_freqs m -> answers m -> calc_waves m X = Ok wv -> length Y = length X ->
  (loc_index lin < length X)%nat -> loc_field lin <> Within -> exists upd, set_strain_maxs m (length Y) wv lin 0 (removelast Y) = Ok upd.
Proof.
  intros NE SX Hm Ha EX LY Hi Fin. destruct (set_maxs_spec m (length Y) wv lin (removelast Y) 0) as (upd & E & _); [|now exists upd].
  intros j l Hj. assert (J : (j < length (removelast Y))%nat) by (apply nth_error_Some; congruence). rewrite removelast_len in J.
  unfold calc_strain_max. cbn [Nat.add]. rewrite LY in *.
  destruct (strain_sound m X wv lin j (l_thick l / 2) NE SX Hm EX Hi Fin ltac:(lia)) as (tf & -> & LT). cbn [bind]. exact (Ha tf LT).
Qed.
Lemma maxs_end (Y upd : list layer) : Y <> [] -> length upd = (length Y - 1)%nat ->
  length (upd ++ match last_opt Y with Some b => [b] | None => [] end) = length Y /\
  nth_error (upd ++ match last_opt Y with Some b => [b] | None => [] end) (length Y - 1) = nth_error Y (length Y - 1) /\
  forall j, (S j < length Y)%nat -> nth_error (upd ++ match last_opt Y with Some b => [b] | None => [] end) j = nth_error upd j.
Proof.
  intros NE L. pose proof (last_split Y) as Q. destruct (last_some Y NE) as [b Hb]. rewrite Hb in *.
  assert (LN : (0 < length Y)%nat) by (destruct Y; [congruence|cbn; lia]).
  assert (A : nth_error Y (length Y - 1) = Some b).
  { rewrite <- Q at 1. rewrite nth_error_app2; rewrite removelast_len; [now rewrite Nat.sub_diag|lia]. }
  split; [rewrite app_length, L; cbn; lia|]. split; [rewrite A, <- L, nth_error_app2, Nat.sub_diag by lia; reflexivity|].
  intros j Hj. apply nth_error_app1. lia.
Qed.

Theorem eql_continuous_waves P m lin ls t stop out wv : clear_freqs m -> steady_peak m -> answers m ->
  ls <> nil -> List.Forall physical ls -> List.Forall (fun l => tabulated (l_soil l)) ls -> (loc_index lin < length ls)%nat -> loc_field lin <> Within ->
  eql_call P m lin true ls = (t, Ok (stop, out, wv)) -> List.Forall (clear_cut P) t -> clear_limits P m lin ls t ->
  exists X, calc_waves m X = Ok wv /\ List.Forall sound X /\ length X = length ls /\
  forall eps, 0 < eps -> exists d, 0 < d /\ forall ls', List.Forall physical ls' -> Forall2 (near_site d) ls' ls ->
  exists t' out' wv' X', eql_call P m lin true ls' = (t', Ok (stop, out', wv')) /\ length t' = length t /\ Forall2 (near_result eps) out' out /\
    calc_waves m X' = Ok wv' /\ List.Forall sound X' /\ Forall2 (near_layer eps) X' X.
Proof.
  intros Hm Hp Ha NE HF HT Hi Fin H HC HK.
  assert (RS : forall ls, List.Forall physical ls -> List.Forall sound (map layer_reset ls)).
  { intros xs HX. apply Forall_forall. intros x Hx. apply in_map_iff in Hx. destruct Hx as (l & <- & Hl).
    rewrite Forall_forall in HX. now apply reset_sound', HX. }
  destruct (call_loop _ _ _ _ _ _ _ H) as [(_ & e & Q & _)|(wv0 & o & Ew & El & Er)]; [discriminate|].
  destruct o as [[[stop1 Y] w]|]; [|discriminate]. cbn [bind] in Er.
  destruct (set_strain_maxs m (length Y) w lin 0 (removelast Y)) as [upd|] eqn:Eu; [|discriminate]. cbn [bind] in Er.
  assert (stop1 = stop) by congruence. subst stop1. assert (w = wv) by congruence. subst w.
  assert (EO : out = upd ++ match last_opt Y with Some b => [b] | None => [] end) by congruence. clear Er.
  assert (HTS : tabs (start_layers m true ls)).
  { rewrite start_map. unfold tabs. apply Forall_forall. intros x Hx. apply in_map_iff in Hx. destruct Hx as (l & <- & Hl). rewrite Forall_forall in HT. exact (HT l Hl). }
  destruct (loop_near P m lin Hm Hp Ha Fin _ _ _ _ _ _ _ _ _ (map layer_reset ls) (start_nonempty m true ls NE) (start_fit m ls HF) HTS
    ltac:(rewrite start_length; exact Hi) El HC HK Ew (RS ls HF) ltac:(now rewrite map_length, start_length)) as (X & EX & SX & LX & LY & HX).
  rewrite start_length in LX, LY. assert (NX : X <> []) by (intros ->; destruct ls; [congruence|discriminate]).
  assert (NY : Y <> []) by (intros ->; destruct ls; [congruence|discriminate]).
  destruct (set_maxs_nth _ _ _ _ _ _ _ Eu) as [LU HU]. rewrite removelast_len in LU. destruct (maxs_end Y upd NY LU) as (O1 & O2 & O3).
  exists X. split; [exact EX|]. split; [exact SX|]. split; [exact LX|]. intros eps He.
  (* recorded strains *)
  set (Q := fun (j : nat) (d : R) => forall X' wv' l' l mx mx0, List.Forall sound X' -> Forall2 (near_layer d) X' X -> calc_waves m X' = Ok wv' ->
    near_state d l' l -> nth_error Y j = Some l -> calc_strain_max m (length Y) wv' lin j l' = Ok mx -> calc_strain_max m (length Y) wv lin j l = Ok mx0 -> Rabs (mx - mx0) < eps).
  destruct (uniform_delta (length Y - 1) Q) as (d1 & D1 & H1).
  { intros j d d' D0 DL G X' wv' l' l mx mx0 S1 N1 E1 N2. apply (G X' wv' l' l mx mx0 S1); [exact (near_weaken _ _ _ _ DL N1)|exact E1|exact (state_mono _ _ _ _ DL N2)]. }
  { intros j Hj. destruct (nth_some Y j ltac:(lia)) as [l El0].
    destruct (HU j l) as (mx0 & C0 & _); [rewrite removelast_nth by lia; exact El0|]. cbn [Nat.add] in C0.
    assert (C1 := C0). replace (length Y) with (length X) in C1 by congruence.
    destruct (peak_close2 X lin j (l_thick l / 2) SX ltac:(lia) Fin ltac:(lia) m Hm Hp Ha wv mx0 l EX eq_refl C1 eps He) as (d & Hd & HD).
    exists d. split; [exact Hd|]. intros X' wv' l' l2 mx mx2 S1 N1 E1 N2 EY B1 B2.
    assert (l2 = l) by congruence. subst l2. assert (mx2 = mx0) by congruence. subst mx2.
    apply (HD X' wv' mx l' S1 N1); [|exact E1|].
    - destruct N2 as ((_ & _ & _ & _ & _ & TH) & _). exact TH.
    - rewrite (Forall2_len _ _ _ N1). replace (length X) with (length Y) by congruence. exact B1. }
  destruct (HX (Rmin eps d1)) as (d2 & D2 & H2); [now apply Rmin_pos|].
  destruct (list_near (fun a b => near_state d2 (start_layer m a) (start_layer m b)) ls) as (d3 & D3 & H3).
  { apply Forall_forall. intros l Hl. rewrite Forall_forall in HF, HT. exact (start_near m l d2 (HF l Hl) (HT l Hl) D2). }
  destruct (list_near (fun a b => near_layer d2 (layer_reset a) (layer_reset b)) ls) as (d4 & D4 & H4).
  { apply Forall_forall. intros l Hl. destruct (reset_layer_near l d2 D2) as (d & Hd & G). exists d. split; [exact Hd|]. intros l' (_ & _ & N). exact (G l' N). }
  exists (Rmin d3 d4). split; [now apply Rmin_pos|]. intros ls' HF' N.
  assert (N3 : Forall2 (near_state d2) (start_layers m true ls') (start_layers m true ls)).
  { rewrite !start_map. apply Forall2_maps, H3. eapply Forall2_weaken; [|exact N]. intros a b. apply site_mono, Rmin_l. }
  assert (N4 : Forall2 (near_layer d2) (map layer_reset ls') (map layer_reset ls)).
  { apply Forall2_maps, H4. eapply Forall2_weaken; [|exact N]. intros a b. apply site_mono, Rmin_r. }
  pose proof (Forall2_len _ _ _ N) as LN. assert (NE' : ls' <> []) by (intros ->; destruct ls; [congruence|discriminate]).
  destruct (waves_sound m (map layer_reset ls')) as [wv0' Ew']; [now destruct ls'|exact (RS ls' HF')|exact Hm|].
  destruct (H2 _ _ wv0' (start_fit m ls' HF') N3 Ew' (RS ls' HF') N4) as (t' & Y' & w' & X' & EL' & LT & NY' & EX' & SX' & NX').
  pose proof (Forall2_len _ _ _ NY') as LY'. pose proof (Forall2_len _ _ _ NX') as LX'.
  assert (NX2 : X' <> []) by (intros ->; destruct X; [congruence|discriminate]). assert (NY2 : Y' <> []) by (intros ->; destruct Y; [congruence|discriminate]).
  destruct (maxs_ok m lin X' Y' w' NX2 SX' Hm Ha EX' ltac:(lia) ltac:(lia) Fin) as [upd' Eu'].
  destruct (set_maxs_nth _ _ _ _ _ _ _ Eu') as [LU' HU']. rewrite removelast_len in LU'. destruct (maxs_end Y' upd' NY2 LU') as (O1' & O2' & O3').
  exists t', (upd' ++ match last_opt Y' with Some b => [b] | None => [] end), w', X'.
  split; [|split; [exact LT|split; [|split; [exact EX'|split; [exact SX'|exact (near_weaken _ _ _ _ (Rmin_l eps d1) NX')]]]]].
  - unfold eql_call, le_call. rewrite Ew'. change (estimate_strains m (map layer_reset ls')) with (start_layers m true ls'). rewrite EL'. cbn [bind]. now rewrite Eu'.
  - rewrite EO. apply Forall2_from_nth; [lia|]. intros j a b Aj Bj.
    assert (Hj : (j < length Y)%nat) by (rewrite <- O1; apply nth_error_Some; congruence).
    destruct (nth_some Y j Hj) as [l El0]. destruct (nth_some Y' j ltac:(lia)) as [l' El0'].
    pose proof (Forall2_at _ _ _ j _ _ NY' El0' El0) as NS.
    assert (NSe := state_mono _ _ _ _ (Rmin_l eps d1) NS). assert (NSd := state_mono _ _ _ _ (Rmin_r eps d1) NS).
    destruct (Nat.eq_dec (S j) (length Y)) as [EJ|NJ].
    + replace (length Y' - 1)%nat with j in O2' by lia. replace (length Y - 1)%nat with j in O2 by lia.
      assert (a = l') by congruence. assert (b = l) by congruence. subst a b. destruct NSe as (A & B & _ & D & _ & S0).
      split; [exact A|]. split; [exact B|]. split; [exact D|]. rewrite S0. destruct (l_smax l); [|exact I]. rewrite Rminus_diag_eq by reflexivity. now rewrite Rabs_R0.
    + rewrite (O3 j ltac:(lia)) in Bj. rewrite (O3' j ltac:(lia)) in Aj.
      destruct (HU j l) as (mx0 & C0 & U0); [rewrite removelast_nth by lia; exact El0|].
      destruct (HU' j l') as (mx1 & C1 & U1); [rewrite removelast_nth by lia; exact El0'|].
      assert (a = set_strain_max l' mx1) by congruence. assert (b = set_strain_max l mx0) by congruence. subst a b.
      cbn [Nat.add] in C0, C1. rewrite LY' in C1.
      destruct NSe as (A & B & _ & D & _ & _). split; [exact A|]. split; [exact B|]. split; [exact D|]. cbn [set_strain_max l_smax].
      apply (H1 j ltac:(lia) X' w' l' l mx1 mx0 SX'); [exact (near_weaken _ _ _ _ (Rmin_r eps d1) NX')|exact EX'|exact NSd|exact El0|exact C1|exact C0].
Qed.

Theorem eql_continuous P m lin ls t stop out wv : clear_freqs m -> steady_peak m -> answers m ->
  ls <> nil -> List.Forall physical ls -> List.Forall (fun l => tabulated (l_soil l)) ls -> (loc_index lin < length ls)%nat -> loc_field lin <> Within ->
  eql_call P m lin true ls = (t, Ok (stop, out, wv)) -> List.Forall (clear_cut P) t -> clear_limits P m lin ls t ->
  forall eps, 0 < eps -> exists d, 0 < d /\ forall ls', List.Forall physical ls' -> Forall2 (near_site d) ls' ls ->
  exists t' out' wv', eql_call P m lin true ls' = (t', Ok (stop, out', wv')) /\ length t' = length t /\ Forall2 (near_result eps) out' out.
Proof.
  intros Hm Hp Ha NE HF HT Hi Fin H HC HK eps He.
  destruct (eql_continuous_waves P m lin ls t stop out wv Hm Hp Ha NE HF HT Hi Fin H HC HK) as (X & _ & _ & _ & G).
  destruct (G eps He) as (d & Hd & D). exists d. split; [exact Hd|]. intros ls' HF' N.
  destruct (D ls' HF' N) as (t' & out' & wv' & X' & A & B & C0 & _). exists t', out', wv'. now repeat split.
Qed.
