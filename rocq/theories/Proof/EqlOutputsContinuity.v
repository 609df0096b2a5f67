(** Outputs of equivalent-linear runs at nearby sites; runs that are clear of the tolerance. *)
From Verif Require Import Common Model.Curve Model.Layer Model.Profile Model.Cplx Model.Waves Model.Eql.
From Verif Require Import Model.Averages Model.Output Model.Motion Model.Results.
From Verif Require Import Spec.CurveSpec Spec.LayerSpec Spec.MotionSpec Spec.WaveSpec Spec.EqlSpec Spec.ResultsSpec Spec.CompatibleSpec Spec.ContinuitySpec Spec.EqlContinuitySpec.
From Verif Require Import Proof.CommonFacts Proof.CurveFacts Proof.LayerFacts Proof.EqlFacts Proof.EqlProps Proof.EqlPhysical Proof.EqlResults Proof.EqlKeeps Proof.ResultsProps Proof.ResultsRuns
  Proof.CompatibleExists Proof.CompatibleLimit Proof.CompatibleRecord Proof.OutputsContinuity Proof.EqlContinuity Proof.EqlRunContinuity.
From Coq Require Import List.
From Coquelicot Require Import Complex.
Local Open Scope R_scope.

Theorem eql_outputs_continuous dt a fa n v P ls t K loc xi fs eps : eql_run dt a fa n v P ls t K ->
  List.Forall (fun l => tabulated (l_soil l)) ls -> List.Forall (clear_cut P) t ->
  clear_limits P (as_motion (k_motion K) v) (k_input K) ls t ->
  (loc_index (k_input K) < length ls)%nat -> loc_field (k_input K) <> Within -> (loc_index loc < length ls)%nat ->
  0 < xi -> List.Forall (fun f => 0 < f) fs -> 0 < eps ->
  exists d, 0 < d /\ forall ls' t' K', eql_run dt a fa n v P ls' t' K' -> k_input K' = k_input K -> Forall2 (near_site d) ls' ls ->
  length t' = length t /\ Forall2 (near_result eps) (k_layers K') (k_layers K) /\
  (exists ts ts', accel_series K loc = Ok (Some ts) /\ accel_series K' loc = Ok (Some ts') /\ near_array eps ts' ts) /\
  (exists ps ps', response_spectrum_at K xi fs loc = Ok (Some ps) /\ response_spectrum_at K' xi fs loc = Ok (Some ps') /\ near_array eps ps' ps) /\
  (exists vs vs', fourier_spectrum K None fs loc = Ok (Some vs) /\ fourier_spectrum K' None fs loc = Ok (Some vs') /\ near_array eps vs' vs) /\
  (exists vs vs', transfer_function K None fs (k_input K) loc = Ok (Some vs) /\ transfer_function K' None fs (k_input K) loc = Ok (Some vs') /\ near_array eps vs' vs) /\
  (loc_field loc = Within -> forall pct, exists ts ts', strain_series K pct loc = Ok ts /\ strain_series K' pct loc = Ok ts' /\ near_array eps ts' ts).
Proof.
  intros (Hdt & HM & Hn & Hev & Hl & NE & HF & stop & EC) HT HC HK Hi Fin Ho Hx Hfs He.
  pose proof (clear_record dt a fa _ n v Hdt HM Hn Hl) as CF. pose proof (record_steady dt a fa _ n v HM Hn Hev) as CS.
  pose proof (ts_answers dt a fa _ n v HM Hn Hev) as CA.
  destruct (eql_continuous_waves P _ _ ls t stop _ _ CF CS CA NE HF HT Hi Fin EC HC HK) as (X & EX & SX & LX & G).
  assert (KL : forall ls t K, eql_call P (as_motion (k_motion K) v) (k_input K) true ls = (t, Ok (stop, k_layers K, k_waves K)) -> length (k_layers K) = length ls).
  { intros ls1 t1 K1 E1. pose proof (proj2 (eql_keeps _ _ _ _ _ _ _ E1) _ _ _ eq_refl) as Q. apply (f_equal (@length _)) in Q. now rewrite !map_length in Q. }
  assert (NX : X <> []) by (intros ->; destruct ls; [congruence|discriminate]).
  assert (RK : ran dt a fa n X K).
  { unfold ran. rewrite (KL _ _ _ EC), LX. repeat split; try assumption. exists v. exact EX. }
  destruct (outputs_continuous dt a fa n X K loc xi fs eps RK) as (d1 & D1 & H1); rewrite ?LX; auto.
  destruct (G (Rmin eps d1)) as (d & Hd & HD); [now apply Rmin_pos|]. exists d. split; [exact Hd|].
  intros ls' t' K' (_ & HM' & _ & _ & _ & NE' & HF' & stop' & EC') EI N. assert (EM : k_motion K' = k_motion K) by congruence.
  destruct (HD ls' HF' N) as (t2 & out2 & wv2 & X2 & E2 & LT & NR & EX2 & SX2 & NX2). rewrite EM, EI, E2 in EC'.
  assert (t' = t2) by congruence. assert (stop' = stop) by congruence. assert (EO : out2 = k_layers K') by congruence. assert (EW : wv2 = k_waves K') by congruence. subst t' stop'.
  rewrite <- EO. split; [exact LT|]. split.
  { eapply Forall2_weaken; [|exact NR]. intros x y (A & B & C0 & D). pose proof (Rmin_l eps d1). split; [exact (site_mono _ _ _ _ (Rmin_l eps d1) A)|].
    split; [lra|]. split; [lra|]. destruct (l_smax x), (l_smax y); try exact D. lra. }
  apply (H1 X2 K'); [|exact EI|exact (near_weaken _ _ _ _ (Rmin_r eps d1) NX2)].
  unfold ran. rewrite EM. pose proof (Forall2_len _ _ _ NX2) as LX2. pose proof (Forall2_len _ _ _ NR) as LR.
  assert (X2 <> []) by (intros ->; destruct X; [congruence|discriminate]).
  repeat split; try assumption; [rewrite <- EO, LR, (KL _ _ _ EC); lia|]. exists v. now rewrite <- EW.
Qed.

(** ** All but finitely many tolerances *)
Lemma update_tol P x m n wv lin ls : forall i, update_strains (with_tol P x) m n wv lin i ls = update_strains P m n wv lin i ls.
Proof. induction ls as [|l ls IH]; intros i; [reflexivity|]. cbn [update_strains with_tol e_limit e_ratio]. destruct (calc_strain_max m n wv lin i l); [|reflexivity]. cbn [bind]. destruct (limit_strain _ _). now rewrite IH. Qed.
Lemma pass_tol P x m lin wv ls : eql_pass (with_tol P x) m lin wv ls = eql_pass P m lin wv ls.
Proof. unfold eql_pass. now rewrite update_tol. Qed.

Lemma loop_generic P m lin k : forall it lim ls wv, exists bad : list R, forall x t r, ~ In x bad ->
  eql_loop (with_tol P x) m lin k it lim ls wv = (t, r) -> List.Forall (fun st => st_error st <> EFin x) t.
Proof.
  induction k as [|k IH]; intros it lim ls wv.
  { exists []. intros x t r _ H. cbn [eql_loop] in H. injection H as <- <-. constructor. }
  destruct (calc_waves m ls) as [wv'|] eqn:Ew.
  2:{ exists []. intros x t r _ H. cbn [eql_loop] in H. rewrite Ew in H. injection H as <- <-. constructor. }
  destruct (eql_pass P m lin wv' ls) as [st|] eqn:Ep.
  2:{ exists []. intros x t r _ H. cbn [eql_loop] in H. rewrite Ew, pass_tol, Ep in H. injection H as <- <-. constructor. }
  destruct (IH (it + 1)%Z (if st_limited st then it else lim) (st_layers st) wv') as [bad HB].
  exists (match st_error st with EFin e => e :: bad | EInf => bad end). intros x t r HN H.
  assert (NE : st_error st <> EFin x) by (intros E; rewrite E in HN; apply HN; now left).
  assert (NB : ~ In x bad) by (intros Q; apply HN; destruct (st_error st); [now right|exact Q]).
  cbn [eql_loop] in H. rewrite Ew, pass_tol, Ep in H. destruct (err_below _ _); [injection H as <- <-; now constructor|].
  destruct (_ && _)%bool; [injection H as <- <-; now constructor|].
  destruct (eql_loop (with_tol P x) m lin k (it + 1) (if st_limited st then it else lim) (st_layers st) wv') as [t1 r1] eqn:EL.
  injection H as <- _. constructor; [exact NE|]. exact (HB x t1 r1 NB EL).
Qed.

Definition damped_layer (l : layer) : Prop := 0 < damping l /\ forall s, 0 < compute_damping l s.
Lemma pass_damped P m lin wv ls st : ls <> [] -> List.Forall damped_layer ls -> eql_pass P m lin wv ls = Ok st -> List.Forall damped_layer (st_layers st).
Proof.
  intros NE HF H. destruct (last_some ls NE) as [b Hb]. destruct (pass_spec _ _ _ _ _ _ _ Hb H) as (upd & E & HL & Eu & _). rewrite E.
  destruct (update_spec _ _ _ _ _ _ _ _ _ Eu) as (LU & HU & _). rewrite Forall_forall in *. intros x Hx. apply in_app_or in Hx. destruct Hx as [Hx|[<-|[]]].
  - apply In_nth_error in Hx. destruct Hx as [j Hj].
    destruct (nth_some (removelast ls) j) as [l El]; [rewrite <- LU; apply nth_error_Some; congruence|].
    destruct (HU j l El) as (mx & s & _ & _ & Q). replace x with (set_strain l s) by congruence.
    assert (DL : damped_layer l) by (apply HF, nth_error_In with j, nth_removelast, El). destruct DL as [_ D]. split; [exact (D s)|]. exact D.
  - apply HF. now apply last_opt_In.
Qed.
Lemma loop_damped P m lin k : forall it lim ls wv t r, ls <> [] -> List.Forall damped_layer ls -> eql_loop P m lin k it lim ls wv = (t, r) ->
  List.Forall (fun st => List.Forall (fun l => 0 < damping l) (st_layers st)) t.
Proof.
  induction k as [|k IH]; intros it lim ls wv t r NE HF H; cbn [eql_loop] in H; [injection H as <- <-; constructor|].
  destruct (calc_waves m ls) as [wv'|]; [|injection H as <- <-; constructor].
  destruct (eql_pass P m lin wv' ls) as [st|] eqn:Ep; [|injection H as <- <-; constructor].
  pose proof (pass_damped _ _ _ _ _ _ NE HF Ep) as HF1.
  assert (D : List.Forall (fun l => 0 < damping l) (st_layers st)) by (eapply Forall_impl; [|exact HF1]; now intros l []).
  destruct (err_below _ _); [injection H as <- <-; now constructor|]. destruct (_ && _)%bool; [injection H as <- <-; now constructor|].
  destruct (eql_loop P m lin k (it + 1) (if st_limited st then it else lim) (st_layers st) wv') as [t1 r1] eqn:EL.
  injection H as <- _. constructor; [exact D|]. exact (IH _ _ _ _ _ _ (pass_nonempty _ _ _ _ _ _ NE Ep) HF1 EL).
Qed.

Theorem eql_clear_generic P m lin ls : ls <> nil -> List.Forall (fun l => forall s, 0 < compute_damping l s) ls ->
  exists bad : list R, forall x t r, ~ In x bad -> eql_call (with_tol P x) m lin true ls = (t, r) -> List.Forall (clear_cut (with_tol P x)) t.
Proof.
  intros NE HD. destruct (calc_waves m (map layer_reset ls)) as [wv0|] eqn:Ew.
  2:{ exists []. intros x t r _ H. unfold eql_call, le_call in H. rewrite Ew in H. injection H as <- _. constructor. }
  destruct (loop_generic P m lin (Z.to_nat (e_max P)) 0 (-2) (start_layers m true ls) wv0) as [bad HB]. exists bad. intros x t r HN H.
  destruct (call_loop _ _ _ _ _ _ _ H) as [(-> & _)|(wv1 & out & Ew1 & EL & _)]; [constructor|].
  assert (wv1 = wv0) by congruence. subst wv1.
  assert (SD : List.Forall damped_layer (start_layers m true ls)).
  { rewrite start_map. apply Forall_forall. intros y Hy. apply in_map_iff in Hy. destruct Hy as (l & <- & Hl). rewrite Forall_forall in HD.
    split; [exact (HD l Hl _)|]. exact (HD l Hl). }
  pose proof (loop_damped _ _ _ _ _ _ _ _ _ _ (start_nonempty m true ls NE) SD EL) as Q1. pose proof (HB x t out HN EL) as Q2.
  rewrite Forall_forall in *. intros st Hs. split; [exact (Q1 st Hs)|exact (Q2 st Hs)].
Qed.

Lemma loop_some P m lin k it lim ls wv r : eql_loop P m lin (S k) it lim ls wv = (nil, Ok r) -> False.
Proof.
  cbn [eql_loop]. destruct (calc_waves m ls); [|discriminate]. destruct (eql_pass _ _ _ _ _); [|discriminate].
  destruct (err_below _ _); [discriminate|]. destruct (_ && _)%bool; discriminate.
Qed.

(** ** Strain limits that are never reached *)
Lemma update_unreached P m n wv lin ls : forall i, exists M, 0 < M /\ forall x, M < x ->
  update_strains (with_limit P (Some x)) m n wv lin i ls = update_strains (with_limit P None) m n wv lin i ls /\
  forall j l mx, nth_error ls j = Some l -> calc_strain_max m n wv lin (i + j) l = Ok mx -> e_ratio P * mx < x.
Proof.
  induction ls as [|l ls IH]; intros i.
  { exists 1. split; [lra|]. intros x _. split; [reflexivity|]. intros j l mx H. destruct j; discriminate H. }
  destruct (IH (S i)) as (M & M0 & H). destruct (calc_strain_max m n wv lin i l) as [mx0|e] eqn:E.
  - exists (Rmax M (e_ratio P * mx0)). split; [pose proof (Rmax_l M (e_ratio P * mx0)); lra|]. intros x Hx.
    pose proof (Rmax_l M (e_ratio P * mx0)) as ML. pose proof (Rmax_r M (e_ratio P * mx0)) as MR. destruct (H x ltac:(lra)) as [H1 H2]. split.
    + cbn [update_strains with_limit e_limit e_ratio]. rewrite E. cbn [bind limit_strain].
      rewrite (proj2 (Reqb_false x 0)), (proj2 (Rltb_false x (e_ratio P * mx0))) by lra. now rewrite H1.
    + intros [|j] l1 mx A B; [|cbn [nth_error] in A; apply (H2 j l1 mx A); now rewrite <- Nat.add_succ_comm in B].
      cbn [nth_error] in A. rewrite Nat.add_0_r in B. assert (l1 = l) by congruence. subst l1. assert (mx = mx0) by congruence. subst mx. lra.
  - exists M. split; [exact M0|]. intros x Hx. destruct (H x Hx) as [H1 H2]. split.
    + cbn [update_strains with_limit e_limit e_ratio]. now rewrite E.
    + intros [|j] l1 mx A B; [|cbn [nth_error] in A; apply (H2 j l1 mx A); now rewrite <- Nat.add_succ_comm in B].
      cbn [nth_error] in A. rewrite Nat.add_0_r in B. congruence.
Qed.

Lemma loop_unreached P m lin k : forall it lim ls wv, exists M, 0 < M /\ forall x, M < x ->
  eql_loop (with_limit P (Some x)) m lin k it lim ls wv = eql_loop (with_limit P None) m lin k it lim ls wv /\
  forall t r, eql_loop (with_limit P None) m lin k it lim ls wv = (t, r) -> List.Forall (clear_limit (with_limit P (Some x)) m lin) (removelast (history ls t)).
Proof.
  induction k as [|k IH]; intros it lim ls wv.
  { exists 1. split; [lra|]. intros x _. split; [reflexivity|]. intros t r H. cbn [eql_loop] in H. injection H as <- <-. constructor. }
  destruct (calc_waves m ls) as [wv'|e] eqn:Ew.
  2:{ exists 1. split; [lra|]. intros x _. cbn [eql_loop]. rewrite Ew. split; [reflexivity|]. intros t r H. injection H as <- <-. constructor. }
  destruct (update_unreached P m (length ls) wv' lin (removelast ls) 0) as (M & M0 & HM).
  assert (PE : forall x, M < x -> eql_pass (with_limit P (Some x)) m lin wv' ls = eql_pass (with_limit P None) m lin wv' ls)
    by (intros x Hx; unfold eql_pass; now rewrite (proj1 (HM x Hx))).
  assert (CL : forall x, M < x -> clear_limit (with_limit P (Some x)) m lin ls).
  { intros x Hx wv1 j l mx y E1 E2 E3 [Q _]. cbn in Q. injection Q as <-. assert (wv1 = wv') by congruence. subst wv1.
    pose proof (proj2 (HM x Hx) j l mx E2 E3). cbn [with_limit e_ratio]. lra. }
  destruct (eql_pass (with_limit P None) m lin wv' ls) as [st|e] eqn:Ep.
  2:{ exists M. split; [exact M0|]. intros x Hx. cbn [eql_loop]. rewrite Ew, (PE x Hx), Ep. split; [reflexivity|]. intros t r H. injection H as <- <-. constructor. }
  destruct (IH (it + 1)%Z (if st_limited st then it else lim) (st_layers st) wv') as (M1 & M10 & HM1).
  exists (Rmax M M1). pose proof (Rmax_l M M1) as ML. pose proof (Rmax_r M M1) as MR. split; [lra|]. intros x Hx.
  destruct (HM1 x ltac:(lra)) as [H1 H2]. specialize (PE x ltac:(lra)). specialize (CL x ltac:(lra)). split.
  - cbn [eql_loop]. rewrite Ew, PE, Ep. cbn [with_limit e_tol]. now rewrite H1.
  - intros t r H3. cbn [eql_loop] in H3. rewrite Ew, Ep in H3.
    destruct (err_below _ _); [injection H3 as <- <-; constructor; [exact CL|constructor]|].
    destruct (_ && _)%bool; [injection H3 as <- <-; constructor; [exact CL|constructor]|].
    destruct (eql_loop (with_limit P None) m lin k (it + 1) (if st_limited st then it else lim) (st_layers st) wv') as [t1 r1] eqn:EL.
    cbn [fst snd] in H3. injection H3 as <- _. specialize (H2 t1 r1 eq_refl).
    change (removelast (history ls (st :: t1))) with (ls :: removelast (history (st_layers st) t1)). now constructor.
Qed.

Theorem eql_unreached P m lin ls : exists M, 0 < M /\ forall x, M < x ->
  eql_call (with_limit P (Some x)) m lin true ls = eql_call (with_limit P None) m lin true ls /\
  forall t r, eql_call (with_limit P (Some x)) m lin true ls = (t, r) -> clear_limits (with_limit P (Some x)) m lin ls t.
Proof.
  destruct (le_call m true ls) as [wv0|e] eqn:E.
  2:{ exists 1. split; [lra|]. intros x _. unfold eql_call. rewrite E. split; [reflexivity|]. intros t r H. injection H as <- <-. constructor. }
  destruct (loop_unreached P m lin (Z.to_nat (e_max P)) 0 (-2) (estimate_strains m (map layer_reset ls)) wv0) as (M & M0 & H).
  exists M. split; [exact M0|]. intros x Hx. destruct (H x Hx) as [H1 H2].
  assert (EQ : eql_call (with_limit P (Some x)) m lin true ls = eql_call (with_limit P None) m lin true ls).
  { unfold eql_call. rewrite E. cbn [with_limit e_max]. cbn zeta. now rewrite H1. }
  split; [exact EQ|]. intros t r H3. rewrite EQ in H3. unfold eql_call in H3. rewrite E in H3. cbn [with_limit e_max] in H3. cbn zeta in H3.
  change (mkEql (e_ratio P) (e_tol P) (e_max P) None) with (with_limit P None) in H3.
  destruct (eql_loop (with_limit P None) m lin (Z.to_nat (e_max P)) 0 (-2) (estimate_strains m (map layer_reset ls)) wv0) as [t1 r1] eqn:EL.
  assert (t = t1) by congruence. subst t1. exact (H2 t r1 eq_refl).
Qed.
