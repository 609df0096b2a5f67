(** Which properties the waves that a run leaves behind belong to. *)
From Verif Require Import Common Proof.CommonFacts Model.Curve Model.Layer Model.Cplx Model.Waves Model.Eql
  Spec.LayerSpec Spec.WaveSpec Spec.EqlSpec Proof.CplxFacts Proof.WaveFacts Proof.WaveProps Proof.EqlFacts Proof.EqlProps Proof.EqlResults
  Proof.EqlPhysical Proof.EqlRefute.
From Coquelicot Require Import Complex.
Local Open Scope R_scope.

Lemma nums_nth w ls : forall ks, wave_nums_nb w ls = Ok ks -> forall i l, nth_error ls i = Some l ->
  wl_vel l <> RtoC 0 /\ nth_error ks i = Some (Cdiv (RtoC w) (wl_vel l)).
Proof.
  induction ls as [|x ls IH]; intros ks H i l N; [destruct i; discriminate|]. cbn [wave_nums_nb] in H.
  unfold cdiv_nb in H. destruct (Ceq_dec (wl_vel x) (RtoC 0)) as [|NE]; [discriminate|]. cbn [bind] in H.
  destruct (wave_nums_nb w ls) as [zs|]; [|discriminate]. cbn [bind] in H. apply Ok_inj in H. subst ks.
  destruct i as [|i]; cbn [nth_error] in *; [|now apply IH]. assert (x = l) by congruence. subst x. now split.
Qed.
Lemma row_num w ls rs i l : calc_waves_numba w ls = Ok rs -> nth_error ls i = Some l ->
  wl_vel l <> RtoC 0 /\ exists r, nth_error rs i = Some r /\ r_k r = Some (Cdiv (RtoC w) (wl_vel l)).
Proof.
  intros H N. pose proof (rows_some _ _ _ H) as [L _].
  assert (Hi : (i < length rs)%nat) by (rewrite L; apply nth_error_Some; congruence).
  apply nth_error_Some in Hi. destruct (nth_error rs i) as [r|] eqn:E; [|congruence]. clear Hi L.
  unfold calc_waves_numba in H. destruct ls as [|x ls]; [destruct i; discriminate|].
  destruct (wave_nums_nb w (x :: ls)) as [ks|] eqn:Ek; [|discriminate]. cbn [bind] in H. apply Ok_inj in H.
  destruct (nums_nth _ _ _ Ek i l N) as [V K]. split; [exact V|]. exists r. split; [reflexivity|].
  subst rs. rewrite nth_error_map in E. set (ab := if Rltb _ _ then _ else _) in E. clearbody ab. clear - E K.
  revert ks ab E K. induction i as [|i IH]; intros [|k ks] [|x ab] E K; cbn [combine nth_error option_map] in E, K; try discriminate.
  - injection E as <-. cbn [r_k fst]. exact K.
  - exact (IH ks ab E K).
Qed.

Lemma vel_inj w v v' : w <> 0 -> v <> RtoC 0 -> v' <> RtoC 0 -> Cdiv (RtoC w) v = Cdiv (RtoC w) v' -> v = v'.
Proof.
  intros W V V' E. assert (RtoC w <> RtoC 0) by (intros H; apply W; injection H; auto).
  assert (Q : Cmult (Cdiv (RtoC w) v) (Cmult v v') = Cmult (RtoC w) v') by (field; exact V).
  rewrite E in Q. assert (Q' : Cmult (Cdiv (RtoC w) v') (Cmult v v') = Cmult (RtoC w) v) by (field; exact V').
  rewrite Q in Q'. assert (Cmult (Cinv (RtoC w)) (Cmult (RtoC w) v') = Cmult (Cinv (RtoC w)) (Cmult (RtoC w) v)) as Z by now rewrite Q'.
  rewrite !Cmult_assoc, Cinv_l, !Cmult_1_l in Z by assumption. now symmetry.
Qed.

(** Equal complex moduli are equal moduli and equal limited dampings. *)
Lemma limited_clip D d : limited_damping D d <-> d = clip D 0 0.49.
Proof.
  unfold limited_damping, clip. split.
  - intros (A & B & C & E). destruct (Rlt_le_dec D 0); [rewrite (C r)|destruct (Rle_lt_dec D 0.49); [rewrite B by lra|rewrite (E r0)]];
      unfold Rmax, Rmin; repeat destruct Rle_dec; lra.
  - intros ->. unfold Rmax, Rmin; repeat destruct Rle_dec; repeat split; intros; lra.
Qed.
Lemma comp_mod_inj G D G' D' : 0 < G -> 0 < G' ->
  comp_shear_mod_of COMP_MODULUS_MODEL G D = comp_shear_mod_of COMP_MODULUS_MODEL G' D' ->
  G = G' /\ clip D 0 0.49 = clip D' 0 0.49.
Proof.
  intros P P'. unfold comp_shear_mod_of, COMP_MODULUS_MODEL, comp_factor, Cmult, RtoC; cbn [fst snd].
  set (d := clip D 0 0.49). set (d' := clip D' 0 0.49).
  assert (B : 0 <= d <= 0.49) by (apply clip_bounds; lra). assert (B' : 0 <= d' <= 0.49) by (apply clip_bounds; lra).
  assert (S : sqrt (1 - 4 * d ^ 2) * sqrt (1 - 4 * d ^ 2) = 1 - 4 * d ^ 2) by (apply sqrt_sqrt; nra).
  assert (S' : sqrt (1 - 4 * d' ^ 2) * sqrt (1 - 4 * d' ^ 2) = 1 - 4 * d' ^ 2) by (apply sqrt_sqrt; nra).
  set (r := sqrt (1 - 4 * d ^ 2)) in *. set (r' := sqrt (1 - 4 * d' ^ 2)) in *.
  intros E. pose proof (f_equal fst E) as E1. pose proof (f_equal snd E) as E2. cbn [fst snd] in E1, E2.
  assert (R1 : G * r = G' * r') by lra. assert (R2 : G * d = G' * d') by lra.
  assert (Q : G * G = G' * G').
  { replace (G * G) with ((G * r) * (G * r) + 4 * ((G * d) * (G * d))).
    - rewrite R1, R2. replace (G' * r' * (G' * r')) with (G' * G' * (r' * r')) by ring. rewrite S'. ring.
    - replace (G * r * (G * r)) with (G * G * (r * r)) by ring. rewrite S. ring. }
  assert (GG : G = G'). { assert ((G - G') * (G + G') = 0) as Z by lra. apply Rmult_integral in Z. destruct Z; lra. }
  split; [exact GG|]. subst G'. apply (Rmult_eq_reg_l G); lra.
Qed.

(** The layers after the run, one by one. *)
Lemma reported_layers P m lin reset ls t stop ls' wv : ls <> [] -> t <> [] ->
  eql_call P m lin reset ls = (t, Ok (stop, ls', wv)) ->
  exists h0 before after, history (start_layers m reset ls) t = h0 ++ [before; after] /\
    passes P m lin (start_layers m reset ls) t /\ before <> [] /\
    calc_waves m before = Ok wv /\ length ls' = length before /\
    forall i l l', nth_error before i = Some l -> nth_error ls' i = Some l' ->
      l_soil l' = l_soil l /\ l_thick l' = l_thick l /\
      exists la, nth_error after i = Some la /\ l_soil la = l_soil l /\ shear_mod la = shear_mod l' /\ damping la = damping l'.
Proof.
  intros Hne Ht H. destruct (call_end P m lin reset ls t stop ls' wv Hne Ht H)
    as (h0 & lsp & st & upd & b & E1 & E2 & Hlsp & E4 & E5 & HP & Hb & Es & ->).
  destruct (pass_nth _ _ _ _ _ _ _ Hb E5) as (L1 & L2 & L3). destruct (set_maxs_nth _ _ _ _ _ _ _ Es) as [M1 M2].
  pose proof (length_removelast _ _ L2) as R1. pose proof (length_removelast _ _ Hb) as R2.
  exists h0, lsp, (st_layers st). split; [exact E1|]. split; [exact HP|]. split; [exact Hlsp|]. split; [exact E4|].
  split; [rewrite app_length; cbn; lia|]. intros i l l' N N'.
  assert (Hi : (i < length lsp)%nat) by (apply nth_error_Some; congruence).
  destruct (Nat.eq_dec i (length lsp - 1)) as [->|NE].
  - rewrite <- last_opt_nth in N. assert (l = b) by congruence. subst l.
    rewrite nth_error_app2 in N' by lia. replace (length lsp - 1 - length upd)%nat with 0%nat in N' by lia. cbn in N'.
    assert (l' = b) by congruence. subst l'. split; [reflexivity|]. split; [reflexivity|].
    exists b. rewrite <- L1, <- last_opt_nth. now repeat split.
  - rewrite <- nth_removelast_lt in N by lia. destruct (L3 i l N) as (mx & s & _ & _ & A3). destruct (M2 i _ A3) as (mx' & _ & B2).
    rewrite nth_error_app1 in N' by lia. assert (l' = set_strain_max (set_strain l s) mx') by congruence. subst l'.
    split; [reflexivity|]. split; [reflexivity|]. exists (set_strain l s). split; [now apply nth_removelast|]. now repeat split.
Qed.

Lemma passes_fit P m lin t : forall ls, ls <> [] -> List.Forall fit ls -> passes P m lin ls t ->
  forall h, In h (history ls t) -> List.Forall fit h.
Proof.
  induction t as [|s t IH]; intros ls Hne HF HP h Hh.
  - destruct Hh as [<-|[]]. exact HF.
  - destruct HP as (wv & E & Ep & HP). destruct Hh as [<-|Hh]; [exact HF|].
    apply (IH (st_layers s)); [exact (pass_nonempty _ _ _ _ _ _ Hne Ep)| |exact HP|exact Hh].
    exact (pass_fit _ _ _ _ _ _ Hne HF Ep).
Qed.

(** The waves are those of the layers before the last pass. *)
Lemma waves_before P m lin reset ls t stop ls' wv : ls <> nil -> t <> nil ->
  eql_call P m lin reset ls = (t, Ok (stop, ls', wv)) ->
  exists h0 before after, history (start_layers m reset ls) t = h0 ++ cons before (cons after nil) /\
    length before = length ls' /\ calc_waves m before = Ok wv.
Proof.
  intros Hne Ht H. destruct (reported_layers _ _ _ _ _ _ _ _ _ Hne Ht H) as (h0 & bf & af & E & _ & _ & W & L & _).
  exists h0, bf, af. split; [exact E|]. split; [now symmetry|exact W].
Qed.

Lemma map_ext_nth {A B} (f : A -> B) xs : forall ys, length xs = length ys ->
  (forall i x y, nth_error xs i = Some x -> nth_error ys i = Some y -> f x = f y) -> map f xs = map f ys.
Proof.
  induction xs as [|x xs IH]; intros [|y ys] L H; try discriminate; [reflexivity|]. cbn. f_equal; [exact (H 0%nat x y eq_refl eq_refl)|].
  apply IH; [now injection L|]. intros i a b A1 A2. exact (H (S i) a b A1 A2).
Qed.

(** They are the waves of the reported layers exactly if the last pass changed nothing. *)
Lemma waves_reported_iff P m lin ls t stop ls' wv w : ls <> nil -> t <> nil -> List.Forall physical ls ->
  eql_call P m lin true ls = (t, Ok (stop, ls', wv)) -> In w (m_freqs m) -> w <> 0 ->
  exists h0 before after, history (start_layers m true ls) t = h0 ++ cons before (cons after nil) /\
    length before = length ls' /\
    (calc_waves m ls' = Ok wv <->
     forall i l l', nth_error before i = Some l -> nth_error ls' i = Some l' ->
       shear_mod l' = shear_mod l /\
       forall d d', limited_damping (damping l) d -> limited_damping (damping l') d' -> d' = d).
Proof.
  intros Hne Ht HP H Hw W0. destruct (reported_layers _ _ _ _ _ _ _ _ _ Hne Ht H) as (h0 & bf & af & E & PS & NB & W & L & K).
  exists h0, bf, af. split; [exact E|]. split; [now symmetry|].
  pose proof (passes_fit P m lin t _ (start_nonempty m true ls Hne) (start_fit m ls HP) PS) as FT. rewrite E in FT.
  assert (F1 : List.Forall fit bf) by (apply FT, in_or_app; right; now left).
  assert (F2 : List.Forall fit af) by (apply FT, in_or_app; right; right; now left).
  rewrite Forall_forall in F1, F2.
  split.
  - intros W' i l l' N N'. destruct (K i l l' N N') as (S1 & S2 & la & NA & S3 & GA & DA).
    destruct (F1 l (nth_error_In _ _ N)) as [_ (P1 & P2 & _)]. destruct (F2 la (nth_error_In _ _ NA)) as [_ (P3 & _ & _)]. rewrite GA in P3.
    apply In_nth_error in Hw. destruct Hw as [j Hj]. unfold calc_waves in W, W'.
    destruct (mapM_nth _ _ _ W) as [_ MW]. destruct (mapM_nth _ _ _ W') as [_ MW'].
    destruct (MW j w Hj) as (rs & A1 & A2). destruct (MW' j w Hj) as (rs' & A1' & A2'). assert (rs' = rs) by congruence. subst rs'.
    destruct (row_num _ _ _ i (wlayer_of l) A1) as (V & r & B1 & B2); [now rewrite nth_error_map, N|].
    destruct (row_num _ _ _ i (wlayer_of l') A1') as (V' & r' & B1' & B2'); [now rewrite nth_error_map, N'|].
    assert (r' = r) by congruence. subst r'.
    assert (EV : wl_vel (wlayer_of l) = wl_vel (wlayer_of l')) by (apply (vel_inj w); try assumption; congruence).
    cbn [wl_vel wlayer_of] in EV. unfold comp_shear_vel in EV. rewrite S1 in EV.
    set (rho := RtoC (density (l_soil l))) in *.
    assert (NR : rho <> RtoC 0).
    { intros Z. injection Z as Z. unfold density in Z. pose proof g_ne. unfold Rdiv in Z. apply Rmult_integral in Z. destruct Z as [Z|Z]; [lra|].
      revert Z. now apply Rinv_neq_0_compat. }
    assert (EM : comp_shear_mod l' = comp_shear_mod l).
    { assert (Q : Cdiv (comp_shear_mod l') rho = Cdiv (comp_shear_mod l) rho) by (rewrite <- (Csqrt_sqr (Cdiv (comp_shear_mod l') rho)), <- EV; apply Csqrt_sqr).
      assert (Q' : Cmult (Cdiv (comp_shear_mod l') rho) rho = Cmult (Cdiv (comp_shear_mod l) rho) rho) by now rewrite Q.
      unfold Cdiv in Q'. rewrite <- !Cmult_assoc, Cinv_l, !Cmult_1_r in Q' by exact NR. exact Q'. }
    destruct (comp_mod_inj _ _ _ _ P3 P1 EM) as [EG ED]. split; [exact EG|]. intros d d' D1 D2.
    apply limited_clip in D1, D2. congruence.
  - intros Q. rewrite <- W. unfold calc_waves. f_equal. clear W.
    replace (map wlayer_of ls') with (map wlayer_of bf); [reflexivity|]. apply map_ext_nth; [now symmetry|].
    intros i l l' N N'. destruct (K i l l' N N') as (S1 & S2 & _). destruct (Q i l l' N N') as [EG ED].
    specialize (ED _ _ (proj2 (limited_clip _ _) eq_refl) (proj2 (limited_clip _ _) eq_refl)).
    unfold wlayer_of, comp_shear_vel, comp_shear_mod, comp_shear_mod_of. now rewrite S1, S2, EG, ED.
Qed.

(** A converged run on a physical site whose waves are not those of its layers. *)
Lemma waves_stale : exists P m lin ls t ls' wv, List.Forall physical ls /\ e_tol P = 0.01 /\
  eql_call P m lin true ls = (t, Ok (Converged, ls', wv)) /\ calc_waves m ls' <> Ok wv.
Proof.
  destruct soft_converged as (t & ls' & wv & HP & _ & HT & H & bf & af & l & l' & E & N & N' & G).
  exists soft_params, soft_motion, soft_input, soft_site, t, ls', wv.
  split; [exact HP|]. split; [exact HT|]. split; [exact H|]. intros W.
  assert (H0 : t <> []) by (intros ->; discriminate E). assert (H1 : soft_site <> []) by discriminate.
  assert (H2 : In 1 (m_freqs soft_motion)) by now left.
  destruct (waves_reported_iff _ _ _ _ _ _ _ _ 1 H1 H0 HP H H2 R1_neq_R0) as (h0 & b & a & E' & L & Q).
  rewrite E in E'. assert (b = bf).
  { destruct h0 as [|x h0]; [cbn in E'; congruence|]. apply (f_equal (@length _)) in E'. rewrite app_length in E'. cbn in E'. lia. }
  subst b. destruct (proj1 Q W 0%nat l l' N N') as [EG _]. rewrite EG in G. unfold pct, Rminus, Rdiv in G.
  rewrite Rplus_opp_r in G. lra.
Qed.
