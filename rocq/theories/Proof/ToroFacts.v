(** Proofs about the Toro layering. *)
From Verif Require Import Common Model.Curve Model.Layer Model.Profile Model.Gauss Model.Variation
  Spec.ProfileSpec Spec.VariationSpec Proof.CommonFacts Proof.ProfileFacts Proof.ProfileOps.
From Coquelicot Require Import Coquelicot.
Local Open Scope R_scope.

(** Cumulative rate in closed form. *)
Definition cum_rate (m : toro_thick) (d : R) : R :=
  tt_c3 m / (tt_c2 m + 1) * (Rpower (d + tt_c1 m) (tt_c2 m + 1) - Rpower (tt_c1 m) (tt_c2 m + 1)).

Lemma cum_rate_integral m d :
  toro_ok m -> 0 <= d -> is_RInt (rate (tt_c1 m) (tt_c2 m) (tt_c3 m)) 0 d (cum_rate m d).
Proof.
  intros (H1 & H2 & H3) Hd.
  set (F := fun t => tt_c3 m / (tt_c2 m + 1) * Rpower (t + tt_c1 m) (tt_c2 m + 1)).
  replace (cum_rate m d) with (minus (F d) (F 0)).
  2:{ unfold minus, plus, opp, F, cum_rate. cbn. rewrite Rplus_0_l. ring. }
  apply (is_RInt_derive F).
  - intros x Hx. rewrite Rmin_left, Rmax_right in Hx by lra. unfold F, rate, Rpower. auto_derive; [lra|].
    replace (exp ((tt_c2 m + 1) * ln (x + tt_c1 m))) with (exp (tt_c2 m * ln (x + tt_c1 m)) * (x + tt_c1 m)).
    2:{ rewrite Rmult_plus_distr_r, Rmult_1_l, exp_plus, exp_ln by lra. reflexivity. }
    field. lra.
  - intros x Hx. rewrite Rmin_left, Rmax_right in Hx by lra. apply (ex_derive_continuous (rate _ _ _)).
    unfold rate, Rpower. auto_derive. lra.
Qed.

Lemma cum_rate_0 m : cum_rate m 0 = 0.
Proof. unfold cum_rate. rewrite Rplus_0_l. ring. Qed.
Lemma cum_rate_incr m x y : toro_ok m -> 0 <= x -> x < y -> cum_rate m x < cum_rate m y.
Proof.
  intros (H1 & H2 & H3) Hx Hxy. unfold cum_rate. apply Rmult_lt_compat_l; [apply Rdiv_lt_0_compat; lra|].
  apply Rplus_lt_compat_r. apply Rlt_Rpower_l; lra.
Qed.
Lemma cum_rate_lt m x y : toro_ok m -> 0 <= x -> 0 <= y -> (x < y <-> cum_rate m x < cum_rate m y).
Proof.
  intros Ho Hx Hy. split; [now apply cum_rate_incr|]. intros H. destruct (Rlt_le_dec x y) as [L|[L|L]]; [exact L| |].
  - pose proof (cum_rate_incr m y x Ho Hy L). lra.
  - subst. lra.
Qed.

Lemma toro_depth_inverse m t :
  toro_ok m -> 0 <= t -> exists d, toro_depth m t = Ok (Some d) /\ 0 <= d /\ cum_rate m d = t.
Proof.
  intros (H1 & H2 & H3) Ht. unfold toro_depth.
  rewrite (proj2 (Reqb_false _ _)) by lra. rewrite (proj2 (Reqb_false _ _)) by lra. cbn [orb].
  unfold pow_opt at 1. rewrite (proj2 (Rltb_true _ _)) by lra. cbn [opt_bind].
  set (k := Rpower (tt_c1 m) (tt_c2 m + 1)). assert (Hk : 0 < k) by apply exp_pos.
  set (b := tt_c2 m * t / tt_c3 m + t / tt_c3 m + k).
  assert (Eb : b = (tt_c2 m + 1) * (t / tt_c3 m) + k) by (unfold b, Rdiv; ring).
  assert (Hb0 : 0 <= (tt_c2 m + 1) * (t / tt_c3 m)).
  { apply Rmult_le_pos; [lra|]. apply Rdiv_le_0_compat; lra. }
  assert (Hb : k <= b) by lra.
  unfold pow_opt. rewrite (proj2 (Rltb_true _ _)) by lra. cbn [opt_bind].
  exists (Rpower b (1 / (tt_c2 m + 1)) - tt_c1 m). split; [reflexivity|]. split.
  - assert (tt_c1 m = Rpower k (1 / (tt_c2 m + 1))) as E.
    { unfold k. rewrite Rpower_mult. replace ((tt_c2 m + 1) * (1 / (tt_c2 m + 1))) with 1 by (field; lra).
      now rewrite Rpower_1. }
    rewrite E at 1. enough (Rpower k (1 / (tt_c2 m + 1)) <= Rpower b (1 / (tt_c2 m + 1))) by lra.
    apply Rle_Rpower_l; [|split; lra]. apply Rlt_le, Rdiv_lt_0_compat; lra.
  - unfold cum_rate. fold k. replace (Rpower b (1 / (tt_c2 m + 1)) - tt_c1 m + tt_c1 m) with (Rpower b (1 / (tt_c2 m + 1))) by ring.
    rewrite Rpower_mult. replace (1 / (tt_c2 m + 1) * (tt_c2 m + 1)) with 1 by (field; lra).
    rewrite Rpower_1 by lra. rewrite Eb. field. lra.
Qed.

(** The generator, started in the middle. *)
Lemma iter_from_spec m dt incs : forall total prev,
  toro_ok m -> 0 <= prev <= dt -> cum_rate m prev <= total ->
  (prev < dt -> cum_rate m prev = total) -> List.Forall (fun e => 0 < e) incs ->
  exists tm o, iter_from m dt incs total prev = (map Some tm, o) /\
    List.Forall (fun y => 0 < fst y) tm /\
    (forall k t mid, nth_error tm k = Some (t, mid) ->
       mid = prev + Rsum (firstn k (map fst tm)) + t / 2) /\
    (o = Done /\ prev + Rsum (map fst tm) = dt \/
     o = More /\ length tm = length incs /\ prev + Rsum (map fst tm) < dt) /\
    (length tm <= length incs)%nat /\
    (forall k, (k < length tm)%nat -> prev + Rsum (firstn (S k) (map fst tm)) < dt ->
       cum_rate m (prev + Rsum (firstn (S k) (map fst tm))) = total + Rsum (firstn (S k) incs)) /\
    (forall k, (k < length tm)%nat -> prev + Rsum (firstn (S k) (map fst tm)) = dt -> S k = length tm) /\
    (o = Done -> cum_rate m dt <= total + Rsum (firstn (length tm) incs)).
Proof.
  induction incs as [|e incs IH]; intros total prev Ho Hp Hle Heq Hi; cbn [iter_from].
  - destruct (Rltb prev dt) eqn:E.
    + apply Rltb_true in E. exists nil, More. split; [reflexivity|]. split; [constructor|].
      split; [intros [|k] t mid H; discriminate|]. split.
      { right. cbn. split; [reflexivity|]. split; [reflexivity|lra]. }
      split; [cbn; lia|]. split; [cbn; intros; lia|]. split; [cbn; intros; lia|discriminate].
    + apply Rltb_false in E. exists nil, Done. assert (prev = dt) by lra. subst dt.
      split; [reflexivity|]. split; [constructor|].
      split; [intros [|k] t mid H; discriminate|]. split.
      { left. cbn. split; [reflexivity|lra]. }
      split; [cbn; lia|]. split; [cbn; intros; lia|]. split; [cbn; intros; lia|]. cbn. intros _. lra.
  - destruct (Rltb prev dt) eqn:E.
    + apply Rltb_true in E. specialize (Heq E). inversion Hi as [|? ? He Hi']; subst.
      assert (Ht : 0 <= cum_rate m prev + e).
      { rewrite <- (cum_rate_0 m) at 1. destruct (proj1 Hp) as [P|P].
        - pose proof (cum_rate_incr m 0 prev Ho (Rle_refl 0) P). lra.
        - subst prev. lra. }
      destruct (toro_depth_inverse m _ Ho Ht) as (d & Ed & Hd & Hcd). rewrite Ed. cbv zeta.
      assert (Hpd : prev < d) by (apply (cum_rate_lt m prev d Ho); lra).
      set (thickness := if Rltb dt d then dt - prev else d - prev).
      set (depth := if Rltb dt d then prev + thickness else d).
      assert (Hth : thickness = depth - prev) by (unfold depth, thickness; destruct (Rltb dt d); ring).
      assert (Hdep : prev < depth <= dt /\ (depth < dt -> depth = d) /\ cum_rate m depth <= cum_rate m prev + e).
      { unfold depth, thickness. destruct (Rltb dt d) eqn:El.
        - apply Rltb_true in El. replace (prev + (dt - prev)) with dt by ring. split; [lra|]. split; [lra|].
          rewrite <- Hcd. left. apply cum_rate_incr; auto; lra.
        - apply Rltb_false in El. split; [lra|]. split; [reflexivity|]. lra. }
      destruct Hdep as (D1 & D2 & D3).
      destruct (IH (cum_rate m prev + e) depth Ho) as (tm & o & E1 & P1 & P2 & P3 & P4 & P5 & P6 & P7); auto; [lra| |].
      { intros L. rewrite (D2 L). exact Hcd. }
      rewrite E1. exists ((thickness, (prev + depth) / 2) :: tm)%list, o. split; [reflexivity|].
      assert (Hs : forall x, prev + (thickness + x) = depth + x) by (intros; lra).
      split; [constructor; [cbn; lra|exact P1]|]. split.
      { intros [|k] t mid H; cbn [nth_error] in H.
        - injection H as <- <-. cbn. lra.
        - apply P2 in H. rewrite H. cbn [map firstn fst]. rewrite Rsum_cons. lra. }
      cbn [map fst length]. split.
      { rewrite Rsum_cons, Hs. destruct P3 as [(A & B)|(A & B & C)]; [left; auto|right]. split; [exact A|]. split; [lia|exact C]. }
      split; [lia|]. split.
      { intros [|k] Hk; cbn [firstn]; rewrite !Rsum_cons, Hs; intros L.
        - cbn. rewrite !Rplus_0_r in *. rewrite (D2 L). exact Hcd.
        - specialize (P5 k ltac:(lia) L). cbn [firstn] in P5. rewrite P5. ring. }
      split.
      { intros [|k] Hk; cbn [firstn]; rewrite !Rsum_cons, Hs; intros L.
        - cbn in L. rewrite Rplus_0_r in L. f_equal. subst depth.
          destruct tm as [|y tm]; [reflexivity|]. exfalso. inversion P1 as [|? ? Py P1']; subst.
          destruct P3 as [(_ & B)|(_ & _ & C)]; rewrite L in *; cbn [map] in *; rewrite Rsum_cons in *;
            assert (0 <= Rsum (map fst tm)) by (apply Rsum_nonneg; rewrite List.Forall_map; eapply List.Forall_impl; [|exact P1']; intros; cbn in *; lra); lra.
        - f_equal. apply P6; [lia|exact L]. }
      intros Hdone. specialize (P7 Hdone). cbn [firstn]. rewrite Rsum_cons. lra.
    + apply Rltb_false in E. exists nil, Done. assert (prev = dt) by lra. subst dt.
      split; [reflexivity|]. split; [constructor|].
      split; [intros [|k] t mid H; discriminate|]. split.
      { left. cbn. split; [reflexivity|lra]. }
      split; [cbn; lia|]. split; [cbn; intros; lia|]. split; [cbn; intros; lia|]. cbn. intros _. lra.
Qed.

Lemma Rsum_firstn_last xs : List.Forall (fun x => 0 < x) xs -> forall k, (k < length xs)%nat ->
  Rsum (firstn k xs) < Rsum xs.
Proof.
  induction xs as [|x xs IH]; intros H k Hk; [cbn in Hk; lia|]. inversion H as [|? ? H1 H2]; subst.
  destruct k as [|k]; cbn [firstn]; rewrite ?Rsum_cons.
  - cbn [Rsum fold_right]. assert (0 <= Rsum xs) by (apply Rsum_nonneg; eapply List.Forall_impl; [|exact H2]; intros; cbn in *; lra).
    change (Rsum nil) with 0. lra.
  - cbn in Hk. specialize (IH H2 k ltac:(lia)). lra.
Qed.

Lemma toro_layering m dt incs :
  toro_ok m -> 0 < dt -> List.Forall (fun e => 0 < e) incs ->
  exists tm o N, iter_thickness m dt incs = (map Some tm, o) /\
    List.Forall (fun y => 0 < fst y) tm /\
    (forall k t mid, nth_error tm k = Some (t, mid) -> centre (map fst tm) k mid) /\
    (forall k, (S k < length tm)%nat ->
       is_RInt (rate (tt_c1 m) (tt_c2 m) (tt_c3 m)) 0 (Rsum (firstn (S k) (map fst tm)))
         (Rsum (firstn (S k) incs))) /\
    is_RInt (rate (tt_c1 m) (tt_c2 m) (tt_c3 m)) 0 dt N /\
    (o = Done /\ Rsum (map fst tm) = dt /\
       Rsum (firstn (length tm - 1) incs) < N <= Rsum (firstn (length tm) incs) \/
     o = More /\ length tm = length incs /\ Rsum incs < N).
Proof.
  intros Ho Hdt Hi.
  destruct (iter_from_spec m dt incs 0 0 Ho) as (tm & o & E & P1 & P2 & P3 & P4 & P5 & P6 & P7); auto.
  { lra. } { rewrite cum_rate_0. lra. } { intros _. apply cum_rate_0. }
  assert (Pt : List.Forall (fun x => 0 < x) (map fst tm)) by (rewrite List.Forall_map; exact P1).
  exists tm, o, (cum_rate m dt). split; [exact E|]. split; [exact P1|]. split.
  { intros k t mid H. exists t. split; [rewrite nth_error_map, H; reflexivity|]. rewrite (P2 k t mid H). lra. }
  assert (Hpre : forall k, (S k < length tm)%nat -> Rsum (firstn (S k) (map fst tm)) < dt /\
            cum_rate m (Rsum (firstn (S k) (map fst tm))) = Rsum (firstn (S k) incs)).
  { intros k Hk. assert (L : Rsum (firstn (S k) (map fst tm)) < dt).
    { assert (Rsum (firstn (S k) (map fst tm)) < Rsum (map fst tm)) by (apply Rsum_firstn_last; [exact Pt|rewrite map_length; lia]).
      destruct P3 as [(_ & B)|(_ & _ & C)]; lra. }
    split; [exact L|]. specialize (P5 k ltac:(lia)). rewrite !Rplus_0_l in P5. auto. }
  assert (Hn : forall k, 0 <= Rsum (firstn k (map fst tm))).
  { intros k. apply Rsum_nonneg. apply List.Forall_forall. intros x Hx.
    rewrite List.Forall_forall in Pt. left. apply Pt. rewrite <- (firstn_skipn k (map fst tm)). apply in_or_app. now left. }
  split.
  { intros k Hk. destruct (Hpre k Hk) as [L <-]. now apply cum_rate_integral. }
  split; [apply cum_rate_integral; [exact Ho|lra]|].
  destruct P3 as [(A & B)|(A & B & C)].
  - left. rewrite Rplus_0_l in B. split; [exact A|]. split; [exact B|]. split.
    + destruct tm as [|y [|y' tm]].
      * cbn in B. lra.
      * cbn. rewrite <- (cum_rate_0 m). apply cum_rate_incr; auto; lra.
      * destruct (Hpre (length tm)) as [L E2]; [cbn; lia|]. cbn [length].
        replace (S (S (length tm)) - 1)%nat with (S (length tm)) by lia. rewrite <- E2.
        apply cum_rate_incr; [exact Ho|apply Hn|exact L].
    + rewrite Rplus_0_l in P7. now apply P7.
  - right. split; [exact A|]. split; [exact B|].
    destruct tm as [|y tm].
    + destruct incs; [|discriminate]. cbn. rewrite <- (cum_rate_0 m). apply cum_rate_incr; auto; lra.
    + rewrite Rplus_0_l in C. specialize (P5 (length tm) ltac:(cbn; lia)).
      rewrite (@firstn_all2 R (S (length tm)) (map fst (y :: tm)%list)) in P5 by (rewrite map_length; cbn; lia).
      rewrite (@firstn_all2 R (S (length tm)) incs) in P5 by (rewrite <- B; cbn; lia).
      rewrite !Rplus_0_l in P5. rewrite <- (P5 C). apply cum_rate_incr; [exact Ho| |exact C].
      specialize (Hn (length (map fst (y :: tm)))). now rewrite firstn_all in Hn.
Qed.

(** ** The varied profile *)
Lemma host_found ls mid :
  depths_cumulative ls -> List.Forall (fun l => 0 <= l_thick l) ls ->
  0 < mid <= total_thick (removelast ls) ->
  exists l, host ls mid = Some l /\ hosts ls mid l.
Proof.
  intros Hd Hp Hm. unfold host.
  destruct (find _ ls) as [l|] eqn:E.
  - exists l. split; [reflexivity|]. apply find_some in E. destruct E as [Hi Hc].
    apply andb_prop in Hc. destruct Hc as [C1 C2]. apply Rltb_true in C1. apply Rleb_true in C2.
    apply in_split in Hi. destruct Hi as (above & below & ->). exists above, below. split; [reflexivity|].
    unfold depth_base in C2. rewrite (Hd above l below eq_refl) in C1, C2. auto.
  - exfalso. assert (Hnone := find_none _ _ E).
    assert (Hall : forall pre, (exists suf, ls = pre ++ suf)%list -> total_thick pre < mid).
    { intros pre. induction pre as [|l pre IH] using rev_ind; intros [suf Es]; [cbn; lra|].
      rewrite <- app_assoc in Es. cbn in Es.
      assert (L : total_thick pre < mid) by (apply IH; exists (l :: suf)%list; exact Es).
      assert (Hi : In l ls) by (rewrite Es; apply in_or_app; right; now left).
      specialize (Hnone l Hi). cbn beta in Hnone. apply andb_false_iff in Hnone.
      rewrite total_thick_app, total_thick_cons. change (total_thick nil) with 0.
      destruct Hnone as [N|N].
      - apply Rltb_false in N. rewrite (Hd pre l suf Es) in N. lra.
      - apply Rleb_false in N. unfold depth_base in N. rewrite (Hd pre l suf Es) in N. lra. }
    assert (total_thick (removelast ls) < mid).
    { apply Hall. destruct (last_opt ls) as [b|] eqn:Eb.
      - exists (cons b nil). now apply last_opt_inv.
      - apply last_opt_none in Eb. subst. exists nil. reflexivity. }
    lra.
Qed.

Definition toro_layer (ls : list layer) (y : R * R) (l' : layer) : Prop :=
  exists l, hosts ls (snd y) l /\ l' = layer_make (l_soil l) (fst y) (l_vs l) (l_dmin l).

Lemma host_layers_spec ls tm :
  depths_cumulative ls -> List.Forall (fun l => 0 <= l_thick l) ls ->
  List.Forall (fun y => 0 < snd y <= total_thick (removelast ls)) tm ->
  exists layers, host_layers ls (map Some tm) = Ok layers /\ Forall2 (toro_layer ls) tm layers.
Proof.
  intros Hd Hp. induction tm as [|[t mid] tm IH]; intros Hm; [exists nil; split; [reflexivity|constructor]|].
  inversion Hm as [|? ? H1 H2]; subst. cbn [map host_layers].
  destruct (host_found ls mid Hd Hp H1) as (l & -> & Hh). destruct (IH H2) as (layers & -> & HF).
  cbn [bind]. eexists. split; [reflexivity|]. constructor; [|exact HF]. exists l. auto.
Qed.

Lemma mids_range m dt incs tm o :
  toro_ok m -> 0 < dt -> List.Forall (fun e => 0 < e) incs ->
  iter_thickness m dt incs = (map Some tm, o) ->
  List.Forall (fun y => 0 < fst y) tm /\ List.Forall (fun y => 0 < snd y <= dt) tm.
Proof.
  intros Ho Hdt Hi E.
  destruct (iter_from_spec m dt incs 0 0 Ho) as (tm' & o' & E' & P1 & P2 & P3 & _); auto.
  { lra. } { rewrite cum_rate_0. lra. } { intros _. apply cum_rate_0. }
  unfold iter_thickness in E. rewrite E in E'. injection E' as E1 <-.
  assert (tm = tm').
  { clear - E1. revert tm' E1. induction tm as [|a tm IH]; intros [|b tm'] E; try discriminate; [reflexivity|].
    cbn in E. injection E as -> E. f_equal. now apply IH. }
  subst tm'. split; [exact P1|]. apply List.Forall_forall. intros [t mid] Hin.
  apply In_nth_error in Hin. destruct Hin as [k Hk]. specialize (P2 k t mid Hk). cbn [snd].
  assert (Ht : 0 < t).
  { rewrite List.Forall_forall in P1. apply (P1 (t, mid)). eapply nth_error_In; eauto. }
  assert (Pt : List.Forall (fun x => 0 < x) (map fst tm)) by (rewrite List.Forall_map; exact P1).
  assert (Hn : 0 <= Rsum (firstn k (map fst tm))).
  { apply Rsum_nonneg. apply List.Forall_forall. intros x Hx.
    rewrite List.Forall_forall in Pt. left. apply Pt. rewrite <- (firstn_skipn k (map fst tm)). apply in_or_app. now left. }
  assert (Hs : Rsum (firstn k (map fst tm)) + t <= Rsum (map fst tm)).
  { assert (Hk' : nth_error (map fst tm) k = Some t) by (rewrite nth_error_map, Hk; reflexivity).
    apply nth_error_split in Hk'. destruct Hk' as (l1 & l2 & E2 & E3). rewrite E2, <- E3.
    rewrite firstn_app, firstn_all, Nat.sub_diag. cbn [firstn]. rewrite app_nil_r, Rsum_app, Rsum_cons.
    assert (0 <= Rsum l2); [|lra]. apply Rsum_nonneg. rewrite E2 in Pt. apply List.Forall_app in Pt. destruct Pt as [_ Pt].
    inversion Pt as [|? ? _ Pt2]; subst. eapply List.Forall_impl; [|exact Pt2]. intros; cbn in *; lra. }
  destruct P3 as [(_ & B)|(_ & _ & C)]; lra.
Qed.
