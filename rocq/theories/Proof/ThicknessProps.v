(** Varied thicknesses and half-space depths: C32, C39, C40. *)
From Verif Require Import Common Model.Curve Model.Layer Model.Profile Model.Gauss Model.Variation
  Spec.ProfileSpec Spec.VariationSpec Proof.CommonFacts Proof.ProfileFacts Proof.ProfileOps
  Proof.ProfileProps Proof.BuildFacts Proof.ToroFacts.
Local Open Scope R_scope.

Lemma last_two {A} (ls : list A) : (2 <= length ls)%nat ->
  exists pre x b, ls = pre ++ [x; b] /\ second_last ls = Some x /\ last_opt ls = Some b /\ removelast ls = pre ++ [x].
Proof.
  intros H. destruct ls as [|b ls _] using rev_ind; [cbn in H; lia|].
  destruct ls as [|x ls _] using rev_ind; [cbn in H; lia|].
  exists ls, x, b. rewrite <- app_assoc. split; [reflexivity|]. rewrite app_assoc.
  unfold second_last. rewrite last_opt_app, removelast_app by discriminate. cbn [removelast]. rewrite app_nil_r, last_opt_app. auto.
Qed.

Lemma same_core_make s t v d x :
  same_core (layer_make s t v d) x -> l_soil x = s /\ l_thick x = t /\ l_vs x = v /\ l_dmin x = d.
Proof. intros (A & B & C & D & _). cbn in *. auto. Qed.

Lemma Forall2_same_core_last ls b ls' : Forall2 same_core (ls ++ [b]) ls' ->
  exists ls1 b1, ls' = ls1 ++ [b1] /\ Forall2 same_core ls ls1 /\ same_core b b1.
Proof.
  intros H. apply Forall2_app_inv_l in H. destruct H as (l1 & l2 & H1 & H2 & ->).
  inversion H2 as [|? b1 ? l3 Hb H3]; subst. inversion H3; subst. exists l1, b1. auto.
Qed.

Lemma Forall2_trans_core {A} (P : A -> layer -> Prop) xs ls ls' :
  Forall2 P xs ls -> Forall2 same_core ls ls' -> Forall2 (fun x l' => exists l, P x l /\ same_core l l') xs ls'.
Proof.
  intros H. revert ls'. induction H as [|x l xs ls Hx _ IH]; intros ls' H'; inversion H'; subst; constructor; eauto.
Qed.

Lemma depth_of_bottom ls b : depths_cumulative (ls ++ [b]) -> l_depth b = total_thick ls.
Proof. intros H. now apply (H ls b []). Qed.

Lemma total_thick_of {A} (f : A -> R) xs ls :
  Forall2 (fun x l => l_thick l = f x) xs ls -> total_thick ls = Rsum (map f xs).
Proof. induction 1 as [|x l xs ls H _ IH]; [reflexivity|]. rewrite total_thick_cons. cbn [map]. rewrite Rsum_cons. lra. Qed.

Lemma toro_profile m w p incs dm :
  toro_ok m -> List.Forall (fun e => 0 < e) incs ->
  allocated w p -> depths_cumulative (view w p) -> (2 <= length (view w p))%nat ->
  List.Forall (fun l => 0 <= l_thick l) (view w p) -> 0 < total_thick (removelast (view w p)) ->
  (forall hsl, last_opt (view w p) = Some hsl -> soil_damping_min (l_soil hsl) = Ok dm) ->
  exists hsl tm o, last_opt (view w p) = Some hsl /\
    iter_thickness m (total_thick (removelast (view w p))) incs = (map Some tm, o) /\
    (o = More -> toro_thickness_call m w p incs = (w, None)) /\
    (o <> More -> exists w' q layers bottom,
       toro_thickness_call m w p incs = (w', Some (Ok q)) /\
       view w' q = layers ++ [bottom] /\
       Forall2 (fun y l' => l_thick l' = fst y /\
          exists l, hosts (view w p) (snd y) l /\ l_soil l' = l_soil l /\ l_vs l' = l_vs l /\ l_dmin l' = l_dmin l)
         tm layers /\
       l_soil bottom = l_soil hsl /\ l_vs bottom = l_vs hsl /\ l_thick bottom = 0 /\ l_dmin bottom = dm /\
       depths_cumulative (view w' q) /\ l_depth bottom = total_thick (removelast (view w p)) /\
       p_wt (w_profs w' q) = p_wt (w_profs w p) /\
       (forall a, (a < w_next w)%nat -> w_heap w' a = w_heap w a) /\
       (forall r, (r < w_pnext w)%nat -> w_profs w' r = w_profs w r) /\
       (w_pnext w <= q < w_pnext w')%nat /\ (w_next w <= w_next w')%nat /\
       NoDup (layers_of w' q) /\ (forall a, In a (layers_of w' q) -> (w_next w <= a < w_next w')%nat)).
Proof.
  intros Ho Hi Hal Hd Hlen Hp Ht Hdm.
  destruct (last_two _ Hlen) as (pre & above & hsl & Ev & E2 & E1 & Er).
  destruct (toro_layering m _ incs Ho Ht Hi) as (tm & o & N & E & P1 & P2 & P3 & P4 & P5).
  exists hsl, tm, o. split; [exact E1|]. split; [exact E|].
  unfold toro_thickness_call. rewrite E2, E1.
  assert (Eb : depth_base above = total_thick (removelast (view w p))).
  { unfold depth_base. rewrite (Hd pre above [hsl] Ev), Er, total_thick_app, total_thick_cons. cbn. lra. }
  rewrite Eb, E.
  destruct (mids_range m _ incs tm o Ho Ht Hi E) as [_ Hm].
  destruct (host_layers_spec (view w p) tm Hd Hp Hm) as (layers & -> & HF).
  split; [intros ->; reflexivity|]. intros Hne.
  assert (o = Done /\ Rsum (map fst tm) = total_thick (removelast (view w p))) as [-> Hsum]
    by (destruct P5 as [(A & B & _)|(A & _)]; [auto|congruence]).
  unfold layer_new. rewrite (Hdm hsl E1). cbn [bind].
  set (b0 := layer_reset (mkLayer (l_soil hsl) 0 0 0 (l_vs hsl) dm (iter_new 0) (iter_new 0) (SRaw 0) None None)).
  pose proof (built_profile w (layers ++ [b0]) [] (p_wt (w_profs w p))) as B.
  cbv zeta in B. destruct (alloc_layers w (layers ++ [b0])) as [w1 addrs]. cbn [fst snd] in B.
  rewrite app_nil_r in B. destruct (new_profile w1 addrs (p_wt (w_profs w p))) as [w2 q]. cbn [fst snd map] in B.
  rewrite app_nil_r in B. destruct B as (B1 & B2 & B3 & B4 & B5 & B6 & B7 & B8 & B9 & B10 & B11); [intros a []|constructor|].
  destruct (Forall2_same_core_last _ _ _ B2) as (ls1 & b1 & Ev2 & HF2 & Hb).
  exists w2, q, ls1, b1. split; [reflexivity|]. split; [exact Ev2|].
  assert (HF3 : Forall2 (fun y l' => l_thick l' = fst y /\
          exists l, hosts (view w p) (snd y) l /\ l_soil l' = l_soil l /\ l_vs l' = l_vs l /\ l_dmin l' = l_dmin l) tm ls1).
  { eapply Forall2_weaken; [|exact (Forall2_trans_core _ _ _ _ HF HF2)]. cbn beta.
    intros y l' (l & (l0 & Hh & ->) & Hc). apply same_core_make in Hc. destruct Hc as (C1 & C2 & C3 & C4).
    split; [exact C2|]. exists l0. auto. }
  split; [exact HF3|].
  destruct Hb as (C1 & C2 & C3 & C4 & _). cbn in C1, C2, C3, C4.
  split; [auto|]. split; [auto|]. split; [auto|]. split; [auto|].
  assert (Hdc : depths_cumulative (view w2 q)).
  { apply placed_depths, B5, bottom_distinct_app. reflexivity. }
  split; [exact Hdc|]. split.
  { rewrite Ev2 in Hdc. rewrite (depth_of_bottom _ _ Hdc), <- Hsum. apply total_thick_of.
    eapply Forall2_weaken; [|exact HF3]. cbn beta. tauto. }
  split; [exact B3|]. split; [intros a Ha; apply B7; [exact Ha|intros []]|]. split; [exact B8|].
  split; [lia|]. split; [exact B10|]. split; [exact B4|].
  destruct B9 as (addrs' & Hl & _ & Hrange). rewrite app_nil_r in Hl. rewrite Hl. exact Hrange.
Qed.

(** C32: the half-space takes the minimum damping of its soil type, not its own. *)
Lemma toro_half_space_damping m w p incs dm hsl w' q :
  toro_ok m -> List.Forall (fun e => 0 < e) incs -> allocated w p -> depths_cumulative (view w p) ->
  (2 <= length (view w p))%nat -> List.Forall (fun l => 0 <= l_thick l) (view w p) -> 0 < total_thick (removelast (view w p)) ->
  last_opt (view w p) = Some hsl -> soil_damping_min (l_soil hsl) = Ok dm -> l_dmin hsl <> dm ->
  toro_thickness_call m w p incs = (w', Some (Ok q)) ->
  exists bottom, last_opt (view w' q) = Some bottom /\ l_dmin bottom <> l_dmin hsl.
Proof.
  intros Ho Hi Hal Hd Hl Hp Ht Eh Edm Hne E.
  destruct (toro_profile m w p incs dm Ho Hi Hal Hd Hl Hp Ht) as (hsl' & tm & o & E1 & _ & Hm & Hn).
  { intros h Hh. rewrite Eh in Hh. injection Hh as <-. exact Edm. }
  destruct o; [|  |rewrite (Hm eq_refl) in E; discriminate];
    (destruct Hn as (w2 & q2 & layers & bottom & E2 & Ev & _ & _ & _ & _ & D & _); [discriminate|];
     rewrite E in E2; injection E2 as <- <-; exists bottom; rewrite Ev, last_opt_app; split; [reflexivity|congruence]).
Qed.

(** ** Half-space depth *)
Lemma copy_core a b : same_core a b -> layer_copy a = layer_copy b.
Proof.
  intros (A & B & C & D & E & _). unfold layer_copy, shear_vel, shear_mod. now rewrite A, B, D, E.
Qed.
Lemma copies_core ls ls' : Forall2 same_core ls ls' -> map layer_copy ls = map layer_copy ls'.
Proof. induction 1 as [|a b l l' H _ IH]; [reflexivity|]. cbn. rewrite (copy_core _ _ H). now f_equal. Qed.
Lemma set_last_thick_app ls l t : set_last_thick (ls ++ [l]) t = ls ++ [set_thick_raw l t].
Proof. unfold set_last_thick. rewrite last_opt_app, removelast_app by discriminate. cbn. now rewrite app_nil_r. Qed.

Lemma extra_count_spec total orig : 0 < orig -> orig <= total ->
  (1 <= extra_count total orig)%Z /\ IZR (extra_count total orig) * orig <= total < (IZR (extra_count total orig) + 1) * orig.
Proof.
  intros Ho Ht. unfold extra_count. set (z := (up (total / orig) - 1)%Z).
  assert (Ez : Rceil (IZR z) = z).
  { pose proof (Rceil_spec (IZR z)) as [H1 H2]. apply le_IZR in H2.
    assert (Rceil (IZR z) - 1 < z)%Z by (apply lt_IZR; rewrite minus_IZR; exact H1). lia. }
  rewrite Ez. pose proof (archimed (total / orig)) as [H1 H2].
  assert (Hz : IZR z <= total / orig < IZR z + 1) by (unfold z; rewrite minus_IZR; lra).
  assert (Hq : total / orig * orig = total) by (field; lra).
  split.
  - assert (1 <= total / orig) by (apply (Rmult_le_reg_r orig); lra).
    assert (0 < IZR z) by lra. apply lt_IZR in H0. lia.
  - split; [rewrite <- Hq; apply Rmult_le_compat_r; lra|rewrite <- Hq; apply Rmult_lt_compat_r; lra].
Qed.

(** The material of [l], in a copy. *)
Lemma taken_copy l x : same_core (layer_copy l) x -> taken l x /\ l_thick x = l_thick l.
Proof. intros H. unfold layer_copy in H. apply same_core_make in H. unfold taken. tauto. Qed.

Lemma total_thick_firstn_lt ls : List.Forall (fun l => 0 <= l_thick l) ls -> forall above l below,
  ls = above ++ l :: below -> total_thick above + l_thick l <= total_thick ls.
Proof.
  intros H above l below ->. rewrite total_thick_app, total_thick_cons.
  assert (0 <= total_thick below); [|lra]. apply total_thick_nonneg. apply Forall_app in H. destruct H as [_ H]. now inversion H.
Qed.

Lemma half_space_depth w p d hsl parent :
  allocated w p -> NoDup (layers_of w p) -> last_opt (view w p) = Some hsl -> l_thick hsl = 0 ->
  second_last (view w p) = Some parent -> 0 < l_thick parent -> 0 < s_unit_wt (l_soil parent) ->
  List.Forall (fun l => 0 <= l_thick l) (view w p) -> 0 <= d ->
  exists w' q layers bottom, half_space_call w p d = (w', Some (Ok q)) /\
    view w' q = layers ++ [bottom] /\ same_core hsl bottom /\
    depths_cumulative (view w' q) /\ total_thick layers = d /\ l_depth bottom = d /\
    p_wt (w_profs w' q) = p_wt (w_profs w p) /\
    ((exists above l below ls1 l1, view w p = above ++ l :: below /\ below <> [] /\ layers = ls1 ++ [l1] /\
        Forall2 (fun x y => taken x y /\ l_thick y = l_thick x) above ls1 /\ taken l l1 /\
        l_thick l1 = d - total_thick above /\ 0 <= l_thick l1 < l_thick l) \/
     (exists above ls1 ls2 t, view w p = above ++ [parent; hsl] /\ layers = ls1 ++ ls2 /\ ls2 <> [] /\
        Forall2 (fun x y => taken x y /\ l_thick y = l_thick x) above ls1 /\
        List.Forall (fun y => taken parent y /\ l_thick y = t) ls2 /\ l_thick parent <= t < 2 * l_thick parent)) /\
    last_opt (layers_of w' q) = last_opt (layers_of w p) /\
    (forall r, (r < w_pnext w)%nat -> w_profs w' r = w_profs w r) /\
    (forall a, (a < w_next w)%nat -> same_core (w_heap w a) (w_heap w' a)) /\
    (forall a, (a < w_next w)%nat -> In a (removelast (layers_of w p)) ->
       w_heap w' a = w_heap (fst (update_layers w p 0)) a).
Proof.
  intros Hal Hnd Hlast Hz Hsec Hpt Hpw Hpos Hd.
  assert (Hlen : (2 <= length (view w p))%nat).
  { unfold second_last in Hsec. destruct (view w p) as [|x [|y l]]; cbn in *; try discriminate; lia. }
  destruct (last_two _ Hlen) as (pre & par & hs & Ev & E2 & E1 & Er).
  rewrite Hsec in E2. injection E2 as <-. rewrite Hlast in E1. injection E1 as <-.
  assert (Hne : layers_of w p <> []) by (intros E; unfold view in Hlen; rewrite E in Hlen; cbn in Hlen; lia).
  assert (Hbd : bottom_distinct (view w p)) by (apply bottom_distinct_zero; intros b Hb; rewrite Hlast in Hb; injection Hb as <-; exact Hz).
  destruct (lookup_depth_spec w p d Hnd Hbd Hne Hd) as (i & u & El & Hc).
  unfold half_space_call. destruct (lookup_depth w p d) as [w1 r] eqn:Elook. cbn [snd] in El. subst r.
  assert (Hw1 : w1 = fst (update_layers w p 0)) by (unfold lookup_depth in Elook; now injection Elook).
  pose proof (view_update w p 0) as Hcore. rewrite <- Hw1 in Hcore.
  destruct (update_layers_frame w p 0) as (F1 & F2 & F3). rewrite <- Hw1 in F1, F2, F3.
  assert (Hl1 : layers_of w1 p = layers_of w p) by (unfold layers_of; now rewrite F2).
  destruct (last_opt (layers_of w p)) as [bot|] eqn:Ebot; [|apply last_opt_none in Ebot; contradiction].
  rewrite Hl1, Ebot.
  assert (Hbot : w_heap w bot = hsl).
  { unfold view in Hlast. rewrite last_opt_map, Ebot in Hlast. cbn in Hlast. now injection Hlast. }
  assert (Hbal : (bot < w_next w1)%nat) by (rewrite F1; apply Hal, last_opt_In, Ebot).
  assert (Hlenv : length (view w p) = length (layers_of w p)) by (unfold view; apply map_length).
  (* what the construction gives *)
  assert (Hfin : forall ls0 : list layer,
    let r1 := alloc_layers w1 ls0 in
    let r2 := new_profile (fst r1) (snd r1 ++ [bot]) (p_wt (w_profs w1 p)) in
    exists layers bottom, view (fst r2) (snd r2) = layers ++ [bottom] /\ same_core hsl bottom /\
      Forall2 same_core ls0 layers /\ depths_cumulative (view (fst r2) (snd r2)) /\
      l_depth bottom = total_thick layers /\
      p_wt (w_profs (fst r2) (snd r2)) = p_wt (w_profs w p) /\
      last_opt (layers_of (fst r2) (snd r2)) = Some bot /\
      (forall r, (r < w_pnext w)%nat -> w_profs (fst r2) r = w_profs w r) /\
      (forall a, (a < w_next w)%nat -> same_core (w_heap w a) (w_heap (fst r2) a)) /\
      (forall a, (a < w_next w)%nat -> In a (removelast (layers_of w p)) -> w_heap (fst r2) a = w_heap w1 a)).
  { intros ls0. pose proof (built_profile w1 ls0 [bot] (p_wt (w_profs w1 p))) as B. cbv zeta in B |- *.
    destruct B as (B1 & B2 & B3 & B4 & B5 & B6 & B7 & B8 & B9 & _).
    { intros a [<-|[]]. exact Hbal. } { constructor; [intros []|constructor]. }
    set (w2 := fst (new_profile _ _ _)) in *. set (q := snd (new_profile _ _ _)) in *.
    cbn [map] in B2, B5.
    assert (Hhc : same_core hsl (w_heap w1 bot)) by (rewrite <- Hbot, Hw1; apply update_layers_core).
    destruct (Forall2_same_core_last _ _ _ B2) as (ls1 & b1 & Ev2 & HF2 & Hb).
    exists ls1, b1. split; [exact Ev2|]. split; [eapply same_core_trans; eauto|]. split; [exact HF2|].
    assert (Hdc : depths_cumulative (view w2 q)).
    { apply placed_depths, B5, bottom_distinct_app. destruct Hhc as (_ & <- & _). exact Hz. }
    split; [exact Hdc|]. split; [rewrite Ev2 in Hdc; exact (depth_of_bottom _ _ Hdc)|].
    split; [rewrite B3; now rewrite F2|]. split.
    { destruct B9 as (addrs & -> & _). apply last_opt_app. }
    split; [intros r Hr; rewrite B8 by lia; now rewrite F2|]. split.
    { intros a Ha. eapply same_core_trans; [|apply B6; lia]. rewrite Hw1. apply update_layers_core. }
    intros a Ha Hin. apply B7; [lia|]. intros [<-|[]].
    rewrite (last_opt_inv _ _ Ebot) in Hnd. apply NoDup_remove_2 in Hnd. rewrite app_nil_r in Hnd. contradiction. }
  destruct Hc as (above & l & below & Evl & Ei & Hsum & Hu & Hbelow).
  assert (Hmapc : map layer_copy (view w1 p) = map layer_copy (view w p)) by (symmetry; apply copies_core; exact Hcore).
  destruct (Nat.ltb_spec i (length (layers_of w p) - 1)) as [Hlt|Hge].
  - (* shallower *)
    assert (Hbne : below <> []).
    { intros ->. rewrite <- Hlenv, Evl, app_length in Hlt. cbn in Hlt. lia. }
    set (ls0 := set_last_thick _ _).
    assert (Els0 : ls0 = map layer_copy above ++ [set_thick_raw (layer_copy l) u]).
    { unfold ls0. rewrite <- firstn_map, Hmapc, firstn_map, Evl, Ei.
      replace (length above + 1)%nat with (length (above ++ [l])) by (rewrite app_length; reflexivity).
      replace (above ++ l :: below) with ((above ++ [l]) ++ below) by (rewrite <- app_assoc; reflexivity).
      rewrite firstn_app, firstn_all, Nat.sub_diag. cbn [firstn]. rewrite app_nil_r, map_app. apply set_last_thick_app. }
    destruct (Hfin ls0) as (layers & bottom & V1 & V2 & V3 & V4 & V5 & V6 & V7 & V8 & V9 & V10).
    destruct (alloc_layers w1 ls0) as [w2 addrs]. cbn [fst snd] in *.
    destruct (new_profile w2 (addrs ++ [bot]) (p_wt (w_profs w1 p))) as [w3 q]. cbn [fst snd] in *.
    rewrite Els0 in V3. destruct (Forall2_same_core_last _ _ _ V3) as (ls1 & l1 & -> & HF1 & Hc1).
    assert (Hab : Forall2 (fun x y => taken x y /\ l_thick y = l_thick x) above ls1).
    { clear - HF1. revert ls1 HF1. induction above as [|x above IH]; intros ls1 H; inversion H; subst; constructor; [now apply taken_copy|now apply IH]. }
    assert (Htk : taken l l1 /\ l_thick l1 = u).
    { destruct Hc1 as (C1 & C2 & C3 & C4 & _). cbn in C1, C2, C3, C4. unfold taken. auto. }
    destruct Htk as [Htk Hth].
    assert (Htab : total_thick ls1 = total_thick above).
    { clear - Hab. induction Hab as [|x y l l' [_ H] _ IH]; [reflexivity|]. rewrite !total_thick_cons, H, IH. reflexivity. }
    assert (Htot : total_thick (ls1 ++ [l1]) = d).
    { rewrite total_thick_app, total_thick_cons, Htab, Hth. cbn. lra. }
    exists w3, q, (ls1 ++ [l1]), bottom. split; [reflexivity|]. split; [exact V1|]. split; [exact V2|]. split; [exact V4|].
    split; [exact Htot|]. split; [now rewrite V5|]. split; [exact V6|]. split.
    { left. exists above, l, below, ls1, l1. split; [exact Evl|]. split; [exact Hbne|]. split; [reflexivity|].
      split; [exact Hab|]. split; [exact Htk|]. split; [lra|]. rewrite Hth. split; [exact Hu|now apply Hbelow]. }
    split; [exact V7|]. split; [exact V8|]. split; [exact V9|]. rewrite <- Hw1. exact V10.
  - (* deeper *)
    assert (Hbe : below = []).
    { destruct below; [reflexivity|]. rewrite <- Hlenv, Evl, app_length in Hge. cbn in Hge. lia. }
    subst below.
    assert (above = pre ++ [parent] /\ l = hsl) as [-> ->].
    { rewrite Ev in Evl. replace (pre ++ [parent; hsl]) with ((pre ++ [parent]) ++ [hsl]) in Evl by (rewrite <- app_assoc; reflexivity).
      apply app_inj_tail in Evl. destruct Evl as [-> ->]. auto. }
    assert (Hlen1 : (2 <= length (view w1 p))%nat) by (rewrite <- (Forall2_len _ _ _ Hcore); exact Hlen).
    destruct (last_two _ Hlen1) as (pre1 & par1 & hs1 & Ev1 & E21 & E11 & Er1). rewrite E21.
    assert (Hpar : same_core parent par1).
    { rewrite Ev, Ev1 in Hcore. replace (pre ++ [parent; hsl]) with ((pre ++ [parent]) ++ [hsl]) in Hcore by (rewrite <- app_assoc; reflexivity).
      destruct (Forall2_same_core_last _ _ _ Hcore) as (x1 & x2 & Ex & Hx & _).
      destruct (Forall2_same_core_last _ _ _ Hx) as (y1 & y2 & -> & _ & Hy).
      replace (pre1 ++ [par1; hs1]) with ((pre1 ++ [par1]) ++ [hs1]) in Ex by (rewrite <- app_assoc; reflexivity).
      apply app_inj_tail in Ex. destruct Ex as [Ex _]. apply app_inj_tail in Ex. destruct Ex as [_ ->]. exact Hy. }
    assert (Hpth : l_thick par1 = l_thick parent) by (destruct Hpar as (_ & -> & _); reflexivity).
    rewrite Hpth. rewrite (proj2 (Reqb_false _ _)) by lra. cbv zeta.
    destruct (extra_count_spec (l_thick parent + u) (l_thick parent) Hpt ltac:(lra)) as (Hcount & Hlo & Hhi).
    set (count := extra_count _ _) in *.
    assert (Hc1 : 1 <= IZR count) by (now apply (IZR_le 1)).
    unfold div_opt. rewrite (proj2 (Reqb_false _ _)) by lra.
    set (t := (l_thick parent + u) / IZR count).
    assert (Htc : t * IZR count = l_thick parent + u) by (unfold t; field; lra).
    assert (Emap : map layer_copy (removelast (view w1 p)) = map layer_copy pre ++ [layer_copy parent]).
    { rewrite map_removelast, Hmapc, <- map_removelast, Er, map_app. reflexivity. }
    rewrite Emap, set_last_thick_app, last_opt_app.
    set (par' := set_thick_raw (layer_copy parent) t).
    assert (Epar : same_core (layer_copy par') par').
    { unfold layer_copy at 1. change (l_soil par') with (l_soil parent). change (l_dmin par') with (l_dmin parent).
      change (l_thick par') with t.
      assert (Ev' : shear_vel par' = shear_vel parent).
      { change (shear_vel par') with (shear_vel (layer_make (l_soil parent) (l_thick parent) (shear_vel parent) (l_dmin parent))).
        apply sub_vel; [exact Hpw|apply sqrt_pos]. }
      rewrite Ev'. unfold par', layer_copy, layer_make, same_core. cbn. repeat split. }
    set (ls0 := (map layer_copy pre ++ [par']) ++ repeat (layer_copy par') (Z.to_nat (count - 1))).
    destruct (Hfin ls0) as (layers & bottom & V1 & V2 & V3 & V4 & V5 & V6 & V7 & V8 & V9 & V10).
    destruct (alloc_layers w1 ls0) as [w2 addrs]. cbn [fst snd] in *.
    destruct (new_profile w2 (addrs ++ [bot]) (p_wt (w_profs w1 p))) as [w3 q]. cbn [fst snd] in *.
    unfold ls0 in V3. rewrite <- app_assoc in V3. apply Forall2_app_inv_l in V3.
    destruct V3 as (ls1 & ls2 & HF1 & HF2 & ->).
    assert (Hab : Forall2 (fun x y => taken x y /\ l_thick y = l_thick x) pre ls1).
    { clear - HF1. revert ls1 HF1. induction pre as [|x above IH]; intros ls1 H; inversion H; subst; constructor; [now apply taken_copy|now apply IH]. }
    assert (Htp : forall y, same_core par' y -> taken parent y /\ l_thick y = t).
    { intros y (C1 & C2 & C3 & C4 & _). cbn in C1, C2, C3, C4. unfold taken. auto. }
    assert (Hls2 : List.Forall (fun y => taken parent y /\ l_thick y = t) ls2 /\ length ls2 = Z.to_nat count).
    { cbn [app] in HF2. inversion HF2 as [|? y ? ls3 Hy HF3]; subst. split.
      - constructor; [now apply Htp|]. clear - HF3 Htp Epar.
        remember (repeat (layer_copy par') (Z.to_nat (count - 1))) as rs eqn:Ers. revert Ers.
        generalize (Z.to_nat (count - 1)) as n. induction HF3 as [|a b xs ys Hab _ IH]; intros n Ers; [constructor|].
        destruct n as [|n]; [discriminate|]. cbn in Ers. injection Ers as -> ->.
        constructor; [apply Htp; eapply same_core_trans; [apply same_core_sym, Epar|exact Hab]|now apply (IH n)].
      - cbn [length]. rewrite <- (Forall2_len _ _ _ HF3), repeat_length. lia. }
    destruct Hls2 as [Hls2 Hlen2].
    assert (Htab : total_thick ls1 = total_thick pre).
    { clear - Hab. induction Hab as [|x y l l' [_ H] _ IH]; [reflexivity|]. rewrite !total_thick_cons, H, IH. reflexivity. }
    assert (Ht2 : total_thick ls2 = t * IZR count).
    { rewrite <- (Z2Nat.id count) by lia. rewrite <- INR_IZR_INZ, <- Hlen2. clear - Hls2.
      induction Hls2 as [|y ls [_ Hy] _ IH]; [cbn; ring|]. rewrite total_thick_cons, IH, Hy. cbn [length]. rewrite S_INR. ring. }
    assert (Htot : total_thick (ls1 ++ ls2) = d).
    { rewrite total_thick_app, Htab, Ht2, Htc. rewrite total_thick_app, total_thick_cons in Hsum. cbn in Hsum. lra. }
    exists w3, q, (ls1 ++ ls2), bottom. split; [reflexivity|]. split; [exact V1|]. split; [exact V2|]. split; [exact V4|].
    split; [exact Htot|]. split; [now rewrite V5|]. split; [exact V6|]. split.
    { right. exists pre, ls1, ls2, t. split; [exact Ev|]. split; [reflexivity|]. split.
      { intros ->. cbn in Hlen2. lia. }
      split; [exact Hab|]. split; [exact Hls2|].
      split.
      - apply (Rmult_le_reg_r (IZR count)); [lra|]. rewrite Htc. lra.
      - apply (Rmult_lt_reg_r (IZR count)); [lra|]. rewrite Htc. nra. }
    split; [exact V7|]. split; [exact V8|]. split; [exact V9|]. rewrite <- Hw1. exact V10.
Qed.

Lemma half_space_interface w p d hsl parent above l below :
  allocated w p -> NoDup (layers_of w p) -> last_opt (view w p) = Some hsl -> l_thick hsl = 0 ->
  second_last (view w p) = Some parent -> 0 < l_thick parent -> 0 < s_unit_wt (l_soil parent) ->
  List.Forall (fun x => 0 <= l_thick x) (view w p) ->
  view w p = above ++ l :: below -> below <> [] -> 0 < l_thick l -> d = total_thick above ->
  exists w' q layers l1 bottom, half_space_call w p d = (w', Some (Ok q)) /\
    view w' q = (layers ++ [l1]) ++ [bottom] /\ l_thick l1 = 0.
Proof.
  intros Hal Hnd Hl Hz Hs Hp Hw Hpos Ev Hb Hlt Hd.
  assert (H0 : 0 <= d).
  { rewrite Hd. apply total_thick_nonneg. rewrite Ev in Hpos. apply Forall_app in Hpos. tauto. }
  destruct (half_space_depth w p d hsl parent Hal Hnd Hl Hz Hs Hp Hw Hpos H0)
    as (w' & q & layers & bottom & E & V & _ & _ & Ht & _ & _ & [S|D] & _).
  - destruct S as (a1 & x & b1 & ls1 & l1 & Ev1 & Hb1 & -> & _ & _ & H1 & H2).
    exists w', q, ls1, l1, bottom. split; [exact E|]. split; [exact V|].
    destruct (contains_unique (view w p) d (length above) (length a1) 0 (l_thick l1)) as [_ <-]; auto.
    + exists above, l, below. split; [exact Ev|]. split; [reflexivity|]. split; [lra|]. split; [lra|auto].
    + exists a1, x, b1. split; [exact Ev1|]. split; [reflexivity|]. split; [lra|]. split; [lra|]. intros _. lra.
  - exfalso. destruct D as (pre & ls1 & ls2 & t & Ev1 & -> & Hne & HF & HF2 & Ht1).
    assert (Hpre : total_thick above + l_thick l <= total_thick (pre ++ [parent])).
    { assert (Er : removelast (view w p) = pre ++ [parent]).
      { rewrite Ev1. replace (pre ++ [parent; hsl]) with ((pre ++ [parent]) ++ [hsl]) by (rewrite <- app_assoc; reflexivity).
        rewrite removelast_app by discriminate. cbn. now rewrite app_nil_r. }
      rewrite <- Er. apply total_thick_firstn_lt with (below := removelast below).
      - rewrite Ev1 in Hpos. rewrite Er. apply Forall_app in Hpos. destruct Hpos as [P1 P2]. apply Forall_app. split; [exact P1|].
        inversion P2; subst. constructor; auto.
      - rewrite Ev. change (l :: below) with ([l] ++ below). rewrite app_assoc, removelast_app by exact Hb. now rewrite <- app_assoc. }
    rewrite total_thick_app, total_thick_cons in Hpre. cbn in Hpre.
    rewrite total_thick_app in Ht.
    assert (E1 : total_thick ls1 = total_thick pre).
    { clear - HF. induction HF as [|x y l l' [_ H] _ IH]; [reflexivity|]. rewrite !total_thick_cons, H, IH. reflexivity. }
    assert (E2 : l_thick parent <= total_thick ls2).
    { destruct ls2 as [|y ls2]; [congruence|]. inversion HF2 as [|? ? [_ Hy] HF3]; subst. rewrite total_thick_cons.
      assert (0 <= total_thick ls2); [|lra]. apply total_thick_nonneg. eapply Forall_impl; [|exact HF3]. cbn. intros z [_ Hz1]. lra. }
    lra.
Qed.

Lemma half_space_moves_input w p d hsl parent :
  (p < w_pnext w)%nat ->
  allocated w p -> NoDup (layers_of w p) -> last_opt (view w p) = Some hsl -> l_thick hsl = 0 ->
  second_last (view w p) = Some parent -> 0 < l_thick parent -> 0 < s_unit_wt (l_soil parent) ->
  List.Forall (fun x => 0 <= l_thick x) (view w p) -> 0 <= d ->
  exists w' q b, half_space_call w p d = (w', Some (Ok q)) /\
    last_opt (view w' p) = Some b /\ l_depth b = d /\
    (depths_cumulative (view w' p) -> d = total_thick (removelast (view w p))) /\
    (depths_cumulative (view w p) -> map l_depth (removelast (view w' p)) = map l_depth (removelast (view w p))) /\
    Forall2 same_core (view w p) (view w' p).
Proof.
  intros Hpn Hal Hnd Hl Hz Hs Hp Hw Hpos H0.
  destruct (half_space_depth w p d hsl parent Hal Hnd Hl Hz Hs Hp Hw Hpos H0)
    as (w' & q & layers & bottom & E & V & Hc & _ & Ht & Hdb & _ & _ & Hlo & Hpr & Hco & Hoth).
  assert (Hlp : layers_of w' p = layers_of w p) by (unfold layers_of; now rewrite Hpr).
  exists w', q, bottom. split; [exact E|].
  assert (Hbot : last_opt (view w' p) = Some bottom).
  { assert (Hx : last_opt (view w' q) = Some bottom) by (rewrite V; apply last_opt_app).
    unfold view in *. rewrite last_opt_map in *. rewrite Hlp, <- Hlo. exact Hx. }
  assert (HF : Forall2 same_core (view w p) (view w' p)).
  { unfold view. rewrite Hlp. assert (Hal' := Hal). unfold allocated in Hal'. revert Hal'. generalize (layers_of w p) as l0.
    induction l0 as [|a l0 IH]; intros Ha; cbn; constructor; [apply Hco, Ha; now left|apply IH; intros b Hb; apply Ha; now right]. }
  split; [exact Hbot|]. split; [exact Hdb|]. split; [|split; [|exact HF]].
  - intros Hd. rewrite <- Hdb. rewrite (last_opt_inv _ _ Hbot) in Hd. rewrite (depth_of_bottom _ _ Hd).
    symmetry. apply total_thick_core2. clear - HF.
    induction HF as [|a b l l' H HF IH]; [constructor|]. destruct HF; [constructor|]. cbn. constructor; assumption.
  - intros Hd. assert (Hbd : bottom_distinct (view w p)) by (apply bottom_distinct_zero; intros b Hb; rewrite Hl in Hb; injection Hb as <-; exact Hz).
    pose proof (update_all_placed w p Hnd Hbd) as Hpl.
    unfold view. rewrite <- !map_removelast, Hlp, !map_map. apply map_ext_in. intros a Ha.
    assert (Hin : In a (layers_of w p)).
    { destruct (last_opt (layers_of w p)) as [b0|] eqn:Eb0; [rewrite (last_opt_inv _ _ Eb0); apply in_or_app; now left|].
      apply last_opt_none in Eb0. rewrite Eb0 in Ha. destruct Ha. }
    rewrite (Hoth a (Hal a Hin) Ha). apply in_split in Hin. destruct Hin as (l1 & l2 & El).
    destruct (Hpl l1 a l2 El) as (-> & _).
    rewrite (Hd (map (w_heap w) l1) (w_heap w a) (map (w_heap w) l2)) by (unfold view; rewrite El, map_app; reflexivity).
    symmetry. apply sum_thick_core. intros b Hb. apply update_layers_core.
Qed.
