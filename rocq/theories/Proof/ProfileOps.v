(** Lemmas about the operations of a profile. *)
From Coq Require Import String.
From Verif Require Import Common Model.Curve Model.Layer Model.Profile
  Spec.LayerSpec Spec.ProfileSpec Spec.HistorySpec
  Proof.CommonFacts Proof.LayerFacts Proof.ProfileFacts.
Local Open Scope R_scope.

(** ** Depth lookup *)
Lemma total_thick_nonneg ls : Forall (fun l => 0 <= l_thick l) ls -> 0 <= total_thick ls.
Proof.
  induction 1 as [|l ls Hl _ IH]; [change (total_thick []) with 0; lra|].
  rewrite total_thick_cons. lra.
Qed.

Lemma contains_unique ls d i j u v :
  Forall (fun l => 0 <= l_thick l) ls ->
  contains_depth ls d i u -> contains_depth ls d j v -> i = j /\ u = v.
Proof.
  intros Hpos.
  assert (Hlt : forall i j u v, contains_depth ls d i u -> contains_depth ls d j v -> ~ (i < j)%nat).
  { clear i j u v.
    intros i j u v (a1 & l1 & b1 & E1 & -> & S1 & P1 & L1) (a2 & l2 & b2 & E2 & -> & S2 & P2 & L2) Hij.
    assert (Ha : exists mid, a2 = a1 ++ l1 :: mid).
    { exists (firstn (length a2 - S (length a1)) b1).
      assert (F : firstn (length a2) ls = a2).
      { rewrite E2, firstn_app, Nat.sub_diag, firstn_all. cbn. apply app_nil_r. }
      rewrite <- F at 1. rewrite E1, firstn_app, firstn_all2 by lia. f_equal.
      replace (length a2 - length a1)%nat with (S (length a2 - S (length a1))) by lia. reflexivity. }
    destruct Ha as [mid ->].
    assert (Hb : b1 <> []).
    { intros ->. rewrite E2 in E1. apply (f_equal (@length _)) in E1.
      rewrite !app_length in E1. cbn [length] in E1. lia. }
    specialize (L1 Hb). rewrite total_thick_app, total_thick_cons in S2.
    assert (Hm : 0 <= total_thick mid).
    { apply total_thick_nonneg. rewrite E2 in Hpos. rewrite <- app_assoc in Hpos.
      apply Forall_app in Hpos. destruct Hpos as [_ Hpos]. inversion Hpos as [|? ? _ Hp]; subst.
      apply Forall_app in Hp. apply Hp. }
    lra. }
  intros H1 H2.
  assert (i = j).
  { pose proof (Hlt _ _ _ _ H1 H2). pose proof (Hlt _ _ _ _ H2 H1). lia. }
  subst j. split; [reflexivity|].
  destruct H1 as (a1 & l1 & b1 & E1 & L1 & S1 & _), H2 as (a2 & l2 & b2 & E2 & L2 & S2 & _).
  assert (a1 = a2).
  { rewrite E1 in E2. apply (f_equal (firstn i)) in E2.
    rewrite !firstn_app, <- L1, <- L2, Nat.sub_diag in E2. rewrite L1 in E2 at 1.
    rewrite L2 in E2. rewrite !firstn_all in E2. cbn in E2. rewrite !app_nil_r in E2. exact E2. }
  subst a2. lra.
Qed.

Lemma lookup_from_spec ls d : forall base i,
  (forall above l below, ls = above ++ l :: below -> l_depth l = base + total_thick above) ->
  base <= d ->
  match lookup_from ls d i with
  | Some (k, u) => exists above l below, ls = above ++ l :: below /\ k = (i + length above)%nat /\
                     base + total_thick above + u = d /\ 0 <= u < l_thick l
  | None => base + total_thick ls <= d
  end.
Proof.
  induction ls as [|l ls IH]; intros base i Hd Hb.
  - cbn. lra.
  - pose proof (Hd [] l ls eq_refl) as H0. change (total_thick []) with 0 in H0.
    cbn [lookup_from]. destruct (Rleb (l_depth l) d && Rltb d (depth_base l)) eqn:E.
    + apply andb_prop in E. destruct E as [E1 E2]. apply Rleb_true in E1. apply Rltb_true in E2.
      unfold depth_base in E2. exists [], l, ls. cbn. change (total_thick []) with 0.
      repeat split; try lia; lra.
    + assert (Hge : base + l_thick l <= d).
      { apply andb_false_iff in E. destruct E as [E|E].
        - apply Rleb_false in E. lra.
        - apply Rltb_false in E. unfold depth_base in E. lra. }
      specialize (IH (base + l_thick l) (S i)).
      assert (Hd' : forall above l0 below, ls = above ++ l0 :: below ->
                    l_depth l0 = base + l_thick l + total_thick above).
      { intros above l0 below El. rewrite (Hd (l :: above) l0 below) by (cbn; now rewrite El).
        rewrite total_thick_cons. lra. }
      specialize (IH Hd' Hge). destruct (lookup_from ls d (S i)) as [[k u]|].
      * destruct IH as (above & l0 & below & E1 & E2 & E3 & E4).
        exists (l :: above), l0, below. rewrite total_thick_cons. cbn [app length].
        repeat split; [now rewrite E1|lia|lra|lra|lra].
      * rewrite total_thick_cons. lra.
Qed.

Lemma lookup_view_spec ls d :
  ls <> [] -> depths_cumulative ls -> 0 <= d ->
  exists i u, lookup_view ls d = Ok (i, u) /\ contains_depth ls d i u.
Proof.
  intros Hne Hd H0. unfold lookup_view.
  destruct (last_opt ls) as [bot|] eqn:El; [|apply last_opt_none in El; contradiction].
  pose proof (last_opt_inv _ _ El) as Hinv.
  assert (Hd' : forall above l below, removelast ls = above ++ l :: below ->
                l_depth l = 0 + total_thick above).
  { intros above l below E. rewrite (Hd above l (below ++ [bot])); [lra|].
    rewrite Hinv, E, <- app_assoc. reflexivity. }
  pose proof (lookup_from_spec (removelast ls) d 0 0 Hd' H0) as H.
  destruct (lookup_from (removelast ls) d 0) as [[k u]|].
  - destruct H as (above & l & below & E1 & E2 & E3 & E4). exists k, u. split; [reflexivity|].
    exists above, l, (below ++ [bot]).
    repeat split; [rewrite Hinv, E1, <- app_assoc; reflexivity|exact E2|lra|lra|lra].
  - exists (length ls - 1)%nat, (d - l_depth bot). split; [reflexivity|].
    assert (Hb : l_depth bot = total_thick (removelast ls)) by (apply (Hd _ bot []); exact Hinv).
    exists (removelast ls), bot, [].
    repeat split; [exact Hinv|rewrite removelast_length; lia|lra|lra|congruence].
Qed.

Lemma lookup_view_negative ls d :
  ls <> [] -> depths_cumulative ls -> Forall (fun l => 0 <= l_thick l) ls -> d < 0 ->
  lookup_view ls d = Ok ((length ls - 1)%nat, d - total_thick (removelast ls)).
Proof.
  intros Hne Hd Hpos H0. unfold lookup_view.
  destruct (last_opt ls) as [bot|] eqn:El; [|apply last_opt_none in El; contradiction].
  pose proof (last_opt_inv _ _ El) as Hinv.
  assert (Hb : l_depth bot = total_thick (removelast ls)) by (apply (Hd _ bot []); exact Hinv).
  assert (Hnone : forall sub i, (forall l, In l sub -> In l (removelast ls)) -> lookup_from sub d i = None).
  { induction sub as [|l sub IH]; intros i Hsub; [reflexivity|]. cbn [lookup_from].
    assert (Hdl : 0 <= l_depth l).
    { assert (Hin : In l ls) by (rewrite Hinv; apply in_or_app; left; apply Hsub; now left).
      apply in_split in Hin. destruct Hin as (a & b & E). rewrite (Hd a l b E).
      apply total_thick_nonneg. rewrite E in Hpos. apply Forall_app in Hpos. apply Hpos. }
    rewrite (proj2 (Rleb_false (l_depth l) d)) by lra. cbn. apply IH.
    intros x Hx. apply Hsub. now right. }
  rewrite Hnone by auto. now rewrite Hb.
Qed.

(** [update_layers()] from any state. *)
Lemma update_all_placed w p :
  NoDup (layers_of w p) -> bottom_distinct (view w p) ->
  placed (w_heap (fst (update_layers w p 0))) p (layers_of w p).
Proof.
  intros Hnd Hb. apply bottom_ok_view in Hb.
  destruct (update_layers_placed w p 0 Hnd Hb) as [H _]; [lia| |exact H].
  cbn. intros above a below E. destruct above; discriminate.
Qed.
Lemma view_update w p start :
  Forall2 same_core (view w p) (view (fst (update_layers w p start)) p).
Proof.
  assert (Hl : layers_of (fst (update_layers w p start)) p = layers_of w p).
  { unfold layers_of. destruct (update_layers_frame w p start) as (_ & -> & _). reflexivity. }
  unfold view. rewrite Hl. generalize (layers_of w p) as l.
  induction l as [|a l IH]; cbn [map]; [constructor|].
  constructor; [apply update_layers_core|exact IH].
Qed.
Lemma total_thick_core2 ls ls' : Forall2 same_core ls ls' -> total_thick ls = total_thick ls'.
Proof.
  induction 1 as [|a b l l' H _ IH]; [reflexivity|]. rewrite !total_thick_cons, IH.
  destruct H as (_ & -> & _). reflexivity.
Qed.
Lemma contains_core ls ls' d i u :
  Forall2 same_core ls ls' -> contains_depth ls' d i u -> contains_depth ls d i u.
Proof.
  intros HF (above & l & below & E & Ei & Es & Hu & Hb). subst ls'.
  apply Forall2_app_inv_r in HF. destruct HF as (a1 & r1 & Ha & Hr & ->).
  inversion Hr as [|x ? b1 ? Hx Hb1]; subst.
  exists a1, x, b1. split; [reflexivity|]. split; [symmetry; eapply Forall2_len; eauto|].
  split; [rewrite (total_thick_core2 _ _ Ha); reflexivity|]. split; [exact Hu|].
  intros Hne. destruct Hx as (_ & -> & _). apply Hb.
  intros ->. inversion Hb1; subst; congruence.
Qed.

Lemma lookup_depth_spec w p d :
  NoDup (layers_of w p) -> bottom_distinct (view w p) -> layers_of w p <> [] -> 0 <= d ->
  exists i u, snd (lookup_depth w p d) = Ok (i, u) /\ contains_depth (view w p) d i u.
Proof.
  intros Hnd Hb Hne H0. unfold lookup_depth; cbn [snd].
  pose proof (update_all_placed w p Hnd Hb) as Hpl.
  set (w1 := fst (update_layers w p 0)) in *.
  assert (Hl : layers_of w1 p = layers_of w p).
  { unfold layers_of, w1. destruct (update_layers_frame w p 0) as (_ & -> & _). reflexivity. }
  rewrite <- Hl in Hpl. apply placed_view in Hpl. destruct Hpl as [Hd _].
  destruct (lookup_view_spec (view w1 p) d) as (i & u & H1 & H2); auto.
  { unfold view. rewrite Hl. intros E. apply map_eq_nil in E. contradiction. }
  exists i, u. split; [exact H1|]. eapply contains_core; [apply view_update|exact H2].
Qed.

Lemma lookup_depth_negative w p d :
  NoDup (layers_of w p) -> bottom_distinct (view w p) -> layers_of w p <> [] ->
  Forall (fun l => 0 <= l_thick l) (view w p) -> d < 0 ->
  snd (lookup_depth w p d) =
  Ok ((length (layers_of w p) - 1)%nat, d - total_thick (removelast (view w p))).
Proof.
  intros Hnd Hb Hne Hpos H0. unfold lookup_depth; cbn [snd].
  pose proof (update_all_placed w p Hnd Hb) as Hpl.
  pose proof (view_update w p 0) as HF.
  set (w1 := fst (update_layers w p 0)) in *.
  assert (Hl : layers_of w1 p = layers_of w p).
  { unfold layers_of, w1. destruct (update_layers_frame w p 0) as (_ & -> & _). reflexivity. }
  rewrite <- Hl in Hpl. apply placed_view in Hpl. destruct Hpl as [Hd _].
  rewrite (lookup_view_negative (view w1 p) d); auto.
  - f_equal. f_equal.
    + unfold view. now rewrite map_length, Hl.
    + f_equal. symmetry. apply total_thick_core2. clear - HF.
      induction HF as [|a b l l' H HF IH]; [constructor|].
      destruct HF; [constructor|]. cbn. constructor; assumption.
  - unfold view. rewrite Hl. intros E. apply map_eq_nil in E. contradiction.
  - clear - HF Hpos. induction HF as [|a b l l' H HF IH]; constructor; inversion Hpos; subst; auto.
    destruct H as (_ & <- & _). assumption.
Qed.

(** ** Location by index *)
Lemma py_index_some i n k : py_index i n = Some k -> (k < n)%nat /\
  (Z.of_nat k = if (i <? 0)%Z then i + Z.of_nat n else i)%Z.
Proof.
  unfold py_index. destruct (Z.ltb_spec i 0).
  - destruct (Z.ltb_spec (i + Z.of_nat n) 0); [discriminate|].
    destruct (Z.ltb_spec (i + Z.of_nat n) (Z.of_nat n)); [|discriminate].
    intros E; injection E as <-. lia.
  - destruct (Z.ltb_spec i 0); [lia|]. destruct (Z.ltb_spec i (Z.of_nat n)); [|discriminate].
    intros E; injection E as <-. lia.
Qed.

Lemma index_from_first h addrs a i k :
  nth_error addrs k = Some a ->
  (forall j b, (j < k)%nat -> nth_error addrs j = Some b -> b <> a /\ layer_eqb (h b) (h a) = false) ->
  index_from h addrs a i = Some (i + k)%nat.
Proof.
  revert i k; induction addrs as [|b rest IH]; intros i k Hk Hfirst; [destruct k; discriminate|].
  cbn [index_from]. destruct k as [|k].
  - injection Hk as ->. rewrite Nat.eqb_refl. cbn. f_equal; lia.
  - destruct (Hfirst 0%nat b) as [H1 H2]; [lia|reflexivity|].
    apply Nat.eqb_neq in H1. rewrite H1, H2. cbn. rewrite (IH (S i) k); [f_equal; lia|exact Hk|].
    intros j c Hj Hc. apply (Hfirst (S j) c); [lia|exact Hc].
Qed.

Lemma index_from_least h addrs a i r :
  index_from h addrs a i = Some r ->
  exists j b, r = (i + j)%nat /\ nth_error addrs j = Some b /\ (b = a \/ layer_eqb (h b) (h a) = true) /\
    (forall j' b', (j' < j)%nat -> nth_error addrs j' = Some b' -> b' <> a /\ layer_eqb (h b') (h a) = false).
Proof.
  revert i; induction addrs as [|b rest IH]; intros i H; [discriminate|].
  cbn [index_from] in H. destruct (Nat.eqb b a || layer_eqb (h b) (h a)) eqn:E.
  - injection H as <-. exists 0%nat, b. split; [lia|]. split; [reflexivity|].
    split; [|intros; lia]. apply orb_prop in E. destruct E as [E|E]; [left; now apply Nat.eqb_eq|now right].
  - apply orb_false_iff in E. destruct E as [E1 E2]. apply Nat.eqb_neq in E1.
    apply IH in H. destruct H as (j & c & -> & Hc & Heq & Hmin). exists (S j), c.
    split; [lia|]. split; [exact Hc|]. split; [exact Heq|].
    intros [|j'] b' Hj Hb'; [injection Hb' as <-; auto|]. apply (Hmin j'); [lia|exact Hb'].
Qed.

(** ** Copies *)
Lemma alloc_raw ls : forall w,
  let r := alloc_layers w ls in
  NoDup (snd r) /\ map (w_heap (fst r)) (snd r) = ls /\
  (forall a, In a (snd r) -> (w_next w <= a < w_next (fst r))%nat) /\
  (forall a, (a < w_next w)%nat -> w_heap (fst r) a = w_heap w a) /\
  w_profs (fst r) = w_profs w /\ w_pnext (fst r) = w_pnext w /\
  (w_next w <= w_next (fst r))%nat.
Proof.
  induction ls as [|l ls IH]; intros w.
  - cbn [alloc_layers fst snd map].
    split; [constructor|]. split; [reflexivity|].
    split; [intros a []|]. split; [reflexivity|]. split; [reflexivity|]. split; [reflexivity|lia].
  - cbn [alloc_layers]. destruct (alloc_layer w l) as [w1 a] eqn:E1.
    specialize (IH w1). destruct (alloc_layers w1 ls) as [w2 addrs]. cbn [fst snd] in *.
    injection E1 as <- <-. cbn [w_heap w_next w_profs w_pnext] in *.
    destruct IH as (B & C & D & E & F & G & H).
    split.
    { constructor; [|exact B]. intros Hi. apply D in Hi. lia. }
    split.
    { cbn [map]. f_equal; [|exact C]. rewrite E by lia. apply hset_same. }
    split.
    { intros b [<-|Hb]; [lia|]. apply D in Hb. lia. }
    split.
    { intros b Hb. rewrite E by lia. apply hset_other. lia. }
    split; [exact F|]. split; [exact G|lia].
Qed.

Lemma new_profile_frame w addrs wt :
  let r := new_profile w addrs wt in
  snd r = w_pnext w /\ layers_of (fst r) (snd r) = addrs /\ p_wt (w_profs (fst r) (snd r)) = wt /\
  (forall q, q <> w_pnext w -> w_profs (fst r) q = w_profs w q) /\
  (forall a, same_core (w_heap w a) (w_heap (fst r) a)) /\
  (forall a, ~ In a addrs -> w_heap (fst r) a = w_heap w a) /\
  w_next (fst r) = w_next w.
Proof.
  unfold new_profile; cbn [fst snd]. set (w1 := mkWorld _ _ _ _).
  destruct (update_layers_frame w1 (w_pnext w) 0) as (F1 & F2 & F3).
  assert (Hl1 : layers_of w1 (w_pnext w) = addrs).
  { unfold layers_of, w1; cbn. now rewrite Nat.eqb_refl. }
  split; [reflexivity|]. split; [unfold layers_of; rewrite F2; exact Hl1|].
  split; [rewrite F2; unfold w1; cbn; now rewrite Nat.eqb_refl|].
  split; [intros q Hq; rewrite F2; unfold w1; cbn; apply Nat.eqb_neq in Hq; now rewrite Hq|].
  split; [intros a; apply (update_layers_core w1)|].
  split; [|exact F1].
  intros a Ha. rewrite update_layers_other; [reflexivity|]. now rewrite Hl1.
Qed.

Lemma profile_copy_spec w p :
  (forall a, In a (layers_of w p) -> (a < w_next w)%nat) ->
  let r := profile_copy w p in
  Forall2 (fun l l' => same_core (layer_copy l) l') (view w p) (view (fst r) (snd r)) /\
  p_wt (w_profs (fst r) (snd r)) = p_wt (w_profs w p) /\
  (forall a, In a (layers_of (fst r) (snd r)) -> (w_next w <= a)%nat) /\
  NoDup (layers_of (fst r) (snd r)) /\
  (forall a, (a < w_next w)%nat -> w_heap (fst r) a = w_heap w a) /\
  (forall q, (q < w_pnext w)%nat -> w_profs (fst r) q = w_profs w q).
Proof.
  intros Hal. unfold profile_copy.
  pose proof (alloc_raw (map layer_copy (view w p)) w) as Hr.
  destruct (alloc_layers w (map layer_copy (view w p))) as [w1 addrs]. cbn [fst snd] in Hr.
  destruct Hr as (B & C & D & E & F & G & H).
  pose proof (new_profile_frame w1 addrs (p_wt (w_profs w p))) as Hn.
  destruct (new_profile w1 addrs (p_wt (w_profs w p))) as [w2 q]. cbn [fst snd] in *.
  destruct Hn as (N1 & N2 & N3 & N4 & N5 & N6 & N7).
  split.
  { unfold view at 2. rewrite N2.
    assert (HF : Forall2 (fun l l' => l' = layer_copy l) (view w p) (map (w_heap w1) addrs)).
    { rewrite C. generalize (view w p) as ls. induction ls; cbn; constructor; auto. }
    revert HF. generalize (view w p) as ls. clear - N5.
    induction addrs as [|a addrs IH]; intros ls HF; inversion HF as [|l0 ? ls0 ? Hx Hr]; subst;
      cbn [map]; constructor; [rewrite <- Hx; apply N5|apply IH; assumption]. }
  split; [exact N3|].
  split; [intros a Ha; rewrite N2 in Ha; now apply D|].
  split; [now rewrite N2|].
  split.
  { intros a Ha. rewrite N6; [now apply E|]. intros Hi. apply D in Hi. lia. }
  intros q' Hq'. rewrite N4 by lia. now rewrite F.
Qed.

Lemma density_pos s : 0 < s_unit_wt s -> 0 < density s.
Proof. intros H. unfold density, GRAVITY. apply Rdiv_lt_0_compat; lra. Qed.

Lemma shear_vel_initial l :
  0 < s_unit_wt (l_soil l) -> 0 <= l_vs l -> shear_mod l = initial_shear_mod l ->
  shear_vel l = l_vs l.
Proof.
  intros Hu Hv HG. unfold shear_vel. rewrite HG. unfold initial_shear_mod.
  pose proof (density_pos _ Hu) as Hd.
  replace (density (l_soil l) * l_vs l ^ 2 / density (l_soil l)) with (l_vs l * l_vs l) by (field; lra).
  apply sqrt_square, Hv.
Qed.

(** ** Auto-discretisation *)
Lemma Rceil_spec x : IZR (Rceil x) - 1 < x <= IZR (Rceil x).
Proof.
  unfold Rceil. destruct (archimed (- x)) as [H1 H2].
  rewrite opp_IZR, minus_IZR. lra.
Qed.

Lemma sub_count_spec l f wf :
  0 < shear_vel l -> 0 < f -> 0 < wf -> 0 <= l_thick l ->
  let limit := shear_vel l / f * wf in
  let n := sub_count l f wf in
  (1 <= n)%nat /\ l_thick l <= limit * INR n /\ ((1 < n)%nat -> limit * INR (n - 1) < l_thick l).
Proof.
  intros Hv Hf Hw Ht limit n.
  assert (Hlim : 0 < limit) by (unfold limit; apply Rmult_lt_0_compat; [apply Rdiv_lt_0_compat; lra|lra]).
  pose proof (Rceil_spec (l_thick l / limit)) as [C1 C2].
  unfold n, sub_count. fold limit. set (c := Rceil (l_thick l / limit)) in *.
  assert (Hq : l_thick l / limit * limit = l_thick l) by (field; lra).
  split; [lia|].
  assert (HINR : INR (Z.to_nat (Z.max c 1)) = IZR (Z.max c 1)).
  { rewrite INR_IZR_INZ, Z2Nat.id by lia. reflexivity. }
  split.
  - rewrite HINR. assert (IZR c <= IZR (Z.max c 1)) by (apply IZR_le; lia).
    rewrite <- Hq. rewrite Rmult_comm. apply Rmult_le_compat_l; lra.
  - intros Hn. assert (Hc : (1 < c)%Z) by lia. rewrite Z.max_l in * by lia.
    rewrite minus_INR by lia. rewrite INR_IZR_INZ, Z2Nat.id by lia. cbn [INR].
    rewrite <- Hq at 1. rewrite (Rmult_comm limit). apply Rmult_lt_compat_r; lra.
Qed.

Lemma split_layer_parts l f wf :
  0 < shear_vel l -> 0 < f -> 0 < wf -> 0 <= l_thick l ->
  equal_parts l (shear_vel l / f * wf) (split_layer l f wf).
Proof.
  intros Hv Hf Hw Ht.
  destruct (sub_count_spec l f wf Hv Hf Hw Ht) as (N1 & N2 & N3).
  exists (sub_count l f wf). split; [exact N1|].
  unfold split_layer. split; [apply repeat_length|].
  split; [|split; assumption].
  apply Forall_forall. intros x Hx. apply repeat_spec in Hx. subst x. cbn.
  repeat split; auto. field. apply not_0_INR. lia.
Qed.

(** One layer of the input and the layers it became. *)
Definition disc_group (f wf : R) (nl : bool) (l : layer) (g : list layer) : Prop :=
  if negb nl || is_nonlinear (l_soil l) then g = split_layer l f wf else g = [l].

Lemma discretize_loop_spec addrs f wf nl : forall w,
  (forall a, In a addrs -> (a < w_next w)%nat) -> NoDup addrs ->
  let r := discretize_loop w addrs f wf nl in
  (exists groups, Forall2 (disc_group f wf nl) (map (w_heap w) addrs) groups /\
     map (w_heap (fst r)) (snd r) = concat groups) /\
  (forall a, (a < w_next w)%nat -> w_heap (fst r) a = w_heap w a) /\
  w_profs (fst r) = w_profs w /\ w_pnext (fst r) = w_pnext w /\ (w_next w <= w_next (fst r))%nat /\
  (forall a, In a (snd r) -> (a < w_next (fst r))%nat /\ (In a addrs \/ (w_next w <= a)%nat)) /\
  NoDup (snd r).
Proof.
  induction addrs as [|a addrs IH]; intros w Hal Hnd.
  - cbn [discretize_loop fst snd map]. split; [exists []; split; [constructor|reflexivity]|].
    split; [reflexivity|]. split; [reflexivity|]. split; [reflexivity|]. split; [lia|].
    split; [intros a []|constructor].
  - inversion Hnd as [|? ? Hni Hnd']; subst. cbn [discretize_loop].
    set (sel := negb nl || is_nonlinear (l_soil (w_heap w a))).
    set (first := if sel then alloc_layers w (split_layer (w_heap w a) f wf) else (w, [a])).
    assert (H1 : (exists g, disc_group f wf nl (w_heap w a) g /\ map (w_heap (fst first)) (snd first) = g) /\
       (forall b, (b < w_next w)%nat -> w_heap (fst first) b = w_heap w b) /\
       w_profs (fst first) = w_profs w /\ w_pnext (fst first) = w_pnext w /\
       (w_next w <= w_next (fst first))%nat /\
       (forall b, In b (snd first) -> (b < w_next (fst first))%nat /\ (b = a \/ (w_next w <= b)%nat)) /\
       NoDup (snd first)).
    { unfold first. destruct sel eqn:Es.
      - pose proof (alloc_raw (split_layer (w_heap w a) f wf) w) as Hr.
        destruct (alloc_layers w (split_layer (w_heap w a) f wf)) as [w1 here]. cbn [fst snd] in *.
        destruct Hr as (B & C & D & E & F & G & H).
        split; [exists (split_layer (w_heap w a) f wf); split; [unfold disc_group; fold sel; rewrite Es; reflexivity|exact C]|].
        split; [exact E|]. split; [exact F|]. split; [exact G|]. split; [exact H|].
        split; [|exact B]. intros b Hb. apply D in Hb. lia.
      - cbn [fst snd]. split.
        { exists [w_heap w a]. split; [unfold disc_group; fold sel; rewrite Es; reflexivity|reflexivity]. }
        split; [reflexivity|]. split; [reflexivity|]. split; [reflexivity|]. split; [lia|].
        split; [|constructor; [intros []|constructor]].
        intros b [<-|[]]. split; [apply Hal; now left|now left]. }
    destruct first as [w1 here]. cbn [fst snd] in H1.
    destruct H1 as ((g & G1 & G2) & A2 & A3 & A4 & A5 & A6 & A7).
    specialize (IH w1).
    assert (Hal1 : forall b, In b addrs -> (b < w_next w1)%nat).
    { intros b Hb. assert ((b < w_next w)%nat) by (apply Hal; now right). lia. }
    specialize (IH Hal1 Hnd').
    destruct (discretize_loop w1 addrs f wf nl) as [w2 below]. cbn [fst snd] in *.
    destruct IH as ((groups & Gs1 & Gs2) & B2 & B3 & B4 & B5 & B6 & B7).
    split.
    { exists (g :: groups). cbn [map concat]. split.
      - constructor; [exact G1|].
        replace (map (w_heap w) addrs) with (map (w_heap w1) addrs); [exact Gs1|].
        apply map_ext_in. intros b Hb. apply A2. apply Hal. now right.
      - rewrite map_app. f_equal; [|exact Gs2].
        rewrite <- G2. apply map_ext_in. intros b Hb. apply A6 in Hb. destruct Hb as [Hb1 Hb2].
        now apply B2. }
    split; [intros b Hb; rewrite B2 by lia; now apply A2|].
    split; [congruence|]. split; [congruence|]. split; [lia|].
    split.
    { intros b Hb. apply in_app_or in Hb. destruct Hb as [Hb|Hb].
      - apply A6 in Hb. destruct Hb as [Hb1 Hb2]. split; [lia|].
        destruct Hb2 as [->|Hb2]; [left; now left|now right].
      - apply B6 in Hb. destruct Hb as [Hb1 Hb2]. split; [lia|].
        destruct Hb2 as [Hb2|Hb2]; [left; now right|right; lia]. }
    clear - A7 B7 A6 B6 Hni Hal.
    assert (Hdis : forall b, In b here -> ~ In b below).
    { intros b H1 H2. apply A6 in H1. apply B6 in H2. destruct H1 as [H1 H1'], H2 as [_ [H2|H2]]; [|lia].
      destruct H1' as [->|H1']; [contradiction|].
      assert ((b < w_next w)%nat) by (apply Hal; now right). lia. }
    induction here as [|b here IHh]; cbn [app]; [exact B7|].
    inversion A7; subst. constructor.
    + intros Hi. apply in_app_or in Hi. destruct Hi as [Hi|Hi]; [contradiction|].
      exact (Hdis b (or_introl eq_refl) Hi).
    + apply IHh; auto.
      * intros c Hc. apply A6. now right.
      * intros c Hc. apply Hdis. now right.
Qed.

Lemma Forall2_map_l {A B C} (f : A -> B) (P : B -> C -> Prop) l l' :
  Forall2 (fun a => P (f a)) l l' -> Forall2 P (map f l) l'.
Proof. induction 1; cbn; constructor; auto. Qed.

Lemma auto_discretize_spec w p f wf nl :
  (forall a, In a (layers_of w p) -> (a < w_next w)%nat) -> NoDup (layers_of w p) ->
  layers_of w p <> [] ->
  exists w' q groups bottom,
    auto_discretize w p f wf nl = (w', Ok q) /\ q = w_pnext w /\
    last_opt (view w p) = Some bottom /\
    Forall2 (disc_group f wf nl) (removelast (view w p)) groups /\
    Forall2 same_core (concat groups ++ [bottom]) (view w' q) /\
    p_wt (w_profs w' q) = p_wt (w_profs w p) /\
    NoDup (layers_of w' q) /\
    (forall a, (a < w_next w)%nat -> same_core (w_heap w a) (w_heap w' a)) /\
    (forall r, (r < w_pnext w)%nat -> w_profs w' r = w_profs w r) /\
    (bottom_distinct (view w' q) -> placed (w_heap w') q (layers_of w' q)) /\
    (forall a, In a (layers_of w p) -> ~ In a (layers_of w' q) -> w_heap w' a = w_heap w a).
Proof.
  intros Hal Hnd Hne. unfold auto_discretize.
  destruct (last_opt (layers_of w p)) as [bot|] eqn:Eb; [|apply last_opt_none in Eb; contradiction].
  pose proof (last_opt_inv _ _ Eb) as Hinv.
  assert (Hnd' : NoDup (removelast (layers_of w p)) /\ ~ In bot (removelast (layers_of w p))).
  { rewrite Hinv in Hnd. split.
    - apply NoDup_remove_1 in Hnd. now rewrite app_nil_r in Hnd.
    - apply NoDup_remove_2 in Hnd. now rewrite app_nil_r in Hnd. }
  destruct Hnd' as [Hnd' Hbn].
  assert (Hal' : forall a, In a (removelast (layers_of w p)) -> (a < w_next w)%nat).
  { intros a Ha. apply Hal. rewrite Hinv. apply in_or_app; now left. }
  assert (Hbal : (bot < w_next w)%nat) by (apply Hal; rewrite Hinv; apply in_or_app; right; now left).
  pose proof (discretize_loop_spec (removelast (layers_of w p)) f wf nl w Hal' Hnd') as Hloop.
  destruct (discretize_loop w (removelast (layers_of w p)) f wf nl) as [w1 addrs].
  cbn [fst snd] in Hloop.
  destruct Hloop as ((groups & Gs1 & Gs2) & B2 & B3 & B4 & B5 & B6 & B7).
  pose proof (new_profile_frame w1 (addrs ++ [bot]) (p_wt (w_profs w p))) as Hn.
  assert (Hpl : bottom_distinct (view (fst (new_profile w1 (addrs ++ [bot]) (p_wt (w_profs w p))))
                                  (snd (new_profile w1 (addrs ++ [bot]) (p_wt (w_profs w p))))) ->
     placed (w_heap (fst (new_profile w1 (addrs ++ [bot]) (p_wt (w_profs w p)))))
       (snd (new_profile w1 (addrs ++ [bot]) (p_wt (w_profs w p)))) (addrs ++ [bot])).
  { unfold new_profile; cbn [fst snd]. set (w2 := mkWorld _ _ _ _). intros Hb.
    assert (Hl2 : layers_of w2 (w_pnext w1) = addrs ++ [bot]).
    { unfold layers_of, w2; cbn. now rewrite Nat.eqb_refl. }
    rewrite <- Hl2. apply update_all_placed.
    - rewrite Hl2. apply NoDup_app_one; [exact B7|]. intros Hi. apply B6 in Hi. destruct Hi as [_ [Hi|Hi]]; [contradiction|lia].
    - apply bottom_ok_view in Hb. apply bottom_ok_view.
      assert (Hl3 : layers_of (fst (update_layers w2 (w_pnext w1) 0)) (w_pnext w1) = layers_of w2 (w_pnext w1)).
      { unfold layers_of. destruct (update_layers_frame w2 (w_pnext w1) 0) as (_ & -> & _). reflexivity. }
      rewrite Hl3 in Hb. eapply bottom_ok_core'; [|exact Hb]. intros; apply update_layers_core. }
  destruct (new_profile w1 (addrs ++ [bot]) (p_wt (w_profs w p))) as [w2 q]. cbn [fst snd] in *.
  destruct Hn as (N1 & N2 & N3 & N4 & N5 & N6 & N7).
  exists w2, q, groups, (w_heap w bot).
  split; [reflexivity|]. split; [congruence|].
  split; [unfold view; rewrite last_opt_map, Eb; reflexivity|].
  split; [unfold view; rewrite <- map_removelast; exact Gs1|].
  split.
  { unfold view. rewrite N2, map_app, <- Gs2. cbn [map].
    assert (Hm : forall l, Forall2 same_core (map (w_heap w1) l) (map (w_heap w2) l)).
    { induction l; cbn; constructor; auto. }
    apply Forall2_app; [apply Hm|]. constructor; [|constructor].
    rewrite <- B2 by exact Hbal. apply N5. }
  split; [exact N3|].
  split.
  { rewrite N2. apply NoDup_app_one; [exact B7|]. intros Hi. apply B6 in Hi. destruct Hi as [_ [Hi|Hi]]; [contradiction|lia]. }
  split.
  { intros a Ha. rewrite <- B2 by exact Ha. apply N5. }
  split; [intros r Hr; rewrite N4 by lia; now rewrite B3|].
  split; [rewrite N2; exact Hpl|].
  intros a Ha Hn. rewrite N2 in Hn. rewrite N6 by exact Hn. apply B2. now apply Hal.
Qed.
