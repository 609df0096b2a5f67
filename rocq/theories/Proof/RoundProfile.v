(** Depths, vertical stresses and lookups computed with binary64 numbers. *)
From Verif Require Import Common Model.Curve Model.Layer Model.Profile Model.Rounded
  Spec.ProfileSpec Spec.RoundSpec Proof.CommonFacts Proof.ProfileFacts Proof.RoundFacts.
Local Open Scope R_scope.

Section Loop.
Variable rnd : R -> R.
Lemma loop_core h pid bot addrs d s b :
  same_core (h b) (update_loop_r rnd h pid bot addrs d s b).
Proof.
  revert h d s; induction addrs as [|a rest IH]; intros h d s; [apply same_core_refl|].
  cbn [update_loop_r].
  match goal with |- context [hset h a ?l] => set (h1 := hset h a l) end.
  assert (Hc : same_core (h b) (h1 b)) by (apply hset_core, same_core_set_pos).
  destruct (layer_eqb _ _); (eapply same_core_trans; [exact Hc|apply IH]).
Qed.
Lemma loop_other h pid bot addrs d s b :
  ~ In b addrs -> update_loop_r rnd h pid bot addrs d s b = h b.
Proof.
  revert h d s; induction addrs as [|a rest IH]; intros h d s Hn; [reflexivity|].
  cbn [update_loop_r]. cbn [In] in Hn.
  destruct (layer_eqb _ _); (rewrite IH by tauto; apply hset_other; intros ->; tauto).
Qed.
Lemma loop_prof h pid bot addrs d s b : NoDup addrs -> In b addrs ->
  l_prof (update_loop_r rnd h pid bot addrs d s b) = Some pid.
Proof.
  revert h d s; induction addrs as [|a rest IH]; intros h d s Hn Hi; [destruct Hi|].
  inversion Hn as [|? ? Hni Hn']; subst. cbn [update_loop_r].
  destruct Hi as [->|Hi]; [|destruct (layer_eqb _ _); now apply IH].
  destruct (layer_eqb _ _); rewrite loop_other by exact Hni; now rewrite hset_same.
Qed.
End Loop.

(** The top layer of the loop gets the starting values, every other the rounded base of
    the layer above it. *)
Lemma loop_first rnd h pid bot a rest d s : NoDup (a :: rest) ->
  l_depth (update_loop_r rnd h pid bot (a :: rest) d s a) = d /\
  l_svert (update_loop_r rnd h pid bot (a :: rest) d s a) = s.
Proof.
  intros N. inversion N as [|? ? Hni Hn']; subst. cbn [update_loop_r].
  destruct (layer_eqb _ _); rewrite loop_other by exact Hni; rewrite hset_same; split; reflexivity.
Qed.

Lemma loop_chain h pid bot addrs : forall d s, is_b64 d -> is_b64 s -> NoDup addrs ->
  (forall x pre post, addrs = pre ++ x :: post -> post <> [] ->
     layer_eqb (h x) (h bot) = true -> l_thick (h x) = 0) ->
  let h' := update_loop_r b64 h pid bot addrs d s in
  forall above a b below, addrs = above ++ a :: b :: below ->
    l_depth (h' b) = b64 (l_depth (h' a) + l_thick (h' a)) /\
    l_svert (h' b) = b64 (l_svert (h' a) + b64 (l_thick (h' a) * s_unit_wt (l_soil (h' a)))).
Proof.
  revert h; induction addrs as [|a0 rest IH]; intros h d s Hd Hs Hnd Heq h' above a b below E.
  { destruct above; discriminate. }
  inversion Hnd as [|? ? Hni Hnd']; subst x l.
  set (h1 := hset h a0 (set_pos (h a0) pid d s)).
  assert (Hcore : forall x, same_core (h x) (h1 x)) by (intros; apply hset_core, same_core_set_pos).
  assert (H1 : h1 a0 = set_pos (h a0) pid d s) by apply hset_same.
  assert (Heq1 : forall x pre post, rest = pre ++ x :: post -> post <> [] ->
    layer_eqb (h1 x) (h1 bot) = true -> l_thick (h1 x) = 0).
  { intros x pre post E' Hp Hx.
    rewrite <- (layer_eqb_core (h x) (h1 x) (h bot) (h1 bot)) in Hx by apply Hcore.
    destruct (Hcore x) as (_ & <- & _). apply (Heq x (a0 :: pre) post); auto. cbn. now rewrite E'. }
  assert (Hh : exists d' s', h' = update_loop_r b64 h1 pid bot rest d' s' /\ is_b64 d' /\ is_b64 s' /\
     (rest <> [] -> d' = b64 (d + l_thick (h a0)) /\ s' = b64 (s + b64 (l_thick (h a0) * s_unit_wt (l_soil (h a0)))))).
  { unfold h'. cbn [update_loop_r]. fold h1. destruct (layer_eqb (h1 a0) (h1 bot)) eqn:Q.
    - exists d, s. split; [reflexivity|]. split; [exact Hd|]. split; [exact Hs|]. intros Hr.
      assert (Z : l_thick (h a0) = 0) by (apply (Heq a0 [] rest); auto;
          now rewrite (layer_eqb_core (h a0) (h1 a0) (h bot) (h1 bot))).
      split; rewrite Z, ?Rmult_0_l, ?b64_0, Rplus_0_r; symmetry; now apply b64_id.
    - rewrite H1. eexists _, _. split; [reflexivity|]. split; [apply b64_is|]. split; [apply b64_is|]. intros _. split; reflexivity. }
  destruct Hh as (d' & s' & Hh & Hd' & Hs' & Hv). rewrite Hh.
  destruct above as [|x above]; cbn [app] in E; injection E as Ea Er.
  - subst a0. rewrite Er in *.
    rewrite !(loop_other b64 h1 pid bot (b :: below) d' s' a) by exact Hni.
    destruct (loop_first b64 h1 pid bot b below d' s' Hnd') as [F1 F2]. rewrite F1, F2, H1. cbn [set_pos l_depth l_thick l_svert l_soil].
    destruct Hv as [-> ->]; [discriminate|]. split; reflexivity.
  - apply (IH h1 d' s' Hd' Hs' Hnd' Heq1 above a b below Er).
Qed.

Lemma stack_view w p : NoDup (layers_of w p) -> bottom_distinct (view w p) ->
  let w' := update_layers_r b64 w p in
  stacked (view w' p) /\ stress_stacked (view w' p) /\
  layers_of w' p = layers_of w p /\ Forall2 same_core (view w p) (view w' p) /\
  (forall a, In a (layers_of w p) -> l_prof (w_heap w' a) = Some p) /\
  forall a, ~ In a (layers_of w p) -> w_heap w' a = w_heap w a.
Proof.
  intros N B w'. unfold w', update_layers_r. destruct (last_opt (layers_of w p)) as [bot|] eqn:El.
  - assert (L : layers_of (set_heap w (update_loop_r b64 (w_heap w) p bot (layers_of w p) 0 0)) p = layers_of w p) by reflexivity.
    set (h' := update_loop_r b64 (w_heap w) p bot (layers_of w p) 0 0) in *.
    assert (V : view (set_heap w h') p = map h' (layers_of w p)) by reflexivity.
    assert (H0 : forall x pre post, layers_of w p = pre ++ x :: post -> post <> [] ->
     layer_eqb (w_heap w x) (w_heap w bot) = true -> l_thick (w_heap w x) = 0).
    { intros x pre post E Hp Hq.
      assert (exists mid, post = mid ++ [bot]) as [mid Em].
      { destruct (exists_last Hp) as (mid & y & Ey). exists mid. subst post.
        rewrite E in El. rewrite app_comm_cons, app_assoc, last_opt_app in El. now injection El as <-. }
      assert (T : l_thick (w_heap w bot) = 0).
      { apply (B (map (w_heap w) pre) (w_heap w x) (map (w_heap w) mid) (w_heap w bot)); [|exact Hq].
        unfold view. rewrite E, Em, !map_app. cbn [map]. now rewrite map_app. }
      unfold layer_eqb in Hq. apply andb_prop in Hq. destruct Hq as [Hq _]. apply andb_prop in Hq. destruct Hq as [_ Hq].
      apply Reqb_true in Hq. now rewrite Hq. }
    pose proof (loop_chain (w_heap w) p bot (layers_of w p) 0 0 is_b64_0 is_b64_0 N H0) as C. cbv zeta in C. fold h' in C.
    assert (Split : forall above a b below, map h' (layers_of w p) = above ++ a :: b :: below ->
      exists ab x y be, layers_of w p = ab ++ x :: y :: be /\ a = h' x /\ b = h' y).
    { intros above a b below E. apply map_eq_app in E. destruct E as (ab & r & E1 & E2 & E3).
      destruct r as [|x [|y be]]; try discriminate. cbn [map] in E3. injection E3 as <- <- _.
      exists ab, x, y, be. auto. }
    rewrite V. split; [split|split; [split|]].
    + intros l rest E. destruct (layers_of w p) as [|a addrs] eqn:Ea; [discriminate|].
      cbn [map] in E. injection E as <- _. now apply loop_first.
    + intros above a b below E. destruct (Split _ _ _ _ E) as (ab & x & y & be & E1 & -> & ->). now apply (C ab x y be).
    + intros l rest E. destruct (layers_of w p) as [|a addrs] eqn:Ea; [discriminate|].
      cbn [map] in E. injection E as <- _. now apply loop_first.
    + intros above a b below E. destruct (Split _ _ _ _ E) as (ab & x & y & be & E1 & -> & ->). now apply (C ab x y be).
    + split; [reflexivity|]. split.
      * assert (K : forall a, same_core (w_heap w a) (h' a)) by (intros; apply loop_core).
        unfold view. clearbody h'. clear - K. induction (layers_of w p) as [|a l IH]; [constructor|]. cbn [map]. constructor; [apply K|exact IH].
      * split; intros a Ha; cbn [set_heap w_heap]; [now apply loop_prof|now apply loop_other].
  - assert (Hn : layers_of w p = []) by (now apply last_opt_none). unfold view. rewrite Hn. cbn [map].
    split; [split; [discriminate|intros [|? ?]; discriminate]|].
    split; [split; [discriminate|intros [|? ?]; discriminate]|].
    split; [reflexivity|]. split; [constructor|]. split; [intros a []|reflexivity].
Qed.

(** ** Chains of rounded depths *)
Fixpoint chain (d : R) (ls : list layer) : Prop :=
  match ls with
  | [] => True
  | l :: rest => l_depth l = d /\ chain (b64 (d + l_thick l)) rest
  end.
Lemma chain_of : forall ls d, (forall l rest, ls = l :: rest -> l_depth l = d) ->
  (forall above a b below, ls = above ++ a :: b :: below -> l_depth b = b64 (l_depth a + l_thick a)) -> chain d ls.
Proof.
  induction ls as [|l rest IH]; intros d H1 H2; [exact Logic.I|]. pose proof (H1 l rest eq_refl) as E.
  split; [exact E|]. apply IH.
  - intros l' rest' ->. rewrite <- E. apply (H2 [] l l' rest' eq_refl).
  - intros above a b below ->. apply (H2 (l :: above) a b below eq_refl).
Qed.
Lemma stacked_chain ls : stacked ls -> chain 0 ls.
Proof. intros [H1 H2]. now apply chain_of. Qed.

Lemma chain_low : forall ls d above l below, chain d ls -> Forall (fun l => 0 <= l_thick l) ls -> is_b64 d ->
  ls = above ++ l :: below -> d <= l_depth l /\ is_b64 (l_depth l).
Proof.
  induction ls as [|x rest IH]; intros d above l below C T B E; [destruct above; discriminate|].
  destruct C as [C1 C2]. inversion T as [|? ? T1 T2]; subst.
  destruct above as [|y above]; cbn [app] in E; injection E as -> E.
  - split; [lra|exact B].
  - destruct (IH (b64 (l_depth y + l_thick y)) above l below C2 T2 (b64_is _) E) as [A1 A2]. split; [|exact A2].
    eapply Rle_trans; [|exact A1]. apply b64_ge_b; [exact B|lra].
Qed.

Lemma chain_mono : forall above ls d a middle b below, chain d ls -> Forall (fun l => 0 <= l_thick l) ls -> is_b64 d ->
  ls = above ++ a :: middle ++ b :: below -> l_depth a <= l_depth b.
Proof.
  induction above as [|x above IH]; intros ls d a middle b below C T B ->; cbn [app chain] in C; destruct C as [C1 C2]; inversion T; subst.
  - apply Rle_trans with (b64 (l_depth a + l_thick a)); [apply b64_ge_b; [exact B|lra]|].
    eapply chain_low; [exact C2|assumption|apply b64_is|reflexivity].
  - eapply IH; [exact C2|assumption|apply b64_is|reflexivity].
Qed.
Lemma stacked_mono ls above a middle b below : stacked ls -> Forall (fun l => 0 <= l_thick l) ls ->
  ls = above ++ a :: middle ++ b :: below -> l_depth a <= l_depth b.
Proof. intros S T E. eapply chain_mono; [exact (stacked_chain _ S)|exact T|apply is_b64_0|exact E]. Qed.

Lemma roundings_ge0 n : 0 <= roundings n.
Proof. unfold roundings. pose proof half_ulp_pos. pose proof (pow_R1_Rle (1 + half_ulp) n). lra. Qed.
Lemma roundings_S n : roundings (S n) = roundings n + half_ulp * (1 + roundings n).
Proof. unfold roundings. cbn [pow]. ring. Qed.
Lemma roundings_mono n : roundings n <= roundings (S n).
Proof. rewrite roundings_S. pose proof half_ulp_pos. pose proof (roundings_ge0 n). nra. Qed.
Lemma roundings_1 : roundings 1 = half_ulp.
Proof. unfold roundings. cbn [pow]. ring. Qed.

Lemma add_within n x y p q : is_b64 x -> is_b64 p -> 0 <= y -> 0 <= q ->
  within_error n x y -> within_error n p q -> within_error (S n) (b64 (x + p)) (y + q).
Proof.
  unfold within_error. intros Hx Hp Hy Hq E1 E2. rewrite roundings_S.
  pose proof (b64_add x p Hx Hp) as A. pose proof half_ulp_pos as U. pose proof (roundings_ge0 n) as G.
  set (r := roundings n) in *. set (u := half_ulp) in *.
  assert (D : Rabs (x + p - (y + q)) <= r * (y + q)).
  { replace (x + p - (y + q)) with ((x - y) + (p - q)) by ring. pose proof (Rabs_triang (x - y) (p - q)). nra. }
  assert (M : Rabs (x + p) <= (1 + r) * (y + q)).
  { replace (x + p) with ((x + p - (y + q)) + (y + q)) by ring.
    pose proof (Rabs_triang (x + p - (y + q)) (y + q)). rewrite (Rabs_right (y + q)) in H by lra. nra. }
  replace (b64 (x + p) - (y + q)) with ((b64 (x + p) - (x + p)) + (x + p - (y + q))) by ring.
  pose proof (Rabs_triang (b64 (x + p) - (x + p)) (x + p - (y + q))) as T.
  assert (u * Rabs (x + p) <= u * ((1 + r) * (y + q))) by (apply Rmult_le_compat_l; lra). nra.
Qed.
Lemma within_refl n x : 0 <= x -> within_error n x x.
Proof. intros H. unfold within_error. rewrite Rminus_eq_0, Rabs_R0. pose proof (roundings_ge0 n). nra. Qed.
Lemma within_S n x y : 0 <= y -> within_error n x y -> within_error (S n) x y.
Proof. unfold within_error. intros H E. pose proof (roundings_mono n). nra. Qed.

Lemma chain_error : forall above ls d D n l below, chain d ls -> Forall (fun l => 0 <= l_thick l /\ is_b64 (l_thick l)) ls -> is_b64 d ->
  0 <= D -> within_error n d D -> ls = above ++ l :: below ->
  within_error (n + length above) (l_depth l) (D + total_thick above).
Proof.
  induction above as [|x above IH]; intros ls d D n l below C T B HD E ->; cbn [app chain] in C; destruct C as [C1 C2].
  - cbn [length total_thick fold_right]. rewrite C1, Rplus_0_r, Nat.add_0_r. exact E.
  - inversion T as [|? ? [T1 T1'] T2]; subst.
    assert (W : within_error (S n) (b64 (l_depth x + l_thick x)) (D + l_thick x)).
    { apply add_within; auto. now apply within_refl. }
    assert (P : 0 <= D + l_thick x) by lra.
    pose proof (IH _ _ _ (S n) l below C2 T2 (b64_is _) P W eq_refl) as F.
    rewrite total_thick_cons. cbn [length]. replace (n + S (length above))%nat with (S n + length above)%nat by lia.
    replace (D + (l_thick x + total_thick above)) with (D + l_thick x + total_thick above) by ring. exact F.
Qed.

(** The depth of every layer is the sum of the thicknesses above it up to one rounding for
    each of them. *)
Lemma stacked_error ls above l below : stacked ls -> Forall (fun l => 0 <= l_thick l /\ is_b64 (l_thick l)) ls ->
  ls = above ++ l :: below -> within_error (length above) (l_depth l) (total_thick above).
Proof.
  intros S T E. apply stacked_chain in S.
  pose proof (chain_error above ls 0 0 0 l below S T is_b64_0 (Rle_refl 0) (within_refl 0 0 (Rle_refl 0)) E) as F.
  now rewrite Rplus_0_l in F.
Qed.

Lemma stress_error : forall ls above l below, stress_stacked ls ->
  Forall (fun l => 0 <= l_thick l * s_unit_wt (l_soil l) /\ no_underflow (l_thick l * s_unit_wt (l_soil l))) ls ->
  ls = above ++ l :: below -> within_error (S (length above)) (l_svert l) (total_weight above) /\ is_b64 (l_svert l).
Proof.
  intros ls above l below [S1 S2] T E. revert l below E. induction above as [|x above IH] using rev_ind; intros l below E.
  - rewrite (S1 l below E). split; [apply within_refl; cbn; lra|apply is_b64_0].
  - rewrite <- app_assoc in E. cbn [app] in E. rewrite (S2 above x l below E). split; [|apply b64_is].
    destruct (IH x (l :: below) E) as [I1 I2]. rewrite app_length, Nat.add_1_r, total_weight_app. cbn [total_weight fold_right].
    assert (Tx : 0 <= l_thick x * s_unit_wt (l_soil x) /\ no_underflow (l_thick x * s_unit_wt (l_soil x))).
    { rewrite E in T. apply Forall_app in T. destruct T as [_ T]. now inversion T. }
    destruct Tx as [T1 T2]. rewrite Rplus_0_r, (Rmult_comm (s_unit_wt (l_soil x))).
    apply add_within; auto.
    + apply b64_is.
    + clear - T E. rewrite E in T. apply Forall_app in T. destruct T as [T _]. clear E.
      induction T as [|y ys [Hy _] Hys IHy]; [cbn; lra|]. rewrite total_weight_cons. lra.
    + unfold within_error. eapply Rle_trans; [apply b64_rel, T2|]. rewrite (Rabs_right (_ * _)) by lra.
      apply Rmult_le_compat_r; [exact T1|]. rewrite <- roundings_1.
      clear. induction (length above) as [|n IH]; [apply Rle_refl|]. eapply Rle_trans; [exact IH|apply roundings_mono].
Qed.

(** ** Lookups *)
Lemma lookup_chain : forall ls c x i, chain c ls -> is_b64 c -> is_b64 x -> c <= x -> ls <> [] ->
  match lookup_from_r b64 (removelast ls) x i with
  | Some (j, u) => exists above l b below, ls = above ++ l :: b :: below /\ j = (i + length above)%nat /\
      l_depth l <= x < l_depth b /\ l_depth b = b64 (l_depth l + l_thick l) /\ u = b64 (x - l_depth l) /\ is_b64 (l_depth l)
  | None => exists above bottom, ls = above ++ [bottom] /\ l_depth bottom <= x /\ is_b64 (l_depth bottom)
  end.
Proof.
  induction ls as [|l rest IH]; intros c x i C Bc Bx Hx N; [congruence|].
  destruct C as [C1 C2]. destruct rest as [|b rest].
  - cbn. exists [], l. cbn [app]. rewrite C1. auto.
  - change (removelast (l :: b :: rest)) with (l :: removelast (b :: rest)). cbn [lookup_from_r].
    rewrite C1. unfold depth_base_r. rewrite C1.
    assert (R1 : Rleb c x = true) by (unfold Rleb; destruct (Rle_dec c x); [reflexivity|lra]). rewrite R1. cbn [andb].
    unfold Rltb. destruct (Rlt_dec x (b64 (c + l_thick l))) as [L|L].
    + exists [], l, b, rest. destruct C2 as [C2 _]. rewrite C1, C2. cbn [app length]. rewrite Nat.add_0_r.
      split; [reflexivity|]. split; [reflexivity|]. split; [lra|]. auto.
    + specialize (IH (b64 (c + l_thick l)) x (S i) C2 (b64_is _) Bx ltac:(lra) ltac:(discriminate)).
      destruct (lookup_from_r _ _ _ _) as [[j u]|].
      * destruct IH as (above & l' & b' & below & E & J & R). exists (l :: above), l', b', below.
        rewrite E. cbn [app length]. split; [reflexivity|]. split; [lia|exact R].
      * destruct IH as (above & bottom & E & R). exists (l :: above), bottom. rewrite E. split; [reflexivity|exact R].
Qed.

Lemma same_thick a b : same_core a b -> l_thick a = l_thick b.
Proof. now intros (_ & H & _). Qed.
Lemma core_thicks (Q : R -> Prop) xs ys : Forall2 same_core xs ys -> Forall (fun l => Q (l_thick l)) xs -> Forall (fun l => Q (l_thick l)) ys.
Proof.
  induction 1 as [|a b xs ys Hab _ IH]; intros F; [constructor|]. inversion F; subst. constructor; [|auto].
  now rewrite <- (same_thick _ _ Hab).
Qed.

Lemma lookup_rounded w p x : NoDup (layers_of w p) -> bottom_distinct (view w p) -> layers_of w p <> [] ->
  Forall (fun l => 0 <= l_thick l /\ is_b64 (l_thick l)) (view w p) -> is_b64 x -> 0 <= x ->
  let w' := fst (lookup_depth_r b64 w p x) in
  exists i u l, snd (lookup_depth_r b64 w p x) = Ok (i, u) /\ nth_error (view w' p) i = Some l /\
    l_depth l <= x /\ 0 <= u /\ Rabs (l_depth l + u - x) <= half_ulp * (x - l_depth l) /\
    (forall b, nth_error (view w' p) (S i) = Some b -> x < l_depth b /\ u <= l_thick l) /\
    (l_depth l = x -> u = 0).
Proof.
  intros N B NE T Bx Hx w'. unfold w', lookup_depth_r. cbn [fst snd]. clear w'.
  destruct (stack_view w p N B) as (ST & _ & L & F & _). set (w' := update_layers_r b64 w p) in *.
  pose proof (core_thicks (fun t => 0 <= t /\ is_b64 t) _ _ F T) as T'.
  assert (NV : view w' p <> []). { unfold view. rewrite L. destruct (layers_of w p); [congruence|discriminate]. }
  pose proof (lookup_chain (view w' p) 0 x 0 (stacked_chain _ ST) is_b64_0 Bx Hx NV) as K.
  unfold lookup_view_r. destruct (last_opt (view w' p)) as [bottom|] eqn:El.
  2:{ apply last_opt_none in El. congruence. }
  destruct (lookup_from_r b64 (removelast (view w' p)) x 0) as [[j u]|].
  - destruct K as (above & l & b & below & E & J & [R1 R2] & R3 & R4 & R5). exists j, u, l. subst j.
    assert (U : u <= l_thick l).
    { subst u. apply b64_le_b.
      - rewrite E in T'. apply Forall_app in T'. destruct T' as [_ T']. now inversion T' as [|? ? [_ ?] _].
      - destruct (Rle_or_lt x (l_depth l + l_thick l)) as [Q|Q]; [lra|].
        assert (b64 (l_depth l + l_thick l) <= x) by (apply b64_le_b; [exact Bx|lra]). lra. }
    split; [reflexivity|]. rewrite E, Nat.add_0_l. split; [now rewrite nth_error_app2, Nat.sub_diag by lia|].
    split; [exact R1|]. split; [subst u; apply b64_ge0; lra|]. split.
    { subst u. replace (l_depth l + b64 (x - l_depth l) - x) with (b64 (x - l_depth l) - (x - l_depth l)) by ring.
      rewrite <- (Rabs_right (x - l_depth l)) at 3 by lra. now apply b64_sub. }
    split.
    { intros b' Hb. rewrite nth_error_app2 in Hb by lia. replace (S (length above) - length above)%nat with 1%nat in Hb by lia.
      cbn in Hb. injection Hb as <-. auto. }
    intros Q. subst u. rewrite Q, Rminus_eq_0. apply b64_0.
  - destruct K as (above & bt & E & R1 & R2). rewrite E, last_opt_app in El. injection El as <-.
    exists (length (view w' p) - 1)%nat, (b64 (x - l_depth bt)), bt. split; [reflexivity|].
    rewrite E, app_length. cbn [length]. replace (length above + 1 - 1)%nat with (length above) by lia.
    split; [now rewrite nth_error_app2, Nat.sub_diag by lia|]. split; [exact R1|]. split; [apply b64_ge0; lra|]. split.
    { replace (l_depth bt + b64 (x - l_depth bt) - x) with (b64 (x - l_depth bt) - (x - l_depth bt)) by ring.
      rewrite <- (Rabs_right (x - l_depth bt)) at 3 by lra. now apply b64_sub. }
    split.
    { intros b' Hb. assert (nth_error (above ++ [bt]) (S (length above)) = None) as Hn by (apply nth_error_None; rewrite app_length; cbn; lia). congruence. }
    intros Q. rewrite Q, Rminus_eq_0. apply b64_0.
Qed.

(** The assertion of [stress_vert] never fails at a depth inside the profile. *)
Lemma stress_never_asserts w p x i u : NoDup (layers_of w p) -> bottom_distinct (view w p) -> layers_of w p <> [] ->
  Forall (fun l => 0 <= l_thick l /\ is_b64 (l_thick l)) (view w p) -> is_b64 x -> 0 <= x ->
  snd (lookup_depth_r b64 w p x) = Ok (i, u) -> (S i < length (layers_of w p))%nat ->
  exists l s, nth_error (view (fst (lookup_depth_r b64 w p x)) p) i = Some l /\ stress_vert_r b64 l u = Ok s.
Proof.
  intros N B NE T Bx Hx E Hi. destruct (lookup_rounded w p x N B NE T Bx Hx) as (j & v & l & E' & Hl & _ & _ & _ & Hb & _).
  rewrite E in E'. injection E' as -> ->. exists l.
  set (w' := fst (lookup_depth_r b64 w p x)) in *.
  destruct (nth_error (view w' p) (S j)) as [b|] eqn:Eb.
  - destruct (Hb b eq_refl) as [_ U]. unfold stress_vert_r, Rleb. destruct (Rle_dec v (l_thick l)); [eauto|lra].
  - apply nth_error_None in Eb. destruct (stack_view w p N B) as (_ & _ & L & _).
    unfold w', lookup_depth_r in Eb. cbn [fst] in Eb. unfold view in Eb. rewrite map_length, L in Eb. lia.
Qed.

(** Depths and stresses of a refreshed profile. *)
Lemma depths_rounded w p above l below : NoDup (layers_of w p) -> bottom_distinct (view w p) ->
  Forall (fun l => 0 <= l_thick l /\ is_b64 (l_thick l)) (view w p) ->
  view (update_layers_r b64 w p) p = above ++ l :: below ->
  within_error (length above) (l_depth l) (total_thick above) /\
  forall m rest, above = m ++ rest -> forall x, In x rest -> l_depth x <= l_depth l.
Proof.
  intros N B T E. destruct (stack_view w p N B) as (ST & _ & L & F & _).
  pose proof (core_thicks (fun t => 0 <= t /\ is_b64 t) _ _ F T) as T'.
  split; [eapply stacked_error; eassumption|].
  intros m rest Em x Hx. apply in_split in Hx. destruct Hx as (r1 & r2 & ->).
  apply (stacked_mono (view (update_layers_r b64 w p) p) (m ++ r1) x r2 l below); [exact ST| |].
  - eapply Forall_impl; [|exact T']. now intros a [].
  - rewrite E, Em. now rewrite <- !app_assoc.
Qed.
Lemma core_weights (Q : R -> Prop) xs ys : Forall2 same_core xs ys ->
  Forall (fun l => Q (l_thick l * s_unit_wt (l_soil l))) xs -> Forall (fun l => Q (l_thick l * s_unit_wt (l_soil l))) ys.
Proof.
  induction 1 as [|a b xs ys Hab _ IH]; intros F; [constructor|]. inversion F; subst. constructor; [|auto].
  destruct Hab as (<- & <- & _). assumption.
Qed.
Lemma stresses_rounded w p above l below : NoDup (layers_of w p) -> bottom_distinct (view w p) ->
  Forall (fun l => 0 <= l_thick l * s_unit_wt (l_soil l) /\ no_underflow (l_thick l * s_unit_wt (l_soil l))) (view w p) ->
  view (update_layers_r b64 w p) p = above ++ l :: below ->
  within_error (S (length above)) (l_svert l) (total_weight above).
Proof.
  intros N B T E. destruct (stack_view w p N B) as (_ & ST & L & F & _).
  pose proof (core_weights (fun t => 0 <= t /\ no_underflow t) _ _ F T) as T'.
  eapply stress_error; eassumption.
Qed.

