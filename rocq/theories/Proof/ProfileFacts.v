(** Lemmas about profiles on the heap. *)
From Coq Require Import String Sorted.
From Verif Require Import Common Model.Curve Model.Layer Model.Profile
  Spec.LayerSpec Spec.ProfileSpec Spec.HistorySpec Proof.CommonFacts Proof.LayerFacts.
Local Open Scope R_scope.

(** Everything of a layer except its position. *)
Lemma same_core_refl a : same_core a a.
Proof. repeat split. Qed.
Lemma same_core_trans a b c : same_core a b -> same_core b c -> same_core a c.
Proof. unfold same_core; intuition congruence. Qed.
Lemma same_core_sym a b : same_core a b -> same_core b a.
Proof. unfold same_core; intuition congruence. Qed.
Lemma same_core_set_pos l p d s : same_core l (set_pos l p d s).
Proof. repeat split. Qed.
Lemma layer_eqb_core a a' b b' :
  same_core a a' -> same_core b b' -> layer_eqb a b = layer_eqb a' b'.
Proof.
  unfold same_core, layer_eqb. intros (-> & -> & -> & _) (-> & -> & -> & _). reflexivity.
Qed.

Lemma hset_same h a l : hset h a l a = l.
Proof. unfold hset. now rewrite Nat.eqb_refl. Qed.
Lemma hset_other h a l b : b <> a -> hset h a l b = h b.
Proof. unfold hset. intros H. apply Nat.eqb_neq in H. now rewrite H. Qed.
Lemma hset_core h a l b : same_core (h a) l -> same_core (h b) (hset h a l b).
Proof.
  intros H. destruct (Nat.eq_dec b a) as [->|Hn].
  - now rewrite hset_same. - rewrite hset_other by exact Hn. apply same_core_refl.
Qed.

Lemma update_loop_core h pid bot addrs d s b :
  same_core (h b) (update_loop h pid bot addrs d s b).
Proof.
  revert h d s; induction addrs as [|a rest IH]; intros h d s; [apply same_core_refl|].
  cbn [update_loop].
  match goal with |- context [hset h a ?l] => set (h1 := hset h a l) end.
  assert (Hc : same_core (h b) (h1 b)) by (apply hset_core, same_core_set_pos).
  destruct (layer_eqb _ _); (eapply same_core_trans; [exact Hc|apply IH]).
Qed.
Lemma update_loop_other h pid bot addrs d s b :
  ~ In b addrs -> update_loop h pid bot addrs d s b = h b.
Proof.
  revert h d s; induction addrs as [|a rest IH]; intros h d s Hn; [reflexivity|].
  cbn [update_loop]. cbn [In] in Hn.
  destruct (layer_eqb _ _); (rewrite IH by tauto; apply hset_other; intros ->; tauto).
Qed.

Definition sum_thick (h : heap) (addrs : list nat) : R := total_thick (map h addrs).
Definition sum_weight (h : heap) (addrs : list nat) : R := total_weight (map h addrs).

Lemma total_thick_cons x ls : total_thick (x :: ls) = l_thick x + total_thick ls.
Proof. reflexivity. Qed.
Lemma total_thick_app a b : total_thick (a ++ b) = total_thick a + total_thick b.
Proof.
  induction a as [|x a IH]; cbn [app]; [change (total_thick []) with 0; lra|].
  rewrite !total_thick_cons, IH. lra.
Qed.
Lemma total_weight_cons x ls : total_weight (x :: ls) = s_unit_wt (l_soil x) * l_thick x + total_weight ls.
Proof. reflexivity. Qed.
Lemma total_weight_app a b : total_weight (a ++ b) = total_weight a + total_weight b.
Proof.
  induction a as [|x a IH]; cbn [app]; [change (total_weight []) with 0; lra|].
  rewrite !total_weight_cons, IH. lra.
Qed.

Lemma sum_thick_core h h' addrs :
  (forall b, In b addrs -> same_core (h b) (h' b)) -> sum_thick h addrs = sum_thick h' addrs.
Proof.
  unfold sum_thick. induction addrs as [|a rest IH]; intros H; [reflexivity|].
  cbn. unfold total_thick in IH. rewrite IH by (intros; apply H; now right).
  destruct (H a (or_introl eq_refl)) as (_ & -> & _). reflexivity.
Qed.
Lemma sum_weight_core h h' addrs :
  (forall b, In b addrs -> same_core (h b) (h' b)) -> sum_weight h addrs = sum_weight h' addrs.
Proof.
  unfold sum_weight. induction addrs as [|a rest IH]; intros H; [reflexivity|].
  cbn. unfold total_weight in IH. rewrite IH by (intros; apply H; now right).
  destruct (H a (or_introl eq_refl)) as (-> & -> & _). reflexivity.
Qed.

Lemma update_loop_pos h pid bot addrs d s above a below :
  NoDup addrs -> addrs = above ++ a :: below ->
  (forall x pre post, addrs = pre ++ x :: post -> post <> [] ->
     layer_eqb (h x) (h bot) = true -> l_thick (h x) = 0) ->
  let h' := update_loop h pid bot addrs d s in
  l_depth (h' a) = d + sum_thick h above /\
  l_svert (h' a) = s + sum_weight h above /\
  l_prof (h' a) = Some pid.
Proof.
  revert h d s above; induction addrs as [|a0 rest IH]; intros h d s above Hnd Hsplit Heq h'.
  { destruct above; discriminate. }
  inversion Hnd as [|? ? Hni Hnd']; subst x l.
  unfold h'; clear h'. cbn [update_loop].
  set (h1 := hset h a0 (set_pos (h a0) pid d s)).
  assert (Hcore : forall b, same_core (h b) (h1 b)) by (intros; apply hset_core, same_core_set_pos).
  destruct above as [|a1 above]; cbn [app] in Hsplit; injection Hsplit as Ha Hrest.
  - subst a0 rest.
    assert (Hkeep : forall d' s', update_loop h1 pid bot below d' s' a = h1 a).
    { intros. apply update_loop_other, Hni. }
    destruct (layer_eqb _ _); rewrite Hkeep; unfold h1; rewrite hset_same; cbn; repeat split; lra.
  - subst a1 rest.
    assert (Hne : above ++ a :: below <> []) by (destruct above; discriminate).
    assert (Heq1 : forall x pre post, above ++ a :: below = pre ++ x :: post -> post <> [] ->
      layer_eqb (h1 x) (h1 bot) = true -> l_thick (h1 x) = 0).
    { intros x pre post E Hp Hx.
      rewrite <- (layer_eqb_core (h x) (h1 x) (h bot) (h1 bot)) in Hx by apply Hcore.
      destruct (Hcore x) as (_ & <- & _).
      apply (Heq x (a0 :: pre) post); auto. cbn. now rewrite E. }
    assert (Hst : sum_thick h1 above = sum_thick h above).
    { symmetry. apply sum_thick_core. intros; apply Hcore. }
    assert (Hsw : sum_weight h1 above = sum_weight h above).
    { symmetry. apply sum_weight_core. intros; apply Hcore. }
    assert (H1a : h1 a0 = set_pos (h a0) pid d s) by apply hset_same.
    destruct (layer_eqb (h1 a0) (h1 bot)) eqn:E.
    + assert (Hz : l_thick (h a0) = 0).
      { apply (Heq a0 [] (above ++ a :: below)); auto.
        now rewrite (layer_eqb_core (h a0) (h1 a0) (h bot) (h1 bot)). }
      destruct (IH h1 d s above Hnd' eq_refl Heq1) as (I1 & I2 & I3).
      rewrite I1, I2, I3, Hst, Hsw. unfold sum_thick, sum_weight. cbn.
      rewrite Hz. repeat split; unfold total_thick, total_weight; lra.
    + destruct (IH h1 (depth_base (h1 a0))
         (l_svert (h1 a0) + l_thick (h1 a0) * s_unit_wt (l_soil (h1 a0))) above Hnd' eq_refl Heq1)
        as (I1 & I2 & I3).
      rewrite I1, I2, I3, Hst, Hsw, H1a. unfold sum_thick, sum_weight, depth_base. cbn.
      repeat split; unfold total_thick, total_weight; lra.
Qed.

Lemma update_loop_prof h pid bot addrs d s a :
  NoDup addrs -> In a addrs -> l_prof (update_loop h pid bot addrs d s a) = Some pid.
Proof.
  revert h d s; induction addrs as [|a0 rest IH]; intros h d s Hn Hi; [destruct Hi|].
  inversion Hn as [|? ? Hni Hn']; subst. cbn [update_loop].
  destruct Hi as [->|Hi]; [|destruct (layer_eqb _ _); now apply IH].
  destruct (layer_eqb _ _); rewrite update_loop_other by exact Hni; now rewrite hset_same.
Qed.

(** Position invariant of one profile. *)
Definition placed (h : heap) (pid : nat) (addrs : list nat) : Prop :=
  forall above a below, addrs = above ++ a :: below ->
    l_depth (h a) = sum_thick h above /\ l_svert (h a) = sum_weight h above /\
    l_prof (h a) = Some pid.
Definition bottom_ok (h : heap) (addrs : list nat) : Prop :=
  forall x pre post bot, addrs = pre ++ x :: post ++ [bot] ->
    layer_eqb (h x) (h bot) = true -> l_thick (h bot) = 0.

Lemma bottom_ok_view w p : bottom_distinct (view w p) <-> bottom_ok (w_heap w) (layers_of w p).
Proof.
  unfold bottom_distinct, bottom_ok, view. split.
  - intros H x pre post bot E Heq. apply (H (map (w_heap w) pre) (w_heap w x) (map (w_heap w) post)); auto.
    rewrite E, map_app. cbn. now rewrite map_app.
  - intros H above l middle bottom E Heq.
    apply map_eq_app in E. destruct E as (pre & suf & E & Hpre & Hsuf).
    apply map_eq_cons in Hsuf. destruct Hsuf as (x & suf' & -> & <- & Hsuf).
    apply map_eq_app in Hsuf. destruct Hsuf as (post & suf'' & -> & Hpost & Hsuf).
    apply map_eq_cons in Hsuf. destruct Hsuf as (bot & nil' & -> & <- & Hnil).
    apply map_eq_nil in Hnil. subst nil'. now apply (H x pre post bot).
Qed.

Lemma placed_view w p :
  placed (w_heap w) p (layers_of w p) ->
  depths_cumulative (view w p) /\ stresses_cumulative (view w p).
Proof.
  intros H. split; intros above l below E; unfold view in E;
    apply map_eq_app in E; destruct E as (pre & suf & E & Hpre & Hsuf);
    apply map_eq_cons in Hsuf; destruct Hsuf as (x & suf' & -> & <- & Hsuf);
    destruct (H pre x suf' E) as (H1 & H2 & _); [rewrite H1|rewrite H2];
    unfold sum_thick, sum_weight; now rewrite Hpre.
Qed.

Lemma last_opt_split {A} (l : list A) b : last_opt l = Some b -> exists pre, l = pre ++ [b].
Proof. intros H. exists (removelast l). now apply last_opt_inv. Qed.

(** The heap left by [update_layers]. *)
Lemma update_layers_other w p start b :
  ~ In b (layers_of w p) -> w_heap (fst (update_layers w p start)) b = w_heap w b.
Proof.
  intros Hn. unfold update_layers.
  assert (Hn' : forall k, ~ In b (skipn k (layers_of w p))).
  { intros k Hi. apply Hn. rewrite <- (firstn_skipn k (layers_of w p)). apply in_or_app. now right. }
  destruct (start <? 1)%Z.
  - destruct (last_opt _); cbn; [|reflexivity]. now apply update_loop_other.
  - destruct (nth_error _ _); cbn; [|reflexivity].
    destruct (last_opt _); cbn; [|reflexivity]. now apply update_loop_other.
Qed.
Lemma update_layers_core w p start b :
  same_core (w_heap w b) (w_heap (fst (update_layers w p start)) b).
Proof.
  unfold update_layers. destruct (start <? 1)%Z.
  - destruct (last_opt _); cbn; [apply update_loop_core|apply same_core_refl].
  - destruct (nth_error _ _); cbn; [|apply same_core_refl].
    destruct (last_opt _); cbn; [apply update_loop_core|apply same_core_refl].
Qed.
Lemma update_layers_frame w p start :
  let w' := fst (update_layers w p start) in
  w_next w' = w_next w /\ w_profs w' = w_profs w /\ w_pnext w' = w_pnext w.
Proof.
  unfold update_layers. destruct (start <? 1)%Z.
  - destruct (last_opt _); cbn; auto.
  - destruct (nth_error _ _); cbn; auto. destruct (last_opt _); cbn; auto.
Qed.

Lemma bottom_ok_suffix h pre suf bot :
  bottom_ok h (pre ++ suf) -> last_opt (pre ++ suf) = Some bot ->
  forall x p q, suf = p ++ x :: q -> q <> [] ->
    layer_eqb (h x) (h bot) = true -> l_thick (h x) = 0.
Proof.
  intros Hb Hl x p q E Hq Heq.
  destruct (exists_last Hq) as (q' & b & ->).
  assert (Eb : b = bot).
  { subst suf. rewrite app_comm_cons, !app_assoc, last_opt_app in Hl. congruence. }
  subst b. rewrite (layer_eqb_thick _ _ Heq).
  apply (Hb x (pre ++ p) q' bot); [|exact Heq]. subst suf. now rewrite <- app_assoc.
Qed.

(** The work done by [update_layers(k)] when the layers above [k] are placed. *)
Lemma update_layers_placed w p k :
  NoDup (layers_of w p) -> bottom_ok (w_heap w) (layers_of w p) ->
  (k <= length (layers_of w p))%nat ->
  placed (w_heap w) p (firstn k (layers_of w p)) ->
  placed (w_heap (fst (update_layers w p (Z.of_nat k)))) p (layers_of w p) /\
  snd (update_layers w p (Z.of_nat k)) = Ok tt.
Proof.
  intros Hnd Hb Hk Hpl. set (addrs := layers_of w p) in *. set (h := w_heap w) in *.
  assert (Hstart : py_slice_start (Z.of_nat k) (length addrs) = k).
  { unfold py_slice_start. destruct (Z.ltb_spec (Z.of_nat k) 0); [lia|].
    destruct (Z.ltb_spec (Z.of_nat k) 0); [lia|].
    destruct (Z.ltb_spec (Z.of_nat (length addrs)) (Z.of_nat k)); [lia|]. apply Nat2Z.id. }
  assert (Hgo : forall bot d s,
     last_opt addrs = Some bot -> d = sum_thick h (firstn k addrs) ->
     s = sum_weight h (firstn k addrs) ->
     placed (update_loop h p bot (skipn k addrs) d s) p addrs).
  { intros bot d s Hbot Hd Hs above a below E.
    pose proof (firstn_skipn k addrs) as Hfs.
    set (h' := update_loop h p bot (skipn k addrs) d s).
    assert (Hcore : forall b, same_core (h b) (h' b)) by (intros; apply update_loop_core).
    assert (Hsum : sum_thick h' above = sum_thick h above /\ sum_weight h' above = sum_weight h above).
    { split; symmetry; [apply sum_thick_core|apply sum_weight_core]; intros; apply Hcore. }
    destruct Hsum as [-> ->].
    destruct (le_lt_dec k (length above)) as [Hle|Hlt].
    - (* in the updated suffix *)
      assert (Esuf : skipn k addrs = skipn k above ++ a :: below).
      { rewrite E, skipn_app. replace (k - length above)%nat with 0%nat by lia. reflexivity. }
      assert (Eabove : above = firstn k addrs ++ skipn k above).
      { rewrite E, firstn_app. replace (k - length above)%nat with 0%nat by lia.
        cbn [firstn]. rewrite app_nil_r. symmetry; apply firstn_skipn. }
      assert (Hnds : NoDup (skipn k addrs)).
      { rewrite <- Hfs in Hnd. clear - Hnd.
        induction (firstn k addrs) as [|y l IH]; [exact Hnd|]. inversion Hnd; auto. }
      destruct (update_loop_pos h p bot (skipn k addrs) d s (skipn k above) a below Hnds Esuf) as (I1 & I2 & I3).
      { intros x pre post Ex Hp Hx.
        apply (bottom_ok_suffix h (firstn k addrs) (skipn k addrs) bot) with (x := x) (p := pre) (q := post); auto;
          rewrite Hfs; assumption. }
      unfold h'. rewrite I1, I2, I3, Hd, Hs.
      rewrite Eabove at 2 4. unfold sum_thick, sum_weight. rewrite !map_app, total_thick_app, total_weight_app.
      auto.
    - (* above the updated suffix *)
      assert (Epre : firstn k addrs = above ++ a :: firstn (k - S (length above)) below).
      { rewrite E, firstn_app, firstn_all2 by lia. f_equal.
        replace (k - length above)%nat with (S (k - S (length above))) by lia. reflexivity. }
      destruct (Hpl above a _ Epre) as (I1 & I2 & I3).
      assert (Hn : ~ In a (skipn k addrs)).
      { rewrite <- Hfs, Epre in Hnd. rewrite <- app_assoc in Hnd. cbn in Hnd.
        apply NoDup_remove_2 in Hnd. intros Hi. apply Hnd.
        apply in_or_app; right; apply in_or_app; now right. }
      unfold h'. rewrite update_loop_other by exact Hn. auto. }
  assert (Hempty : last_opt addrs = None -> placed h p addrs).
  { intros Hn. apply last_opt_none in Hn. rewrite Hn. intros above a below E. destruct above; discriminate. }
  unfold update_layers. fold addrs. fold h. rewrite Hstart.
  destruct (Z.ltb_spec (Z.of_nat k) 1).
  - assert (k = 0)%nat by lia. subst k.
    destruct (last_opt addrs) as [bot|] eqn:Eb; cbn [fst snd set_heap w_heap].
    + split; [|reflexivity]. apply Hgo; auto.
    + split; [|reflexivity]. now apply Hempty.
  - assert (Hk1 : exists r, nth_error addrs (k - 1) = Some r).
    { destruct (nth_error addrs (k - 1)) eqn:En; [eauto|]. apply nth_error_None in En. lia. }
    destruct Hk1 as [r Hr]. replace (Z.to_nat (Z.of_nat k - 1)) with (k - 1)%nat by lia.
    rewrite Hr. destruct (last_opt addrs) as [bot|] eqn:Eb; cbn [fst snd set_heap w_heap].
    + split; [|reflexivity]. apply nth_error_split in Hr. destruct Hr as (l1 & l2 & E1 & E2).
      assert (Efn : firstn k addrs = l1 ++ [r]).
      { rewrite E1. replace k with (length l1 + 1)%nat by lia. now rewrite firstn_app_2. }
      destruct (Hpl l1 r [] Efn) as (I1 & I2 & _).
      apply Hgo; auto; rewrite Efn; unfold depth_base, sum_thick, sum_weight in *;
        rewrite map_app, ?total_thick_app, ?total_weight_app, ?I1, ?I2; cbn; lra.
    + split; [|reflexivity]. now apply Hempty.
Qed.

(** ** Histories *)

Record Inv (w : world) : Prop := {
  inv_alloc : forall p a, (p < w_pnext w)%nat -> In a (layers_of w p) -> (a < w_next w)%nat;
  inv_nodup : forall p, (p < w_pnext w)%nat -> NoDup (layers_of w p);
  inv_placed : forall p, (p < w_pnext w)%nat -> placed (w_heap w) p (layers_of w p);
  inv_owner : forall a p, (a < w_next w)%nat -> l_prof (w_heap w a) = Some p ->
                (p < w_pnext w)%nat /\ In a (layers_of w p)
}.

Lemma placed_owner h p addrs a : placed h p addrs -> In a addrs -> l_prof (h a) = Some p.
Proof.
  intros H Hi. apply in_split in Hi. destruct Hi as (l1 & l2 & E). now apply (H l1 a l2).
Qed.
Lemma inv_disjoint w p q a :
  Inv w -> (p < w_pnext w)%nat -> (q < w_pnext w)%nat ->
  In a (layers_of w p) -> In a (layers_of w q) -> p = q.
Proof.
  intros I Hp Hq H1 H2.
  pose proof (placed_owner _ _ _ _ (inv_placed w I p Hp) H1).
  pose proof (placed_owner _ _ _ _ (inv_placed w I q Hq) H2). congruence.
Qed.

Lemma placed_ext h h' p addrs :
  (forall a, In a addrs -> h' a = h a) -> placed h p addrs -> placed h' p addrs.
Proof.
  intros H Hp above a below E.
  assert (Ha : h' a = h a) by (apply H; rewrite E; apply in_or_app; right; now left).
  assert (Hab : forall b, In b above -> same_core (h' b) (h b)).
  { intros b Hb. rewrite H; [apply same_core_refl|]. rewrite E; apply in_or_app; now left. }
  rewrite Ha, (sum_thick_core h' h), (sum_weight_core h' h) by exact Hab. now apply (Hp above a below).
Qed.

(** Preserving the invariant when only profile [p] is rewritten. *)
Lemma inv_step_one w w' p :
  Inv w -> (p < w_pnext w')%nat ->
  w_next w' = w_next w -> w_pnext w' = w_pnext w ->
  (forall q, q <> p -> w_profs w' q = w_profs w q) ->
  (forall q a, q <> p -> (q < w_pnext w)%nat -> In a (layers_of w q) -> w_heap w' a = w_heap w a) ->
  (forall a, In a (layers_of w' p) -> (a < w_next w)%nat) ->
  NoDup (layers_of w' p) -> placed (w_heap w') p (layers_of w' p) ->
  (forall a, ~ In a (layers_of w' p) -> l_prof (w_heap w' a) = l_prof (w_heap w a)) ->
  (forall a, In a (layers_of w p) -> In a (layers_of w' p)) ->
  Inv w'.
Proof.
  intros I Hp En Epn Epr Hh Hal Hnd Hpl Hown Hsub.
  assert (Hl : forall q, q <> p -> layers_of w' q = layers_of w q).
  { intros q Hq. unfold layers_of. now rewrite Epr. }
  constructor.
  - intros q a Hq Ha. destruct (Nat.eq_dec q p) as [->|Hne]; rewrite ?En; [auto|].
    rewrite Hl in Ha by exact Hne. apply (inv_alloc w I q); auto; lia.
  - intros q Hq. destruct (Nat.eq_dec q p) as [->|Hne]; [auto|]. rewrite Hl by exact Hne.
    apply (inv_nodup w I); lia.
  - intros q Hq. destruct (Nat.eq_dec q p) as [->|Hne]; [auto|]. rewrite Hl by exact Hne.
    apply placed_ext with (w_heap w); [|apply (inv_placed w I); lia].
    intros a Ha. apply (Hh q); auto; lia.
  - intros a q Ha Hq. destruct (in_dec Nat.eq_dec a (layers_of w' p)) as [Hi|Hn].
    + rewrite (placed_owner _ _ _ _ Hpl Hi) in Hq. injection Hq as <-. auto.
    + rewrite Hown in Hq by exact Hn. rewrite En in Ha.
      destruct (inv_owner w I a q Ha Hq) as [Hq1 Hq2].
      destruct (Nat.eq_dec q p) as [->|Hne]; [apply Hsub in Hq2; contradiction|].
      rewrite Hl by exact Hne. split; [lia|auto].
Qed.

Lemma bottom_ok_core h h' addrs :
  (forall b, same_core (h b) (h' b)) -> bottom_ok h addrs -> bottom_ok h' addrs.
Proof.
  intros Hc Hb x pre post bot E Heq. destruct (Hc bot) as (_ & <- & _).
  apply (Hb x pre post bot E). now rewrite (layer_eqb_core _ (h' x) _ (h' bot)).
Qed.
Lemma bottom_ok_core' h h' addrs :
  (forall b, same_core (h b) (h' b)) -> bottom_ok h' addrs -> bottom_ok h addrs.
Proof. intros Hc. apply bottom_ok_core. intros; apply same_core_sym, Hc. Qed.

(** Running [update_layers(k)] on a world whose layers above [k] are placed. *)
Lemma update_inv w0 w p k :
  Inv w0 -> (p < w_pnext w)%nat ->
  w_next w = w_next w0 -> w_pnext w = w_pnext w0 ->
  (forall q, q <> p -> w_profs w q = w_profs w0 q) ->
  (forall a, ~ In a (layers_of w p) -> w_heap w a = w_heap w0 a) ->
  (forall q a, q <> p -> (q < w_pnext w0)%nat -> In a (layers_of w0 q) -> ~ In a (layers_of w p)) ->
  (forall a, In a (layers_of w p) -> (a < w_next w)%nat) ->
  (forall a, In a (layers_of w0 p) -> In a (layers_of w p)) ->
  NoDup (layers_of w p) -> bottom_ok (w_heap w) (layers_of w p) ->
  (k <= length (layers_of w p))%nat ->
  placed (w_heap w) p (firstn k (layers_of w p)) ->
  Inv (fst (update_layers w p (Z.of_nat k))).
Proof.
  intros I Hp En Epn Epr Hh Hdis Hal Hsub Hnd Hb Hk Hpl.
  destruct (update_layers_placed w p k Hnd Hb Hk Hpl) as [Hplaced _].
  destruct (update_layers_frame w p (Z.of_nat k)) as (F1 & F2 & F3).
  set (w' := fst (update_layers w p (Z.of_nat k))) in *.
  assert (Hlp : layers_of w' p = layers_of w p) by (unfold layers_of; now rewrite F2).
  apply (inv_step_one w0 w' p); auto; rewrite ?Hlp, ?F1, ?F3; auto; try congruence.
  - intros q Hq. rewrite F2. auto.
  - intros q a Hq Hql Ha. unfold w'. rewrite update_layers_other by (eapply Hdis; eauto).
    apply Hh. eapply Hdis; eauto.
  - intros a Ha. rewrite <- En. auto.
  - intros a Ha. unfold w'. rewrite update_layers_other by exact Ha. now rewrite Hh.
Qed.

Lemma not_in_others w p q a :
  Inv w -> (p < w_pnext w)%nat -> (q < w_pnext w)%nat -> q <> p ->
  In a (layers_of w q) -> ~ In a (layers_of w p).
Proof. intros I Hp Hq Hn H1 H2. apply Hn. eapply inv_disjoint; eauto. Qed.
Lemma fresh_not_in w p a : Inv w -> fresh w a -> (p < w_pnext w)%nat -> ~ In a (layers_of w p).
Proof.
  intros I [_ Hf] Hp Hi. rewrite (placed_owner _ _ _ _ (inv_placed w I p Hp) Hi) in Hf. discriminate.
Qed.

Lemma alloc_inv w l : Inv w -> l_prof l = None -> Inv (fst (alloc_layer w l)).
Proof.
  intros I Hl. unfold alloc_layer; cbn [fst].
  assert (Hlo : forall p, layers_of (mkWorld (hset (w_heap w) (w_next w) l) (S (w_next w)) (w_profs w) (w_pnext w)) p = layers_of w p) by reflexivity.
  constructor; cbn [w_heap w_next w_profs w_pnext].
  - intros p a Hp Ha. apply (inv_alloc w I) in Ha; auto.
  - intros p Hp. now apply (inv_nodup w I).
  - intros p Hp. apply placed_ext with (w_heap w); [|now apply (inv_placed w I)].
    intros a Ha. apply hset_other. apply (inv_alloc w I) in Ha; auto; lia.
  - intros a p Ha Hpr. destruct (Nat.eq_dec a (w_next w)) as [->|Hne].
    + rewrite hset_same, Hl in Hpr. discriminate.
    + rewrite hset_other in Hpr by exact Hne. apply (inv_owner w I); [lia|exact Hpr].
Qed.

Lemma alloc_layers_spec ls : forall w,
  Inv w -> Forall (fun l => l_prof l = None) ls ->
  let r := alloc_layers w ls in
  Inv (fst r) /\ NoDup (snd r) /\ map (w_heap (fst r)) (snd r) = ls /\
  (forall a, In a (snd r) -> (w_next w <= a < w_next (fst r))%nat) /\
  (forall a, (a < w_next w)%nat -> w_heap (fst r) a = w_heap w a) /\
  w_profs (fst r) = w_profs w /\ w_pnext (fst r) = w_pnext w /\
  (w_next w <= w_next (fst r))%nat.
Proof.
  induction ls as [|l ls IH]; intros w I Hl.
  - cbn [alloc_layers fst snd map].
    split; [exact I|]. split; [constructor|]. split; [reflexivity|].
    split; [intros a []|]. split; [reflexivity|]. split; [reflexivity|]. split; [reflexivity|lia].
  - inversion Hl as [|? ? Hl1 Hl2]; subst.
    pose proof (alloc_inv w l I Hl1) as I1. cbn [alloc_layers].
    destruct (alloc_layer w l) as [w1 a] eqn:E1. cbn [fst] in I1.
    specialize (IH w1 I1 Hl2). destruct (alloc_layers w1 ls) as [w2 addrs]. cbn [fst snd] in *.
    injection E1 as <- <-. cbn [w_heap w_next w_profs w_pnext] in *.
    destruct IH as (A & B & C & D & E & F & G & H).
    split; [exact A|]. split.
    { constructor; [|exact B]. intros Hi. apply D in Hi. lia. }
    split.
    { cbn [map]. f_equal; [|exact C]. rewrite E by lia. apply hset_same. }
    split.
    { intros b [<-|Hb]; [lia|]. apply D in Hb. lia. }
    split.
    { intros b Hb. rewrite E by lia. apply hset_other. lia. }
    split; [exact F|]. split; [exact G|lia].
Qed.

Lemma new_profile_inv w addrs wt :
  Inv w -> NoDup addrs -> (forall a, In a addrs -> fresh w a) ->
  bottom_ok (w_heap w) addrs ->
  Inv (fst (new_profile w addrs wt)) /\
  layers_of (fst (new_profile w addrs wt)) (w_pnext w) = addrs /\
  w_pnext (fst (new_profile w addrs wt)) = S (w_pnext w).
Proof.
  intros I Hnd Hf Hb. unfold new_profile; cbn [fst].
  set (w1 := mkWorld _ _ _ _).
  assert (Hl1 : layers_of w1 (w_pnext w) = addrs).
  { unfold layers_of, w1; cbn. now rewrite Nat.eqb_refl. }
  destruct (update_layers_placed w1 (w_pnext w) 0) as [Hplaced _]; rewrite ?Hl1; auto; [lia| |].
  { cbn. intros above a below E. destruct above; discriminate. }
  rewrite Hl1 in Hplaced. change (Z.of_nat 0) with 0%Z in Hplaced.
  destruct (update_layers_frame w1 (w_pnext w) 0) as (F1 & F2 & F3).
  assert (Hoth := update_layers_other w1 (w_pnext w) 0). rewrite Hl1 in Hoth.
  set (w' := fst (update_layers w1 (w_pnext w) 0)) in *.
  assert (Hlw : layers_of w' (w_pnext w) = addrs).
  { unfold layers_of. rewrite F2. exact Hl1. }
  assert (Hlq : forall q, q <> w_pnext w -> layers_of w' q = layers_of w q).
  { intros q Hq. unfold layers_of. rewrite F2. unfold w1; cbn. apply Nat.eqb_neq in Hq. now rewrite Hq. }
  split; [|split; [exact Hlw|rewrite F3; reflexivity]].
  constructor; rewrite ?F1, ?F3; cbn [w_next w_pnext w1].
  - intros q a Hq Ha. destruct (Nat.eq_dec q (w_pnext w)) as [->|Hne].
    + rewrite Hlw in Ha. now apply Hf.
    + rewrite Hlq in Ha by exact Hne. apply (inv_alloc w I q); auto; lia.
  - intros q Hq. destruct (Nat.eq_dec q (w_pnext w)) as [->|Hne]; [now rewrite Hlw|].
    rewrite Hlq by exact Hne. apply (inv_nodup w I); lia.
  - intros q Hq. destruct (Nat.eq_dec q (w_pnext w)) as [->|Hne]; [now rewrite Hlw|].
    rewrite Hlq by exact Hne. apply placed_ext with (w_heap w); [|apply (inv_placed w I); lia].
    intros a Ha. rewrite Hoth; [reflexivity|]. intros Hi.
    apply (fresh_not_in w q a I (Hf a Hi)); [lia|exact Ha].
  - intros a q Ha Hq. destruct (in_dec Nat.eq_dec a addrs) as [Hi|Hn].
    + rewrite (placed_owner _ _ _ _ Hplaced Hi) in Hq. injection Hq as <-. rewrite Hlw. auto.
    + rewrite Hoth in Hq by exact Hn. destruct (inv_owner w I a q Ha Hq) as [H1 H2].
      rewrite Hlq by lia. auto.
Qed.

Lemma placed_prefix h p pre suf : placed h p (pre ++ suf) -> placed h p pre.
Proof.
  intros H above a below E. apply (H above a (below ++ suf)). rewrite E. now rewrite <- app_assoc.
Qed.
Lemma placed_firstn h p addrs k : placed h p addrs -> placed h p (firstn k addrs).
Proof. intros H. apply placed_prefix with (skipn k addrs). now rewrite firstn_skipn. Qed.

Lemma NoDup_app_one {A} (l : list A) x : NoDup l -> ~ In x l -> NoDup (l ++ [x]).
Proof.
  intros H Hn. apply NoDup_rev in H. rewrite <- (rev_involutive (l ++ [x])), rev_app_distr.
  apply NoDup_rev. cbn. constructor; [|exact H]. now rewrite <- in_rev.
Qed.
Lemma NoDup_insert {A} (l1 l2 : list A) x : NoDup (l1 ++ l2) -> ~ In x (l1 ++ l2) -> NoDup (l1 ++ x :: l2).
Proof.
  induction l1 as [|y l1 IH]; cbn; intros H Hn; [now constructor|].
  inversion H as [|? ? Hy Hl]; subst. constructor.
  - intros Hi. apply in_app_or in Hi. destruct Hi as [Hi|[->|Hi]].
    + apply Hy, in_or_app; now left. + apply Hn; now left. + apply Hy, in_or_app; now right.
  - apply IH; [exact Hl|]. intros Hi; apply Hn; now right.
Qed.

(** Appending places only the new layer, whatever it compares equal to. *)
Lemma append_inv w p a :
  Inv w -> (p < w_pnext w)%nat -> fresh w a -> Inv (fst (append w p a)).
Proof.
  intros I Hp Hf. unfold append.
  set (addrs := layers_of w p). set (w1 := set_prof w p _).
  assert (Hni : ~ In a addrs) by (apply fresh_not_in; auto).
  assert (Hl1 : layers_of w1 p = addrs ++ [a]).
  { unfold layers_of, w1, set_prof; cbn. now rewrite Nat.eqb_refl. }
  assert (Hnd : NoDup (addrs ++ [a])) by (apply NoDup_app_one; auto; now apply (inv_nodup w I)).
  (* the loop runs over the new layer only *)
  assert (Hup : exists d s, fst (update_layers w1 p (Z.of_nat (length addrs))) =
     set_heap w1 (hset (w_heap w) a (set_pos (w_heap w a) p d s)) /\
     d = sum_thick (w_heap w) addrs /\ s = sum_weight (w_heap w) addrs).
  { unfold update_layers. rewrite Hl1.
    assert (Hstart : py_slice_start (Z.of_nat (length addrs)) (length (addrs ++ [a])) = length addrs).
    { rewrite app_length; cbn. unfold py_slice_start.
      destruct (Z.ltb_spec (Z.of_nat (length addrs)) 0); [lia|].
      destruct (Z.ltb_spec (Z.of_nat (length addrs)) 0); [lia|].
      destruct (Z.ltb_spec (Z.of_nat (length addrs + 1)) (Z.of_nat (length addrs))); [lia|]. apply Nat2Z.id. }
    rewrite Hstart, last_opt_app.
    rewrite skipn_app, skipn_all, Nat.sub_diag. cbn [skipn app update_loop].
    assert (Hx : forall (b : bool) (x : heap), (if b then x else x) = x) by (intros []; reflexivity).
    destruct (Z.ltb_spec (Z.of_nat (length addrs)) 1).
    - destruct addrs as [|? ?] eqn:Ea; [|cbn in H; lia]. rewrite Hx.
      exists 0, 0. split; [reflexivity|]. split; reflexivity.
    - assert (Hk1 : exists r, nth_error addrs (length addrs - 1) = Some r).
      { destruct (nth_error addrs (length addrs - 1)) eqn:En; [eauto|]. apply nth_error_None in En. lia. }
      destruct Hk1 as [r Hr]. replace (Z.to_nat (Z.of_nat (length addrs) - 1)) with (length addrs - 1)%nat by lia.
      rewrite nth_error_app1 by lia. rewrite Hr, Hx.
      eexists _, _. split; [reflexivity|].
      apply nth_error_split in Hr. destruct Hr as (l1 & l2 & E1 & E2).
      assert (l2 = []) by (destruct l2; [reflexivity|]; rewrite E1, app_length in E2; cbn in E2; lia).
      subst l2. pose proof (inv_placed w I p Hp) as Hpl. fold addrs in Hpl.
      destruct (Hpl l1 r [] E1) as (I1 & I2 & _).
      change (w_heap w1) with (w_heap w).
      rewrite E1. unfold depth_base, sum_thick, sum_weight in *.
      rewrite map_app, total_thick_app, total_weight_app, I1, I2; cbn; split; lra. }
  destruct Hup as (d & s & Hup & Hd & Hs).
  rewrite Hup. set (w' := set_heap w1 _).
  assert (Hlw : layers_of w' p = addrs ++ [a]) by exact Hl1.
  apply (inv_step_one w w' p); auto; try reflexivity.
  - intros q Hq. unfold w', w1; cbn. apply Nat.eqb_neq in Hq. now rewrite Hq.
  - intros q b Hq Hql Hb. unfold w'; cbn. apply hset_other. intros ->.
    exact (fresh_not_in w q a I Hf Hql Hb).
  - intros b Hb. rewrite Hlw in Hb. apply in_app_or in Hb. destruct Hb as [Hb|[<-|[]]].
    + now apply (inv_alloc w I p). + apply Hf.
  - now rewrite Hlw.
  - rewrite Hlw. unfold w'; cbn [w_heap set_heap]. intros above b below E.
    set (h' := hset _ _ _).
    destruct below as [|y below'].
    + apply app_inj_tail in E. destruct E as [<- <-]. unfold h' at 1 3 5. rewrite hset_same. cbn.
      assert (Hcore : forall b0, In b0 addrs -> same_core (h' b0) (w_heap w b0)).
      { intros b0 Hb0. unfold h'. rewrite hset_other; [apply same_core_refl|]. intros ->; contradiction. }
      rewrite (sum_thick_core h' (w_heap w)), (sum_weight_core h' (w_heap w)) by exact Hcore. auto.
    + destruct (@exists_last _ (y :: below')) as (bl & z & Ez); [discriminate|].
      rewrite Ez in E. rewrite app_comm_cons, app_assoc in E. apply app_inj_tail in E.
      destruct E as [E <-].
      assert (Hpl : placed h' p addrs).
      { apply placed_ext with (w_heap w); [|now apply (inv_placed w I)].
        intros c Hc. unfold h'. apply hset_other. intros ->; contradiction. }
      apply (Hpl above b bl E).
  - intros b Hb. rewrite Hlw in Hb. unfold w'; cbn. rewrite hset_other; [reflexivity|].
    intros ->. apply Hb, in_or_app; right; now left.
  - intros b Hb. rewrite Hlw. apply in_or_app; now left.
Qed.

Lemma insert_inv w p i a :
  Inv w -> (p < w_pnext w)%nat -> fresh w a ->
  (0 <= i <= Z.of_nat (length (layers_of w p)))%Z ->
  bottom_distinct (view (fst (insert w p i a)) p) ->
  Inv (fst (insert w p i a)).
Proof.
  intros I Hp Hf Hi Hb. unfold insert in *.
  set (addrs := layers_of w p) in *.
  assert (Hk : py_slice_start i (length addrs) = Z.to_nat i).
  { unfold py_slice_start. destruct (Z.ltb_spec i 0); [lia|]. destruct (Z.ltb_spec i 0); [lia|].
    destruct (Z.ltb_spec (Z.of_nat (length addrs)) i); [lia|reflexivity]. }
  rewrite Hk in *. set (k := Z.to_nat i) in *. set (w1 := set_prof w p _) in *.
  replace i with (Z.of_nat k) in * by lia.
  assert (Hkl : (k <= length addrs)%nat) by lia.
  assert (Hni : ~ In a addrs) by (apply fresh_not_in; auto).
  assert (Hl1 : layers_of w1 p = firstn k addrs ++ a :: skipn k addrs).
  { unfold layers_of, w1, set_prof; cbn. now rewrite Nat.eqb_refl. }
  assert (Hin : forall b, In b (layers_of w1 p) <-> b = a \/ In b addrs).
  { intros b. rewrite Hl1. rewrite <- (firstn_skipn k addrs) at 3. rewrite !in_app_iff. cbn.
    intuition. }
  apply bottom_ok_view in Hb.
  assert (Hlp : layers_of (fst (update_layers w1 p (Z.of_nat k))) p = layers_of w1 p).
  { unfold layers_of. destruct (update_layers_frame w1 p (Z.of_nat k)) as (_ & -> & _). reflexivity. }
  rewrite Hlp in Hb.
  assert (Hb1 : bottom_ok (w_heap w1) (layers_of w1 p)).
  { eapply bottom_ok_core'; [|exact Hb]. intros; apply update_layers_core. }
  apply (update_inv w w1 p k); auto; try reflexivity.
  - intros q Hq. unfold w1, set_prof; cbn. apply Nat.eqb_neq in Hq. now rewrite Hq.
  - intros q b Hq Hql Hbq Hc. apply Hin in Hc. destruct Hc as [->|Hc].
    + exact (fresh_not_in w q a I Hf Hql Hbq).
    + exact (not_in_others w p q b I Hp Hql Hq Hbq Hc).
  - intros b Hb2. apply Hin in Hb2. destruct Hb2 as [->|Hb2]; [apply Hf|].
    apply (inv_alloc w I p); auto.
  - intros b Hb2. apply Hin. now right.
  - rewrite Hl1. apply NoDup_insert; rewrite firstn_skipn; [now apply (inv_nodup w I)|exact Hni].
  - rewrite Hl1, app_length; cbn. rewrite firstn_length. lia.
  - rewrite Hl1, firstn_app, firstn_firstn, Nat.min_id, firstn_length.
    replace (k - Nat.min k (length addrs))%nat with 0%nat by lia. cbn [firstn].
    rewrite app_nil_r. apply placed_firstn. now apply (inv_placed w I).
Qed.

Lemma index_from_spec h addrs a i :
  In a addrs -> exists j, index_from h addrs a i = Some (i + j)%nat /\ (j < length addrs)%nat /\
    (exists pre suf, addrs = pre ++ a :: suf /\ (j <= length pre)%nat) .
Proof.
  revert i; induction addrs as [|b rest IH]; intros i Hi; [destruct Hi|].
  cbn [index_from]. destruct (Nat.eqb b a || layer_eqb (h b) (h a)) eqn:E.
  - exists 0%nat. split; [f_equal; lia|]. split; [cbn; lia|].
    apply in_split in Hi. destruct Hi as (pre & suf & Es). exists pre, suf. split; [exact Es|lia].
  - destruct Hi as [->|Hi]; [rewrite Nat.eqb_refl in E; discriminate|].
    destruct (IH (S i) Hi) as (j & H1 & H2 & (pre & suf & H3 & H4)).
    exists (S j). split; [rewrite H1; f_equal; lia|]. split; [cbn; lia|].
    exists (b :: pre), suf. split; [cbn; now rewrite H3|cbn; lia].
Qed.

Lemma set_thickness_inv w a t :
  Inv w -> (a < w_next w)%nat ->
  (forall p, l_prof (w_heap w a) = Some p -> bottom_distinct (view (fst (set_thickness w a t)) p)) ->
  Inv (fst (set_thickness w a t)).
Proof.
  intros I Ha Hb. unfold set_thickness in *.
  set (w1 := set_heap w _) in *.
  assert (Hpr : l_prof (w_heap w1 a) = l_prof (w_heap w a)).
  { unfold w1; cbn. now rewrite hset_same. }
  rewrite Hpr in *. destruct (l_prof (w_heap w a)) as [p|] eqn:Ep.
  - destruct (inv_owner w I a p Ha Ep) as [Hp Hin].
    assert (Hl1 : layers_of w1 p = layers_of w p) by reflexivity.
    unfold profile_index in *. rewrite Hl1 in *.
    destruct (index_from_spec (w_heap w1) (layers_of w p) a 0 Hin)
      as (j & Hj & Hjl & (pre & suf & Hsplit & Hjpre)).
    rewrite Hj in *. cbn [plus] in *.
    specialize (Hb p eq_refl). apply bottom_ok_view in Hb.
    replace (Z.of_nat j + 1)%Z with (Z.of_nat (S j)) in * by lia.
    assert (Hlp : layers_of (fst (update_layers w1 p (Z.of_nat (S j)))) p = layers_of w p).
    { unfold layers_of. destruct (update_layers_frame w1 p (Z.of_nat (S j))) as (_ & -> & _). reflexivity. }
    rewrite Hlp in Hb.
    assert (Hb1 : bottom_ok (w_heap w1) (layers_of w p)).
    { eapply bottom_ok_core'; [|exact Hb]. intros; apply update_layers_core. }
    apply (update_inv w w1 p (S j)); auto; try reflexivity; rewrite ?Hl1; auto.
    + intros b Hbn. unfold w1; cbn. apply hset_other. intros ->; contradiction.
    + intros q b Hq Hql Hbq. exact (not_in_others w p q b I Hp Hql Hq Hbq).
    + intros b Hbi. now apply (inv_alloc w I p).
    + now apply (inv_nodup w I).
    + (* layers up to and including index j keep their place *)
      intros above b below E.
      set (h1 := w_heap w1).
      assert (Hpl := inv_placed w I p Hp).
      assert (Efull : layers_of w p = above ++ b :: below ++ skipn (S j) (layers_of w p)).
      { rewrite <- (firstn_skipn (S j) (layers_of w p)) at 1. rewrite E, <- app_assoc. reflexivity. }
      assert (Hlen : (length above <= j)%nat).
      { assert (Hl : length (firstn (S j) (layers_of w p)) = S j) by (apply firstn_length_le; lia).
        rewrite E, app_length in Hl. cbn in Hl. lia. }
      assert (Hna : ~ In a above).
      { intros Hia. apply in_split in Hia. destruct Hia as (x1 & x2 & Ex).
        pose proof (inv_nodup w I p Hp) as Hnd.
        assert (E2 : layers_of w p = x1 ++ a :: (x2 ++ b :: below ++ skipn (S j) (layers_of w p))).
        { rewrite Efull at 1. rewrite Ex, <- app_assoc. reflexivity. }
        assert (Hlt : (length x1 < length pre)%nat) by (rewrite Ex, app_length in Hlen; cbn in Hlen; lia).
        assert (N1 : nth_error (layers_of w p) (length x1) = Some a).
        { rewrite E2, nth_error_app2, Nat.sub_diag by lia. reflexivity. }
        assert (N2 : nth_error (layers_of w p) (length pre) = Some a).
        { rewrite Hsplit, nth_error_app2, Nat.sub_diag by lia. reflexivity. }
        rewrite NoDup_nth_error in Hnd.
        specialize (Hnd (length x1) (length pre)).
        assert (length x1 = length pre); [|lia]. apply Hnd; [|congruence].
        rewrite E2, app_length; cbn; lia. }
      destruct (Hpl above b (below ++ skipn (S j) (layers_of w p)) Efull) as (P1 & P2 & P3).
      assert (Hcore : forall c, In c above -> same_core (h1 c) (w_heap w c)).
      { intros c Hc. unfold h1, w1; cbn. rewrite hset_other; [apply same_core_refl|]. intros ->; contradiction. }
      rewrite (sum_thick_core h1 (w_heap w)), (sum_weight_core h1 (w_heap w)) by exact Hcore.
      unfold h1, w1; cbn. destruct (Nat.eq_dec b a) as [->|Hne].
      * rewrite hset_same. cbn. auto.
      * rewrite hset_other by exact Hne. auto.
  - (* detached layer: only its own thickness changes *)
    cbn [fst]. constructor.
    + intros q b Hq Hbq. now apply (inv_alloc w I q).
    + intros q Hq. now apply (inv_nodup w I).
    + intros q Hq. apply placed_ext with (w_heap w); [|now apply (inv_placed w I)].
      intros b Hbq. unfold w1; cbn. apply hset_other. intros ->.
      change (layers_of w1 q) with (layers_of w q) in Hbq.
      rewrite (placed_owner _ _ _ _ (inv_placed w I q Hq) Hbq) in Ep. discriminate.
    + intros b q Hbn Hq. unfold w1 in Hq; cbn in Hq. destruct (Nat.eq_dec b a) as [->|Hne].
      * rewrite hset_same in Hq. cbn in Hq. congruence.
      * rewrite hset_other in Hq by exact Hne. now apply (inv_owner w I).
Qed.

Lemma layer_step_pos l o :
  l_depth (layer_step l o) = l_depth l /\ l_svert (layer_step l o) = l_svert l /\
  l_prof (layer_step l o) = l_prof l /\ l_thick (layer_step l o) = l_thick l /\
  l_soil (layer_step l o) = l_soil l.
Proof. destruct o; cbn; auto. Qed.

Lemma placed_pos_ext h h' p addrs :
  (forall a, l_depth (h' a) = l_depth (h a) /\ l_svert (h' a) = l_svert (h a) /\
     l_prof (h' a) = l_prof (h a) /\ l_thick (h' a) = l_thick (h a) /\ l_soil (h' a) = l_soil (h a)) ->
  placed h p addrs -> placed h' p addrs.
Proof.
  intros H Hp above a below E. destruct (Hp above a below E) as (P1 & P2 & P3).
  destruct (H a) as (-> & -> & -> & _). rewrite P1, P2, P3.
  assert (Hs : sum_thick h' above = sum_thick h above /\ sum_weight h' above = sum_weight h above).
  { unfold sum_thick, sum_weight. clear - H. induction above as [|b l [IH1 IH2]]; [split; reflexivity|].
    cbn. unfold total_thick, total_weight in *. rewrite IH1, IH2.
    destruct (H b) as (_ & _ & _ & -> & ->). split; reflexivity. }
  destruct Hs as [-> ->]. auto.
Qed.

Lemma olayer_inv w a o :
  Inv w -> (a < w_next w)%nat -> Inv (set_heap w (hset (w_heap w) a (layer_step (w_heap w a) o))).
Proof.
  intros I Ha. set (w' := set_heap _ _).
  assert (Hpos : forall b, l_depth (w_heap w' b) = l_depth (w_heap w b) /\
     l_svert (w_heap w' b) = l_svert (w_heap w b) /\ l_prof (w_heap w' b) = l_prof (w_heap w b) /\
     l_thick (w_heap w' b) = l_thick (w_heap w b) /\ l_soil (w_heap w' b) = l_soil (w_heap w b)).
  { intros b. unfold w'; cbn. destruct (Nat.eq_dec b a) as [->|Hne].
    - rewrite hset_same. apply layer_step_pos. - rewrite hset_other by exact Hne. auto. }
  constructor.
  - intros q b Hq Hb. now apply (inv_alloc w I q).
  - intros q Hq. now apply (inv_nodup w I).
  - intros q Hq. eapply placed_pos_ext; [exact Hpos|]. now apply (inv_placed w I).
  - intros b q Hb Hq. destruct (Hpos b) as (_ & _ & E & _). rewrite E in Hq. now apply (inv_owner w I).
Qed.

Lemma update_layers_inv w p start :
  Inv w -> (p < w_pnext w)%nat -> (0 <= start <= Z.of_nat (length (layers_of w p)))%Z ->
  bottom_distinct (view w p) -> Inv (fst (update_layers w p start)).
Proof.
  intros I Hp Hs Hb. apply bottom_ok_view in Hb. replace start with (Z.of_nat (Z.to_nat start)) by lia.
  apply (update_inv w w p); auto; try lia.
  - intros q a Hq Hql Ha. exact (not_in_others w p q a I Hp Hql Hq Ha).
  - intros a Ha. now apply (inv_alloc w I p).
  - now apply (inv_nodup w I).
  - apply placed_firstn. now apply (inv_placed w I).
Qed.

Lemma step_inv w o : Inv w -> admissible w o -> Inv (step w o).
Proof.
  intros I Ha. destruct o as [s t v d|addrs wt|p a|p i a|a t|p st|a lo|p d|p|p f wf nl]; cbn [admissible step] in *.
  - destruct (layer_new s t v d) as [l|] eqn:E; [|exact I].
    apply alloc_inv; [exact I|]. unfold layer_new in E.
    destruct d as [x|]; cbn [bind] in E; [injection E as <-; reflexivity|].
    destruct (soil_damping_min s); cbn [bind] in E; [injection E as <-; reflexivity|discriminate].
  - destruct Ha as (H1 & H2 & H3). apply new_profile_inv; auto.
    assert (Hv := bottom_ok_view (mkWorld (w_heap w) 0 (fun _ => mkProfile addrs 0) 0) 0).
    now apply Hv.
  - now apply append_inv.
  - destruct Ha as (H1 & H2 & H3 & H4). now apply insert_inv.
  - destruct Ha as (H1 & H2). now apply set_thickness_inv.
  - destruct Ha as (H1 & H2 & H3). now apply update_layers_inv.
  - now apply olayer_inv.
  - destruct Ha as (H1 & H2). apply update_layers_inv; auto; lia.
  - destruct Ha as (H1 & H2). unfold profile_copy.
    destruct (alloc_layers_spec (map layer_copy (view w p)) w I) as (A & B & C & D & E & F & G & H).
    { rewrite Forall_map. rewrite Forall_forall. intros; reflexivity. }
    destruct (alloc_layers w (map layer_copy (view w p))) as [w1 addrs]. cbn [fst snd] in *.
    apply new_profile_inv; auto.
    + intros a Ha. split; [now apply D|].
      assert (Hin : In (w_heap w1 a) (map (w_heap w1) addrs)) by now apply in_map.
      rewrite C in Hin. apply in_map_iff in Hin. destruct Hin as (x & <- & _). reflexivity.
    + assert (Hv := bottom_ok_view (mkWorld (w_heap w1) 0 (fun _ => mkProfile addrs 0) 0) 0).
      apply Hv. unfold view, layers_of; cbn. now rewrite C.
  - contradiction.
Qed.

Lemma run_inv w os : Inv w -> admissible_run w os -> Inv (run w os).
Proof.
  unfold run; revert w; induction os as [|o os IH]; intros w I H; [exact I|].
  cbn in *. destruct H as [H1 H2]. apply IH; [now apply step_inv|exact H2].
Qed.

Lemma init_inv : Inv init_world.
Proof. constructor; cbn; intros; lia. Qed.

(** A half-space of thickness zero is always enough. *)
Lemma bottom_distinct_zero ls :
  (forall b, last_opt ls = Some b -> l_thick b = 0) -> bottom_distinct ls.
Proof.
  intros H above l middle bottom E _. apply H. rewrite E, app_comm_cons, app_assoc. apply last_opt_app.
Qed.
