(** [iter_varied_profiles]: C77; and the iteration over soil types (C37). *)
From Verif Require Import Common Model.Curve Model.Layer Model.Profile Model.Gauss Model.Variation
  Spec.ProfileSpec Spec.VariationSpec Proof.CommonFacts Proof.ProfileFacts Proof.ProfileOps Proof.GaussFacts Proof.BuildFacts
  Proof.ThicknessProps Proof.VelocityProps Proof.SoilVarProps.
Local Open Scope R_scope.

(** Objects numbered below [n] and profiles below [k] are as before. *)
Definition keeps (n k : nat) (w w' : world) : Prop :=
  (forall a, (a < n)%nat -> w_heap w' a = w_heap w a) /\ (forall r, (r < k)%nat -> w_profs w' r = w_profs w r) /\
  (w_next w <= w_next w')%nat /\ (w_pnext w <= w_pnext w')%nat.
(** Profile [q] consists of objects numbered [n] or more. *)
Definition own (n : nat) (w : world) (q : nat) : Prop :=
  (q < w_pnext w)%nat /\ forall a, In a (layers_of w q) -> (n <= a < w_next w)%nat.

Lemma keeps_refl n k w : keeps n k w w.
Proof. repeat split; auto. Qed.
Lemma keeps_trans n k w1 w2 w3 : keeps n k w1 w2 -> keeps n k w2 w3 -> keeps n k w1 w3.
Proof.
  intros (A & B & C & D) (A' & B' & C' & D'). repeat split; try lia.
  - intros a Ha. rewrite A' by assumption. now apply A.
  - intros r Hr. rewrite B' by assumption. now apply B.
Qed.
Lemma keeps_le n k n' k' w w' : (n' <= n)%nat -> (k' <= k)%nat -> keeps n k w w' -> keeps n' k' w w'.
Proof. intros Hn Hk (A & B & C & D). repeat split; auto; intros; [apply A|apply B]; lia. Qed.
Lemma keeps_view n k w w' p : keeps n k w w' -> (p < k)%nat -> (forall a, In a (layers_of w p) -> (a < n)%nat) ->
  layers_of w' p = layers_of w p /\ view w' p = view w p /\ p_wt (w_profs w' p) = p_wt (w_profs w p).
Proof.
  intros (A & B & _) Hp Ha. unfold view, layers_of in *. rewrite (B p Hp). split; [reflexivity|]. split; [|reflexivity].
  apply map_ext_in. intros a Hin. apply A, Ha, Hin.
Qed.
Lemma own_le n n' w q : (n' <= n)%nat -> own n w q -> own n' w q.
Proof. intros H [A B]. split; [exact A|]. intros a Ha. specialize (B a Ha). lia. Qed.
Lemma own_allocated n w q : own n w q -> allocated w q.
Proof. intros [_ H] a Ha. apply H in Ha. lia. Qed.

Lemma built_step w ls tail wt n : (n <= w_next w)%nat -> (forall a, In a tail -> (n <= a < w_next w)%nat) -> NoDup tail ->
  let r1 := alloc_layers w ls in let r2 := new_profile (fst r1) (snd r1 ++ tail) wt in
  keeps n (w_pnext w) w (fst r2) /\ own n (fst r2) (snd r2) /\ (w_pnext w <= snd r2)%nat.
Proof.
  intros Hn Ht Hnd. pose proof (built_profile w ls tail wt) as B. cbv zeta in *.
  destruct B as (B1 & _ & _ & _ & _ & _ & B7 & B8 & B9 & B10 & B11); [intros a Ha; specialize (Ht a Ha); lia|exact Hnd|].
  split; [|split].
  - repeat split; auto; try lia. intros a Ha. apply B7; [lia|]. intros Hi. specialize (Ht a Hi). lia.
  - split; [lia|]. intros a Ha. destruct B9 as (addrs & El & _ & Hr). rewrite El in Ha. apply in_app_or in Ha.
    destruct Ha as [Ha|Ha]; [specialize (Hr a Ha); lia|specialize (Ht a Ha); lia].
  - lia.
Qed.

Lemma copy_step w p : let r := profile_copy w p in
  keeps (w_next w) (w_pnext w) w (fst r) /\ own (w_next w) (fst r) (snd r) /\ (w_pnext w <= snd r)%nat.
Proof.
  unfold profile_copy. pose proof (built_step w (map layer_copy (view w p)) [] (p_wt (w_profs w p)) (w_next w)) as B. cbv zeta in *.
  destruct (alloc_layers w (map layer_copy (view w p))) as [w1 addrs]. cbn [fst snd] in *. rewrite app_nil_r in B.
  apply B; [lia|intros a []|constructor].
Qed.

(** What each kind of variation leaves alone, for whatever outcome. *)
Definition step_ok (n : nat) (w : world) (x : world * option (res nat)) : Prop :=
  keeps n (w_pnext w) w (fst x) /\
  forall q, snd x = Some (Ok q) -> own n (fst x) q /\ (w_pnext w <= q)%nat.

Lemma thickness_step m w p incs n : (n <= w_next w)%nat -> step_ok n w (toro_thickness_call m w p incs).
Proof.
  intros Hn. unfold toro_thickness_call.
  assert (Hsame : forall r, (forall q, r <> Some (Ok q)) -> step_ok n w (w, r)).
  { intros r Hr. split; [apply keeps_refl|]. intros q E. cbn in E. now elim (Hr q). }
  destruct (second_last (view w p)) as [above|]; [|apply Hsame; discriminate].
  destruct (last_opt (view w p)) as [hsl|]; [|apply Hsame; discriminate].
  destruct (iter_thickness m (depth_base above) incs) as [ys o].
  destruct (host_layers (view w p) ys) as [layers|e]; [|apply Hsame; discriminate].
  destruct o as [|e|]; [|apply Hsame; discriminate|apply Hsame; discriminate].
  destruct (layer_new (l_soil hsl) 0 (l_vs hsl) None) as [b|e]; [|apply Hsame; discriminate].
  pose proof (built_step w (layers ++ [b]) [] (p_wt (w_profs w p)) n Hn) as B. cbv zeta in B.
  destruct (alloc_layers w (layers ++ [b])) as [w1 addrs]. cbn [fst snd] in B. rewrite app_nil_r in B.
  destruct (new_profile w1 addrs (p_wt (w_profs w p))) as [w2 q]. cbn [fst snd] in B.
  destruct B as (B1 & B2 & B3); [intros a []|constructor|]. split; [exact B1|]. intros q' E. injection E as <-. auto.
Qed.

Lemma velocity_step v w p draw n : (n <= w_next w)%nat ->
  step_ok n w (let (w', r) := velocity_call v w p draw in (w', Some r)).
Proof.
  intros Hn. unfold velocity_call.
  destruct (bind (vv_corr v (view w p)) (fun corr => bind (vv_ln_std v (view w p)) (calc_covar_matrix corr))) as [covar|e].
  2:{ split; [apply keeps_refl|]. intros q E. discriminate. }
  pose proof (copy_step w p) as C. cbv zeta in C. destruct (profile_copy w p) as [w1 q]. cbn [fst snd] in C.
  destruct C as ((A & B & C1 & C2) & (O1 & O2) & O3). split; cbn [fst snd].
  - repeat split; cbn; auto. intros a Ha. rewrite assign_vels_other; [apply A; lia|]. intros Hi. apply O2 in Hi. lia.
  - intros q' E. injection E as <-. split; [|exact O3]. split; [exact O1|]. intros a Ha. apply O2 in Ha. cbn. lia.
Qed.

Lemma soil_step ppf v w p si keys id dr n : (n <= w_next w)%nat -> own n w p ->
  step_ok n w (vary_profile ppf v w p si keys id dr).
Proof.
  intros Hn Ho. unfold vary_profile.
  assert (Hsame : forall r, (forall q, r <> Some (Ok q)) -> step_ok n w (w, r)).
  { intros r Hr. split; [apply keeps_refl|]. intros q E. cbn in E. now elim (Hr q). }
  destruct (realisations _ _ _ _ _ _) as [d|e]; [|apply Hsame; discriminate].
  destruct (varied_layers _ _ _) as [[layers|]|e]; [|apply Hsame; discriminate|apply Hsame; discriminate].
  assert (Hfin : forall tail, (forall a, In a tail -> (n <= a < w_next w)%nat) -> NoDup tail ->
     step_ok n w (let (w1, addrs) := alloc_layers w layers in
       let (w2, q) := new_profile w1 (addrs ++ tail) (p_wt (w_profs w p)) in (w2, Some (Ok q)))).
  { intros tail Ht Hnd. pose proof (built_step w layers tail (p_wt (w_profs w p)) n Hn Ht Hnd) as B. cbv zeta in B.
    destruct (alloc_layers w layers) as [w1 addrs]. cbn [fst snd] in B.
    destruct (new_profile w1 (addrs ++ tail) (p_wt (w_profs w p))) as [w2 q]. cbn [fst snd] in B.
    destruct B as (B1 & B2 & B3). split; [exact B1|]. intros q' E. injection E as <-. auto. }
  destruct (sv_bedrock v); [apply Hfin; [intros a []|constructor]|].
  destruct (last_opt (layers_of w p)) as [b|] eqn:Eb; [|apply Hsame; discriminate].
  apply Hfin; [|constructor; [intros []|constructor]]. intros a [<-|[]]. apply Ho. now apply last_opt_In.
Qed.

(** The three steps relative to the start of the iteration. *)
Definition rel_ok (w : world) (x : world * option (res nat)) : Prop :=
  keeps (w_next w) (w_pnext w) w (fst x) /\
  forall q, snd x = Some (Ok q) -> own (w_next w) (fst x) q /\ (w_pnext w <= q)%nat.

Lemma rel_step w w0 x : keeps (w_next w) (w_pnext w) w w0 -> step_ok (w_next w) w0 x -> rel_ok w x.
Proof.
  intros K0 [Kx Hx]. assert (Hp0 : (w_pnext w <= w_pnext w0)%nat) by apply K0. split.
  - eapply keeps_trans; [exact K0|]. eapply keeps_le; [| |exact Kx]; lia.
  - intros q E. destruct (Hx q E). split; [assumption|lia].
Qed.
Lemma rel_then w x f : rel_ok w x ->
  (forall w2 q, keeps (w_next w) (w_pnext w) w w2 -> own (w_next w) w2 q -> (w_pnext w <= q)%nat -> rel_ok w (f w2 q)) ->
  rel_ok w (then_ x f).
Proof.
  intros [Kx Hx] Hf. unfold then_. destruct x as [w2 [[q|e]|]]; cbn [fst snd] in *.
  - destruct (Hx q eq_refl). now apply Hf.
  - split; [exact Kx|]. intros q E; discriminate.
  - split; [exact Kx|]. intros q E; discriminate.
Qed.
Lemma rel_id w w2 q : keeps (w_next w) (w_pnext w) w w2 -> own (w_next w) w2 q -> (w_pnext w <= q)%nat -> rel_ok w (w2, Some (Ok q)).
Proof. intros A B C. split; [exact A|]. intros q' E. injection E as <-. auto. Qed.

Lemma varied_once_ok ppf vt vv vs w p i d : rel_ok w (varied_once ppf vt vv vs w p i d).
Proof.
  unfold varied_once. pose proof (copy_step w p) as C. cbv zeta in C. destruct (profile_copy w p) as [w1 q1]. cbn [fst snd] in C.
  destruct C as (K & O & Hq).
  apply rel_then.
  { destruct vt as [m|]; [|now apply rel_id]. apply (rel_step w w1 _ K). apply thickness_step. apply K. }
  intros w2 q2 K2 O2 Hq2. apply rel_then.
  { destruct vv as [v|]; [|now apply rel_id]. apply (rel_step w w2 _ K2). apply velocity_step. apply K2. }
  intros w3 q3 K3 O3 Hq3. destruct vs as [v|]; [|now apply rel_id].
  apply (rel_step w w3 _ K3). apply soil_step; [apply K3|exact O3].
Qed.

(** C77 *)
Lemma varied_from_ok ppf vt vv vs ds : forall w p i,
  let r := varied_from ppf vt vv vs w p i ds in
  keeps (w_next w) (w_pnext w) w (fst r) /\
  forall qs, snd r = Some (Ok qs) -> length qs = length ds /\ List.Forall (fun q => own (w_next w) (fst r) q /\ (w_pnext w <= q)%nat) qs /\
    ForallOrdPairs (fun q q' => (q < q')%nat /\ forall a, In a (layers_of (fst r) q) -> ~ In a (layers_of (fst r) q')) qs.
Proof.
  induction ds as [|d ds IH]; intros w p i; cbv zeta; cbn [varied_from].
  { split; [apply keeps_refl|]. intros qs E. injection E as <-. repeat split; constructor. }
  pose proof (varied_once_ok ppf vt vv vs w p i d) as [K H].
  destruct (varied_once ppf vt vv vs w p i d) as [w1 [[q|e]|]]; cbn [fst snd] in *.
  2:{ split; [exact K|]. intros qs E; discriminate. }
  2:{ split; [exact K|]. intros qs E; discriminate. }
  destruct (H q eq_refl) as [[Ho1 Ho2] Hq]. specialize (IH w1 p (S i)). cbv zeta in IH.
  destruct (varied_from ppf vt vv vs w1 p (S i) ds) as [w2 r]. cbn [fst snd] in *. destruct IH as [K2 H2].
  assert (Hn : (w_next w <= w_next w1)%nat) by apply K. assert (Hp : (w_pnext w <= w_pnext w1)%nat) by apply K.
  assert (Hn2 : (w_next w1 <= w_next w2)%nat) by apply K2. assert (Hp2 : (w_pnext w1 <= w_pnext w2)%nat) by apply K2.
  split. { eapply keeps_trans; [exact K|]. eapply keeps_le; [| |exact K2]; lia. }
  intros qs E. destruct r as [[qs'|e]|]; cbn in E; try discriminate. injection E as <-.
  destruct (H2 qs' eq_refl) as (L & F & P).
  assert (El : layers_of w2 q = layers_of w1 q) by (unfold layers_of; destruct K2 as (_ & B & _); now rewrite B).
  split; [cbn; now rewrite L|]. split.
  - constructor.
    + split; [|exact Hq]. split; [lia|]. rewrite El. intros a Ha. specialize (Ho2 a Ha). lia.
    + eapply Forall_impl; [|exact F]. intros q' [[A B] C]. split; [|lia]. split; [exact A|]. intros a Ha. specialize (B a Ha). lia.
  - constructor; [|exact P]. eapply Forall_impl; [|exact F]. intros q' [[A B] C]. split; [lia|].
    intros a Ha Ha'. rewrite El in Ha. specialize (Ho2 a Ha). specialize (B a Ha'). lia.
Qed.

Lemma iter_varied_spec ppf vt vv vs w p ds w' qs : (p < w_pnext w)%nat -> allocated w p ->
  iter_varied_profiles ppf vt vv vs w p ds = (w', Some (Ok qs)) ->
  length qs = length ds /\
  view w' p = view w p /\ p_wt (w_profs w' p) = p_wt (w_profs w p) /\
  (forall a, (a < w_next w)%nat -> w_heap w' a = w_heap w a) /\
  List.Forall (fun q => q <> p /\ forall a, In a (layers_of w' q) -> (w_next w <= a < w_next w')%nat) qs /\
  ForallOrdPairs (fun q q' => q <> q' /\ forall a, In a (layers_of w' q) -> ~ In a (layers_of w' q')) qs.
Proof.
  intros Hp Hal E. unfold iter_varied_profiles in E. destruct (check_count vs (length ds)); [|discriminate].
  pose proof (varied_from_ok ppf vt vv vs ds w p 0) as G. cbv zeta in G. rewrite E in G. cbn [fst snd] in G.
  destruct G as [K H]. destruct (H qs eq_refl) as (L & F & P). split; [exact L|].
  destruct (keeps_view _ _ _ _ p K Hp Hal) as (_ & Hv & Hw). split; [exact Hv|]. split; [exact Hw|]. split; [apply K|].
  split.
  - eapply Forall_impl; [|exact F]. intros q [[A B] C]. split; [lia|exact B].
  - clear -P. induction P as [|q qs HF _ IH]; constructor; [|exact IH]. eapply Forall_impl; [|exact HF]. intros q' [A B]. split; [lia|exact B].
Qed.
(** A failed or unfinished iteration leaves the seed alone too. *)
Lemma iter_varied_frame ppf vt vv vs w p ds : (p < w_pnext w)%nat -> allocated w p ->
  let w' := fst (iter_varied_profiles ppf vt vv vs w p ds) in
  view w' p = view w p /\ p_wt (w_profs w' p) = p_wt (w_profs w p) /\ (forall a, (a < w_next w)%nat -> w_heap w' a = w_heap w a).
Proof.
  intros Hp Hal. cbv zeta. unfold iter_varied_profiles. destruct (check_count vs (length ds)); [|auto].
  pose proof (varied_from_ok ppf vt vv vs ds w p 0) as [K _].
  destruct (keeps_view _ _ _ _ p K Hp Hal) as (_ & Hv & Hw). split; [exact Hv|]. split; [exact Hw|]. apply K.
Qed.

(** C37, second half: every layer's soil type is yielded. *)
Lemma soil_types_repeated above l1 middle l2 below : l_soil l1 = l_soil l2 ->
  let ls := above ++ l1 :: middle ++ l2 :: below in
  length (iter_soil_types ls) = length ls /\ ~ NoDup (iter_soil_types ls).
Proof.
  intros E. cbv zeta. unfold iter_soil_types. split; [apply map_length|]. rewrite map_app. cbn [map]. rewrite map_app. cbn [map].
  rewrite E. intros H. apply NoDup_remove_2 in H. apply H. apply in_or_app. right. apply in_or_app. right. now left.
Qed.

