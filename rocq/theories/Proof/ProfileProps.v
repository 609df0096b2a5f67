(** Statements about profiles assembled from the lemmas. *)
From Coq Require Import String.
From Verif Require Import Common Model.Curve Model.Layer Model.Profile
  Spec.CurveSpec Spec.LayerSpec Spec.ProfileSpec Spec.HistorySpec Spec.AbstractProfile
  Proof.CommonFacts Proof.CurveFacts Proof.LayerFacts Proof.ProfileFacts Proof.ProfileRefine
  Proof.ProfileOps Proof.ProfileRefute.
Local Open Scope R_scope.

(** ** Geometry after a history *)
Lemma history_depths os p :
  admissible_run init_world os -> (p < w_pnext (run init_world os))%nat ->
  depths_cumulative (view (run init_world os) p) /\
  stresses_cumulative (view (run init_world os) p).
Proof.
  intros Hr Hp. pose proof (run_inv _ _ init_inv Hr) as HI.
  apply placed_view, (inv_placed _ HI p Hp).
Qed.

(** ** Stress *)
Lemma stress_vert_total_spec w p a above below within :
  stresses_cumulative (view w p) -> layers_of w p = above ++ a :: below ->
  stress_vert w a within false =
  if Rle_dec within (l_thick (w_heap w a))
  then Ok (total_weight (map (w_heap w) above) + within * s_unit_wt (l_soil (w_heap w a)))
  else Err AssertionError.
Proof.
  intros Hs E. unfold stress_vert, stress_vert_total.
  assert (Hv : l_svert (w_heap w a) = total_weight (map (w_heap w) above)).
  { apply (Hs _ _ (map (w_heap w) below)). unfold view. rewrite E, map_app. reflexivity. }
  unfold Rleb. destruct (Rle_dec within (l_thick (w_heap w a))); cbn [bind]; [|reflexivity].
  now rewrite Hv.
Qed.

Lemma effective_stress_spec w p a within s :
  l_prof (w_heap w a) = Some p -> stress_vert w a within false = Ok s ->
  exists s', stress_vert w a within true = Ok s' /\
    s' = s - GRAVITY * Rmax (l_depth (w_heap w a) + within - p_wt (w_profs w p)) 0 /\
    s' <= s /\ (l_depth (w_heap w a) + within <= p_wt (w_profs w p) -> s' = s).
Proof.
  intros Hp. unfold stress_vert. destruct (stress_vert_total (w_heap w a) within) as [x|e]; [|discriminate].
  cbn [bind]. rewrite Hp. intros E. injection E as <-. eexists. split; [reflexivity|].
  unfold pore_pressure, GRAVITY. split; [reflexivity|].
  pose proof (Rmax_r (l_depth (w_heap w a) + within - p_wt (w_profs w p)) 0) as Hm.
  split; [nra|]. intros H. rewrite Rmax_right by lra. lra.
Qed.

Lemma history_effective os p i a within :
  admissible_run init_world os -> Forall op_defined os ->
  let w := run init_world os in let m := arun ainit os in
  (p < w_pnext w)%nat -> nth_error (layers_of w p) i = Some a -> within <= a_thick m a ->
  stress_vert w a within false = Ok (aweight m p i + a_uwt m a * within) /\
  stress_vert w a within true =
    Ok (aweight m p i + a_uwt m a * within - 9.80665 * Rmax (adepth m p i + within - a_wt m p) 0).
Proof.
  intros Hr Hd w m Hp Ha Hw.
  destruct (run_depths os p i a Hr Hd Hp Ha) as (_ & H1 & H2 & H3 & H4 & H5 & H6).
  fold w m in H1, H2, H3, H4, H5, H6.
  unfold stress_vert, stress_vert_total. rewrite H5.
  rewrite (proj2 (Rleb_true _ _) Hw). cbn [bind]. rewrite H3, H1, H2, H6, <- H4.
  unfold pore_pressure, GRAVITY. split; f_equal; ring.
Qed.

Lemma pore_pressure_spec wt d :
  0 <= pore_pressure wt d /\ (d <= wt -> pore_pressure wt d = 0) /\
  (wt <= d -> pore_pressure wt d = 9.80665 * (d - wt)).
Proof.
  unfold pore_pressure, GRAVITY. pose proof (Rmax_r (d - wt) 0).
  split; [nra|]. split; intros H1; [rewrite Rmax_right by lra|rewrite Rmax_left by lra]; lra.
Qed.

(** ** Lookup *)
Lemma lookup_unique w p d :
  NoDup (layers_of w p) -> bottom_distinct (view w p) -> layers_of w p <> [] ->
  Forall (fun l => 0 <= l_thick l) (view w p) -> 0 <= d ->
  exists i u, snd (lookup_depth w p d) = Ok (i, u) /\ contains_depth (view w p) d i u /\
    forall j v, contains_depth (view w p) d j v -> j = i /\ v = u.
Proof.
  intros Hnd Hb Hne Hpos H0. destruct (lookup_depth_spec w p d Hnd Hb Hne H0) as (i & u & E & Hc).
  exists i, u. split; [exact E|]. split; [exact Hc|]. intros j v Hj.
  exact (contains_unique _ _ _ _ _ _ Hpos Hj Hc).
Qed.

Lemma lookup_interface w p above a below :
  NoDup (layers_of w p) -> bottom_distinct (view w p) ->
  Forall (fun l => 0 <= l_thick l) (view w p) ->
  layers_of w p = above ++ a :: below -> (below = [] \/ 0 < l_thick (w_heap w a)) ->
  snd (lookup_depth w p (total_thick (map (w_heap w) above))) = Ok (length above, 0).
Proof.
  intros Hnd Hb Hpos E Hcase.
  assert (Hne : layers_of w p <> []) by (rewrite E; destruct above; discriminate).
  assert (Hv : view w p = map (w_heap w) above ++ w_heap w a :: map (w_heap w) below).
  { unfold view. rewrite E, map_app. reflexivity. }
  assert (H0 : 0 <= total_thick (map (w_heap w) above)).
  { apply total_thick_nonneg. rewrite Hv in Hpos. apply Forall_app in Hpos. apply Hpos. }
  destruct (lookup_unique w p _ Hnd Hb Hne Hpos H0) as (i & u & Hl & _ & Hu).
  destruct (Hu (length above) 0) as [<- <-].
  - exists (map (w_heap w) above), (w_heap w a), (map (w_heap w) below).
    split; [exact Hv|]. split; [now rewrite map_length|]. split; [ring|]. split; [lra|].
    intros Hn. destruct Hcase as [->|Hc]; [contradiction|exact Hc].
  - rewrite Hl. reflexivity.
Qed.

(** ** Location by index *)
Lemma location_index w p i k a :
  py_index i (length (layers_of w p)) = Some k -> nth_error (layers_of w p) k = Some a ->
  (forall j b, (j < k)%nat -> nth_error (layers_of w p) j = Some b ->
     b <> a /\ layer_eqb (w_heap w b) (w_heap w a) = false) ->
  snd (location w p None (Some i)) = Ok (k, a, 0).
Proof.
  intros Hi Ha Hf. unfold location. rewrite Hi. cbn [opt_bind]. rewrite Ha. cbn [snd].
  unfold profile_index. rewrite (index_from_first _ _ _ _ k Ha Hf). reflexivity.
Qed.
Lemma location_index_layer w p i r :
  snd (location w p None (Some i)) = Ok r ->
  exists k a j, py_index i (length (layers_of w p)) = Some k /\
    nth_error (layers_of w p) k = Some a /\ r = (j, a, 0) /\ (j <= k)%nat /\
    exists b, nth_error (layers_of w p) j = Some b /\
      (b = a \/ layer_eqb (w_heap w b) (w_heap w a) = true).
Proof.
  unfold location. destruct (py_index i (length (layers_of w p))) as [k|] eqn:Hk; cbn [opt_bind]; [|discriminate].
  destruct (nth_error (layers_of w p) k) as [a|] eqn:Ha; [|discriminate]. cbn [snd].
  unfold profile_index. destruct (index_from (w_heap w) (layers_of w p) a 0) as [j|] eqn:Hj; [|discriminate].
  cbn [bind]. intros E. injection E as <-.
  apply index_from_least in Hj. destruct Hj as (j' & b & -> & Hb & Heq & Hmin). cbn [Nat.add].
  exists k, a, j'. repeat (split; [solve [auto]|]). split.
  - destruct (Nat.le_gt_cases j' k) as [H|H]; [exact H|].
    destruct (Hmin k a H Ha) as [H1 _]. congruence.
  - exists b. auto.
Qed.

(** ** Copies *)
Lemma copy_preserves w p :
  (forall a, In a (layers_of w p) -> (a < w_next w)%nat) ->
  Forall (fun l => 0 < s_unit_wt (l_soil l) /\ 0 <= l_vs l /\ shear_mod l = initial_shear_mod l) (view w p) ->
  let r := profile_copy w p in
  Forall2 (fun l l' => l_soil l' = l_soil l /\ l_thick l' = l_thick l /\ l_vs l' = l_vs l /\
                       l_dmin l' = l_dmin l) (view w p) (view (fst r) (snd r)) /\
  p_wt (w_profs (fst r) (snd r)) = p_wt (w_profs w p) /\
  (forall a, In a (layers_of (fst r) (snd r)) -> (w_next w <= a)%nat) /\
  (forall a, (a < w_next w)%nat -> w_heap (fst r) a = w_heap w a) /\
  (forall q, (q < w_pnext w)%nat -> w_profs (fst r) q = w_profs w q).
Proof.
  intros Hal HF. destruct (profile_copy_spec w p Hal) as (H1 & H2 & H3 & _ & H4 & H5).
  cbn zeta in *. split; [|auto].
  revert HF H1. generalize (view w p) as ls, (view (fst (profile_copy w p)) (snd (profile_copy w p))) as ls'.
  intros ls ls' HF H1. induction H1 as [|l l' ls ls' Hc _ IH]; [constructor|].
  inversion HF as [|? ? (F1 & F2 & F3) HF']; subst. constructor; [|now apply IH].
  destruct Hc as (C1 & C2 & C3 & C4 & _). cbn in C1, C2, C3, C4.
  rewrite <- C1, <- C2, <- C3, <- C4. repeat split. now apply shear_vel_initial.
Qed.

Lemma copy_strain_compatible w p :
  (forall a, In a (layers_of w p) -> (a < w_next w)%nat) ->
  let r := profile_copy w p in
  Forall2 (fun l l' => l_soil l' = l_soil l /\ l_thick l' = l_thick l /\ l_vs l' = shear_vel l /\
                       l_dmin l' = l_dmin l) (view w p) (view (fst r) (snd r)).
Proof.
  intros Hal. destruct (profile_copy_spec w p Hal) as (H1 & _). cbn zeta in *.
  revert H1. generalize (view w p) as ls, (view (fst (profile_copy w p)) (snd (profile_copy w p))) as ls'.
  intros ls ls' H1. induction H1 as [|l l' ls ls' Hc _ IH]; [constructor|]. constructor; [|exact IH].
  destruct Hc as (C1 & C2 & C3 & C4 & _). cbn in C1, C2, C3, C4. auto.
Qed.

(** ** Auto-discretisation *)
Definition site_ok (l : layer) : Prop :=
  0 < s_unit_wt (l_soil l) /\ 0 < shear_vel l /\ 0 <= l_thick l.

Lemma sub_vel s t v d : 0 < s_unit_wt s -> 0 <= v -> shear_vel (layer_make s t v d) = v.
Proof.
  intros Hs Hv. apply shear_vel_initial; cbn; auto.
Qed.
Lemma total_thick_repeat l n : total_thick (repeat l n) = INR n * l_thick l.
Proof.
  induction n as [|n IH]; [cbn; ring|]. cbn [repeat]. rewrite total_thick_cons, IH, S_INR. ring.
Qed.
Lemma Rsum_map_repeat {A} (g : A -> R) x n : Rsum (map g (repeat x n)) = INR n * g x.
Proof. induction n as [|n IH]; [cbn; ring|]. cbn [repeat map]. rewrite Rsum_cons, IH, S_INR. ring. Qed.

Lemma disc_totals f wf nl ls groups :
  0 < f -> 0 < wf -> Forall site_ok ls -> Forall2 (disc_group f wf nl) ls groups ->
  total_thick (concat groups) = total_thick ls /\
  Rsum (map travel_time (concat groups)) = Rsum (map travel_time ls) /\
  (Forall (fun l => shear_vel l = l_vs l) ls ->
   Rsum (map incr_site_atten (concat groups)) = Rsum (map incr_site_atten ls)).
Proof.
  intros Hf Hw Hok HF. induction HF as [|l g ls groups Hg _ IH]; [repeat split; reflexivity|].
  inversion Hok as [|? ? (K1 & K2 & K3) Hok']; subst. specialize (IH Hok').
  destruct IH as (I1 & I2 & I3). cbn [concat map]. rewrite !map_app, !Rsum_app, total_thick_app, total_thick_cons, !Rsum_cons.
  rewrite I1, I2.
  assert (Hone : total_thick g = l_thick l /\ Rsum (map travel_time g) = travel_time l /\
                 (shear_vel l = l_vs l -> Rsum (map incr_site_atten g) = incr_site_atten l)).
  { unfold disc_group in Hg. destruct (negb nl || is_nonlinear (l_soil l)).
    - subst g. unfold split_layer. rewrite total_thick_repeat, !Rsum_map_repeat.
      destruct (sub_count_spec l f wf K2 Hf Hw K3) as (N1 & _).
      assert (Hn : INR (sub_count l f wf) <> 0) by (apply not_0_INR; lia).
      unfold travel_time, incr_site_atten. rewrite sub_vel by (auto; lra). cbn [l_thick l_dmin l_vs layer_make layer_reset].
      repeat split; [field; exact Hn|field; split; lra|]. intros E. rewrite E. field. split; [lra|exact Hn].
    - subst g. cbn [map Rsum fold_right]. rewrite total_thick_cons. change (total_thick []) with 0.
      repeat split; intros; ring. }
  destruct Hone as (O1 & O2 & O3). rewrite O1, O2. split; [ring|]. split; [ring|].
  intros Hv. inversion Hv as [|? ? Hv1 Hv2]; subst. rewrite (O3 Hv1), (I3 Hv2). ring.
Qed.

Lemma core_sums ls ls' :
  Forall2 same_core ls ls' ->
  total_thick ls = total_thick ls' /\ map travel_time ls = map travel_time ls' /\
  map incr_site_atten ls = map incr_site_atten ls'.
Proof.
  induction 1 as [|a b l l' (C1 & C2 & C3 & C4 & C5 & _) _ (I1 & I2 & I3)]; [repeat split; reflexivity|].
  rewrite !total_thick_cons. cbn [map]. rewrite I1, I2, I3.
  unfold travel_time, incr_site_atten, shear_vel, shear_mod. rewrite C1, C2, C3, C4, C5. auto.
Qed.

Lemma Forall2_app_one {A B} (P : A -> B -> Prop) l a l' :
  Forall2 P (l ++ [a]) l' -> exists b, last_opt l' = Some b /\ Forall2 P l (removelast l') /\ P a b.
Proof.
  intros H. apply Forall2_app_inv_l in H. destruct H as (l1 & l2 & H1 & H2 & ->).
  inversion H2 as [|? b ? l3 Hb H3]; subst. inversion H3; subst.
  exists b. rewrite last_opt_app, removelast_app by discriminate. cbn. rewrite app_nil_r. auto.
Qed.

Lemma auto_discretize_refines w p f wf nl :
  (forall a, In a (layers_of w p) -> (a < w_next w)%nat) -> NoDup (layers_of w p) ->
  layers_of w p <> [] -> Forall site_ok (removelast (view w p)) -> 0 < f -> 0 < wf ->
  exists w' q groups bottom,
    auto_discretize w p f wf nl = (w', Ok q) /\ last_opt (view w p) = Some bottom /\
    Forall2 (fun l g => if negb nl || is_nonlinear (l_soil l)
                        then equal_parts l (shear_vel l / f * wf) g else g = [l])
      (removelast (view w p)) groups /\
    Forall2 same_core (concat groups ++ [bottom]) (view w' q) /\
    p_wt (w_profs w' q) = p_wt (w_profs w p) /\
    total_thick (view w' q) = total_thick (view w p) /\
    Rsum (map travel_time (removelast (view w' q))) = Rsum (map travel_time (removelast (view w p))) /\
    (Forall (fun l => shear_vel l = l_vs l) (removelast (view w p)) ->
     site_attenuation (view w' q) = site_attenuation (view w p)) /\
    (bottom_distinct (view w' q) ->
     depths_cumulative (view w' q) /\
     exists b', last_opt (view w' q) = Some b' /\ l_depth b' = total_thick (removelast (view w p))) /\
    (forall r, (r < w_pnext w)%nat -> w_profs w' r = w_profs w r) /\
    (forall a, (a < w_next w)%nat -> same_core (w_heap w a) (w_heap w' a)).
Proof.
  intros Hal Hnd Hne Hok Hf Hw.
  destruct (auto_discretize_spec w p f wf nl Hal Hnd Hne)
    as (w' & q & groups & bottom & E & Eq & El & Hg & Hc & Hwt & Hnd' & Hcore & Hprofs & Hpl & _).
  destruct (disc_totals f wf nl _ _ Hf Hw Hok Hg) as (T1 & T2 & T3).
  destruct (core_sums _ _ Hc) as (S1 & S2 & S3).
  pose proof (last_opt_inv _ _ El) as Hinv.
  destruct (Forall2_app_one _ _ _ _ Hc) as (b' & Hb' & Hrem & Hcb).
  destruct (core_sums _ _ Hrem) as (R1 & R2 & R3).
  exists w', q, groups, bottom. split; [exact E|]. split; [exact El|]. split.
  { clear - Hg Hok Hf Hw. induction Hg as [|l g ls groups H _ IH]; [constructor|].
    inversion Hok as [|? ? (K1 & K2 & K3) Hok']; subst. constructor; [|now apply IH].
    unfold disc_group in H. destruct (negb nl || is_nonlinear (l_soil l)); [|exact H].
    subst g. now apply split_layer_parts. }
  split; [exact Hc|]. split; [exact Hwt|]. split.
  { rewrite <- S1, total_thick_app, T1. rewrite Hinv at 2. now rewrite total_thick_app. }
  split; [rewrite <- R2, T2; reflexivity|]. split.
  { intros Hv. unfold site_attenuation. rewrite <- S3, map_app, Rsum_app, (T3 Hv).
    rewrite Hinv at 2. now rewrite map_app, Rsum_app. }
  split.
  { intros Hbd. specialize (Hpl Hbd). apply placed_view in Hpl. destruct Hpl as [Hd _].
    split; [exact Hd|]. exists b'. split; [exact Hb'|].
    rewrite (Hd (removelast (view w' q)) b' []) by (now apply last_opt_inv).
    now rewrite <- R1, T1. }
  split; assumption.
Qed.
