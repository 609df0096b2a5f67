(** Random velocities: C33, C34 (Toro), C35, C60, C80, C81, C82. *)
From Coq Require Import String.
From Verif Require Import Common Model.Curve Model.Layer Model.Profile Model.Gauss Model.Variation
  Spec.ProfileSpec Spec.VariationSpec Proof.CommonFacts Proof.ProfileOps Proof.ProfileProps Proof.GaussFacts Proof.CovarFacts
  Proof.ThicknessProps.
Local Open Scope R_scope.

Lemma varied_vels_nth ms : forall vs ds i m v d,
  nth_error ms i = Some m -> nth_error vs i = Some v -> nth_error ds i = Some d ->
  nth_error (varied_vels ms vs ds) i = Some (varied_vel m v d).
Proof.
  induction ms as [|m0 ms IH]; intros vs ds i m v d H1 H2 H3; [destruct i; discriminate|].
  destruct vs as [|v0 vs]; [destruct i; discriminate|]. destruct ds as [|d0 ds]; [destruct i; discriminate|].
  destruct i as [|i]; cbn in *; [congruence|]. now apply IH.
Qed.
Lemma varied_vels_length ms : forall vs ds, List.length vs = List.length ms -> List.length ds = List.length ms ->
  List.length (varied_vels ms vs ds) = List.length ms.
Proof.
  induction ms as [|m ms IH]; intros [|v vs] [|d ds] H1 H2; try discriminate; cbn in *; [reflexivity|]. f_equal. apply IH; lia.
Qed.
Lemma assign_vels_other addrs : forall h vels a, ~ In a addrs -> assign_vels h addrs vels a = h a.
Proof.
  induction addrs as [|b addrs IH]; intros h vels a H; [reflexivity|]. destruct vels as [|v vels]; [reflexivity|].
  cbn [assign_vels]. rewrite IH by (intros N; apply H; now right). unfold hset.
  destruct (Nat.eqb_spec a b) as [->|]; [|reflexivity]. elim H. now left.
Qed.
Lemma assign_vels_nth addrs : forall h vels i a, NoDup addrs -> nth_error addrs i = Some a ->
  assign_vels h addrs vels a = match nth_error vels i with Some v => set_initial_vs (h a) v | None => h a end.
Proof.
  induction addrs as [|b addrs IH]; intros h vels i a Hn H; [destruct i; discriminate|].
  inversion Hn as [|? ? Hb Hn']; subst. destruct vels as [|v vels].
  { destruct i; reflexivity. }
  destruct i as [|i]; cbn [nth_error] in *; cbn [assign_vels].
  - injection H as ->. rewrite assign_vels_other by assumption. unfold hset. now rewrite Nat.eqb_refl.
  - rewrite (IH _ _ _ _ Hn' H). assert (a <> b) by (intros ->; apply Hb; eapply nth_error_In; eauto).
    unfold hset. destruct (Nat.eqb_spec a b); [contradiction|]. reflexivity.
Qed.

(** C33 *)
Lemma nth_error_removelast {A} (xs : list A) i :
  nth_error (removelast xs) i = if Nat.ltb (S i) (List.length xs) then nth_error xs i else None.
Proof.
  destruct xs as [|x xs _] using rev_ind; [now destruct i|].
  rewrite removelast_app by discriminate. cbn [removelast]. rewrite app_nil_r, app_length. cbn [List.length].
  destruct (Nat.ltb_spec (S i) (List.length xs + 1)).
  - rewrite nth_error_app1 by lia. reflexivity.
  - apply nth_error_None. lia.
Qed.

Lemma varied_vel_range m s d : Rabs (ln (varied_vel m ((s * tn_scale rand_limit) ^ 2) d) - m) <= 2 * tn_scale 2 * Rabs s.
Proof.
  pose proof scale2_pos as Hs. unfold rand_limit in Hs. unfold varied_vel. rewrite ln_exp. unfold rand_limit.
  replace ((s * tn_scale 2) ^ 2) with (Rsqr (s * tn_scale 2)) by (unfold Rsqr; ring).
  rewrite sqrt_Rsqr_abs, Rabs_mult, (Rabs_pos_eq (tn_scale 2)) by lra.
  set (o := 2 * (Rabs s * tn_scale 2)). assert (0 <= o).
  { unfold o. pose proof (Rabs_pos s). assert (0 <= Rabs s * tn_scale 2) by (apply Rmult_le_pos; lra). lra. }
  replace (2 * tn_scale 2 * Rabs s) with o by (unfold o; ring).
  pose proof (clip_bounds d (m - o) (m + o) ltac:(lra)). apply Rabs_le. lra.
Qed.

Lemma velocity_variation v w p draw corr std :
  allocated w p -> vv_corr v (view w p) = Ok corr -> vv_ln_std v (view w p) = Ok std ->
  List.length std = S (List.length corr) -> List.length std = List.length (view w p) ->
  List.length draw = List.length (view w p) ->
  List.Forall (fun l => 0 < s_unit_wt (l_soil l) /\ 0 <= l_vs l /\ shear_mod l = initial_shear_mod l) (view w p) ->
  exists w' q, velocity_call v w p draw = (w', Ok q) /\
    List.length (view w' q) = List.length (view w p) /\
    (forall i l l', nth_error (view w p) i = Some l -> nth_error (view w' q) i = Some l' ->
       l_soil l' = l_soil l /\ l_thick l' = l_thick l /\ l_dmin l' = l_dmin l /\ shear_mod l' = initial_shear_mod l') /\
    (forall i l l' s, nth_error (view w p) i = Some l -> nth_error (view w' q) i = Some l' -> nth_error std i = Some s ->
       (S i < List.length (view w p))%nat \/ vv_bedrock v = true ->
       0 < l_vs l' /\ Rabs (ln (l_vs l') - ln (l_vs l)) <= 2 * tn_scale 2 * Rabs s) /\
    (forall i l l' s d, nth_error (view w p) i = Some l -> nth_error (view w' q) i = Some l' -> nth_error std i = Some s ->
       nth_error draw i = Some d -> (S i < List.length (view w p))%nat \/ vv_bedrock v = true ->
       Rabs (d - ln (l_vs l)) <= 2 * tn_scale 2 * Rabs s -> l_vs l' = exp d) /\
    (vv_bedrock v = false -> forall l l', last_opt (view w p) = Some l -> last_opt (view w' q) = Some l' -> l_vs l' = l_vs l) /\
    p_wt (w_profs w' q) = p_wt (w_profs w p) /\
    (forall a, (a < w_next w)%nat -> w_heap w' a = w_heap w a) /\
    (forall r, (r < w_pnext w)%nat -> w_profs w' r = w_profs w r).
Proof.
  intros Hal Ec Es Hls Hlv Hld HF. unfold velocity_call. rewrite Ec, Es. cbn [bind]. unfold calc_covar_matrix.
  rewrite tridiag_ok by (rewrite map_length; lia). cbn beta iota. rewrite diagonal_tri, map_map.
  destruct (copy_preserves w p Hal HF) as (H1 & H2 & H3 & H4 & H5).
  destruct (profile_copy_spec w p Hal) as (G1 & _ & _ & HN & _ & _). cbn zeta in *.
  destruct (profile_copy w p) as [w1 q]. cbn [fst snd] in *.
  set (vels := varied_vels (map (fun l => ln (l_vs l)) (view w p)) (map (fun s => (s * tn_scale rand_limit) ^ 2) std) draw).
  assert (Hlen : List.length vels = List.length (view w p)).
  { unfold vels. rewrite varied_vels_length; rewrite ?map_length; auto. }
  set (vels' := if vv_bedrock v then vels else removelast vels).
  set (w' := set_heap w1 (assign_vels (w_heap w1) (layers_of w1 q) vels')).
  assert (Hlay : layers_of w' q = layers_of w1 q) by reflexivity.
  assert (Hlq : List.length (layers_of w1 q) = List.length (view w p)).
  { apply Forall2_len in H1. unfold view in H1 at 2. rewrite map_length in H1. now rewrite H1. }
  assert (Hnth : forall i l', nth_error (view w' q) i = Some l' -> exists a, nth_error (layers_of w1 q) i = Some a /\
     l' = match nth_error vels' i with Some x => set_initial_vs (w_heap w1 a) x | None => w_heap w1 a end).
  { intros i l' E. unfold view in E. rewrite Hlay in E. rewrite nth_error_map in E.
    destruct (nth_error (layers_of w1 q) i) as [a|] eqn:Ea; [|discriminate]. cbn in E. injection E as <-.
    exists a. split; [reflexivity|]. now apply assign_vels_nth. }
  assert (Hpair : forall i l a, nth_error (view w p) i = Some l -> nth_error (layers_of w1 q) i = Some a ->
     let x := w_heap w1 a in l_soil x = l_soil l /\ l_thick x = l_thick l /\ l_vs x = l_vs l /\ l_dmin x = l_dmin l /\
        shear_mod x = initial_shear_mod x).
  { intros i l a El Ea. cbn zeta.
    assert (Ex : nth_error (view w1 q) i = Some (w_heap w1 a)) by (unfold view; now apply map_nth_error).
    assert (Hx : forall (P : layer -> layer -> Prop) xs ys, Forall2 P xs ys -> forall i x y, nth_error xs i = Some x ->
       nth_error ys i = Some y -> P x y).
    { clear. induction 1; intros i a b Ha Hb; [destruct i; discriminate|]. destruct i; cbn in *; [congruence|eauto]. }
    destruct (Hx _ _ _ H1 _ _ _ El Ex) as (A & B & C & D). destruct (Hx _ _ _ G1 _ _ _ El Ex) as (A' & _ & C' & _ & E' & _).
    repeat split; auto. unfold shear_mod. rewrite <- E'. unfold layer_copy, layer_make, layer_reset; cbn.
    unfold initial_shear_mod; cbn. rewrite <- A', <- C'. reflexivity. }
  assert (Hv' : forall i l s d, nth_error (view w p) i = Some l -> nth_error std i = Some s -> nth_error draw i = Some d ->
     (S i < List.length (view w p))%nat \/ vv_bedrock v = true ->
     nth_error vels' i = Some (varied_vel (ln (l_vs l)) ((s * tn_scale rand_limit) ^ 2) d)).
  { intros i l s d El Est Ed Hc.
    assert (Ev : nth_error vels i = Some (varied_vel (ln (l_vs l)) ((s * tn_scale rand_limit) ^ 2) d)).
    { apply varied_vels_nth; [|now apply (map_nth_error (fun s => (s * tn_scale rand_limit) ^ 2))|assumption].
      now apply (map_nth_error (fun l => ln (l_vs l))). }
    unfold vels'. destruct (vv_bedrock v); [exact Ev|]. rewrite nth_error_removelast, Hlen.
    destruct (Nat.ltb_spec (S i) (List.length (view w p))); [exact Ev|]. destruct Hc; [lia|discriminate]. }
  exists w', q. split; [reflexivity|].
  split; [unfold view; rewrite Hlay, map_length; exact Hlq|]. split; [|split; [|split; [|split; [|split; [|split]]]]].
  - intros i l l' El E. destruct (Hnth _ _ E) as (a & Ea & ->). destruct (Hpair _ _ _ El Ea) as (A & B & C & D & G).
    destruct (nth_error vels' i); cbn; auto.
  - intros i l l' s El E Est Hc. destruct (Hnth _ _ E) as (a & Ea & ->).
    assert (Ed : exists d, nth_error draw i = Some d).
    { destruct (nth_error draw i) eqn:Ed; [eauto|]. apply nth_error_None in Ed.
      assert (i < List.length (view w p))%nat by (apply nth_error_Some; congruence). lia. }
    destruct Ed as (d & Ed). rewrite (Hv' _ _ _ _ El Est Ed Hc). cbn. split; [apply exp_pos|]. apply varied_vel_range.
  - intros i l l' s d El E Est Ed Hc Hin. destruct (Hnth _ _ E) as (a & Ea & ->).
    rewrite (Hv' _ _ _ _ El Est Ed Hc). unfold set_initial_vs, layer_reset; cbn [l_vs]. unfold varied_vel. f_equal. unfold rand_limit.
    pose proof scale2_pos as Hs. unfold rand_limit in Hs.
    replace ((s * tn_scale 2) ^ 2) with (Rsqr (s * tn_scale 2)) by (unfold Rsqr; ring).
    rewrite sqrt_Rsqr_abs, Rabs_mult, (Rabs_pos_eq (tn_scale 2)) by lra. apply clip_id.
    revert Hin. unfold Rabs at 1. destruct (Rcase_abs (d - ln (l_vs l))); intros; lra.
  - intros Hb l l' El E. rewrite last_opt_nth in El, E.
    assert (Hl2 : List.length (view w' q) = List.length (view w p)) by (unfold view; rewrite Hlay, map_length; exact Hlq).
    rewrite Hl2 in E. destruct (Hnth _ _ E) as (a & Ea & ->).
    assert (En : nth_error vels' (List.length (view w p) - 1) = None).
    { apply nth_error_None. unfold vels'. rewrite Hb, removelast_length. lia. }
    rewrite En. now destruct (Hpair _ _ _ El Ea) as (_ & _ & C & _).
  - exact H2.
  - intros a Ha. cbn. rewrite assign_vels_other; [now apply H4|]. intros Hi. apply H3 in Hi. lia.
  - exact H5.
Qed.

(** C35 *)
Lemma depth_corr_range m depth : toro_vel_ok m -> 0 <= depth -> 0 <= depth_corr m depth <= tv_rho_200 m.
Proof.
  intros (H1 & H2 & H3 & H4 & H5) Hd. unfold depth_corr. destruct (Rltb 200 depth) eqn:E; [lra|]. apply Rltb_false in E.
  match goal with |- 0 <= _ * ?x <= _ => assert (Hx : 0 <= x <= 1) end.
  { destruct (Rltb 0 (depth + tv_h_0 m)) eqn:E1.
    - apply Rltb_true in E1.
      assert (Hq : 0 < (depth + tv_h_0 m) / (200 + tv_h_0 m) <= 1).
      { split; [apply Rdiv_lt_0_compat; lra|]. apply (Rmult_le_reg_r (200 + tv_h_0 m)); [lra|].
        unfold Rdiv. rewrite Rmult_assoc, Rinv_l by lra. lra. }
      unfold Rpower. split; [left; apply exp_pos|]. rewrite <- exp_0.
      assert (ln ((depth + tv_h_0 m) / (200 + tv_h_0 m)) <= 0).
      { rewrite <- ln_1. destruct (Req_dec ((depth + tv_h_0 m) / (200 + tv_h_0 m)) 1) as [->|N]; [apply Rle_refl|].
        left. apply ln_increasing; lra. }
      destruct (Req_dec (tv_b m * ln ((depth + tv_h_0 m) / (200 + tv_h_0 m))) 0) as [->|N]; [apply Rle_refl|].
      left. apply exp_increasing. nra.
    - destruct (Rltb 0 (tv_b m)); lra. }
  nra.
Qed.
Lemma toro_corr_at_value m depth thick : toro_vel_ok m -> 0 <= depth ->
  toro_corr_at m depth thick = Some (toro_value m depth thick).
Proof.
  intros (H1 & H2 & H3 & H4 & H5) Hd. unfold toro_corr_at, toro_value, depth_corr, div_opt.
  assert (E1 : Reqb (tv_delta m) 0 = false) by (apply Reqb_false; lra).
  assert (E2 : Reqb (200 + tv_h_0 m) 0 = false) by (apply Reqb_false; lra).
  rewrite E1. destruct (Rltb 200 depth); cbn [opt_bind]; [reflexivity|]. rewrite E2. cbn [opt_bind]. unfold pow_opt.
  destruct (Rltb 0 (depth + tv_h_0 m)) eqn:E.
  - apply Rltb_true in E. assert (E3 : Rltb 0 ((depth + tv_h_0 m) / (200 + tv_h_0 m)) = true).
    { apply Rltb_true. apply Rdiv_lt_0_compat; lra. }
    rewrite E3. reflexivity.
  - apply Rltb_false in E. assert (E0 : depth + tv_h_0 m = 0) by lra. rewrite E0.
    replace (0 / (200 + tv_h_0 m)) with 0 by (field; lra).
    assert (E3 : Rltb 0 0 = false) by (apply Rltb_false; lra). rewrite E3, Reqb_refl.
    destruct (Rltb 0 (tv_b m)) eqn:Eb; cbn [opt_bind]; [reflexivity|]. apply Rltb_false in Eb.
    assert (E4 : Reqb (tv_b m) 0 = true) by (apply Reqb_true; lra). rewrite E4. reflexivity.
Qed.
Lemma toro_value_range m depth thick : toro_vel_ok m -> 0 <= depth -> 0 <= thick ->
  0 <= toro_value m depth thick <= 1 /\ (0 < tv_rho_0 m -> 0 < toro_value m depth thick).
Proof.
  intros Hm Hd Ht. pose proof (depth_corr_range m depth Hm Hd) as Hc. destruct Hm as (H1 & H2 & H3 & H4 & H5).
  unfold toro_value. set (c := depth_corr m depth) in *. set (e := exp (- Rmin thick 100 / tv_delta m)).
  assert (He : 0 < e <= 1).
  { unfold e. split; [apply exp_pos|]. rewrite <- exp_0.
    assert (0 <= Rmin thick 100) by (apply Rmin_glb; lra).
    assert (0 <= Rmin thick 100 / tv_delta m) by (apply Rmult_le_pos; [assumption|left; now apply Rinv_0_lt_compat]).
    replace (- Rmin thick 100 / tv_delta m) with (- (Rmin thick 100 / tv_delta m)) by (unfold Rdiv; ring).
    destruct (Req_dec (Rmin thick 100 / tv_delta m) 0) as [E|N]; [rewrite E, Ropp_0; apply Rle_refl|].
    left. apply exp_increasing. lra. }
  assert (Hr : 0 <= tv_rho_0 m * e <= 1) by nra. split; [nra|].
  intros Hp. assert (0 < tv_rho_0 m * e) by (apply Rmult_lt_0_compat; lra). nra.
Qed.

Lemma rising_tail x xs : rising (x :: xs) -> rising xs.
Proof. intros H i a b Ha Hb. exact (H (S i) a b Ha Hb). Qed.

(** The entries before the last, layer pair by layer pair. *)
Lemma toro_corr_mids_cons m a b c mids :
  toro_corr_mids m (a :: b :: c :: mids)
  = toro_corr_at m ((a + b) / 2) ((b + c) / 2 - (a + b) / 2) :: toro_corr_mids m (b :: c :: mids).
Proof. reflexivity. Qed.

Lemma toro_corr_mids_spec m mids : toro_vel_ok m -> (2 <= List.length mids)%nat ->
  List.Forall (fun d => 0 <= d) mids -> rising mids ->
  exists cs, toro_corr_mids m mids = map Some (cs ++ [1]) /\ S (S (List.length cs)) = List.length mids /\
    List.Forall (fun c => 0 <= c <= 1 /\ (0 < tv_rho_0 m -> 0 < c)) cs /\
    (forall i c a b d, nth_error cs i = Some c -> nth_error mids i = Some a -> nth_error mids (S i) = Some b ->
       nth_error mids (S (S i)) = Some d -> c = toro_value m ((a + b) / 2) ((d - a) / 2)).
Proof.
  intros Hm. induction mids as [|a mids IH]; intros Hl HF Hr; [cbn in Hl; lia|].
  destruct mids as [|b mids]; [cbn in Hl; lia|]. destruct mids as [|c mids].
  { exists []. repeat split; [constructor|]. intros i ? ? ? ? E. destruct i; discriminate. }
  inversion HF as [|? ? Ha HF1]; subst. inversion HF1 as [|? ? Hb HF2]; subst. inversion HF2 as [|? ? Hc HF3]; subst.
  pose proof (Hr 0%nat a b eq_refl eq_refl) as R1. pose proof (Hr 1%nat b c eq_refl eq_refl) as R2.
  destruct IH as (cs & E & Hlen & Hcs & Hval); [cbn; lia|assumption|now apply rising_tail in Hr|].
  exists (toro_value m ((a + b) / 2) ((c - a) / 2) :: cs). repeat split.
  - rewrite toro_corr_mids_cons, E. cbn [map app].
    replace ((b + c) / 2 - (a + b) / 2) with ((c - a) / 2) by field. now rewrite toro_corr_at_value by (assumption || lra).
  - cbn in *. lia.
  - constructor; [|assumption]. apply toro_value_range; [assumption|lra|lra].
  - intros i x a' b' d' E1 E2 E3 E4. destruct i as [|i]; cbn in E1, E2, E3, E4.
    + injection E1 as <-. injection E2 as <-. injection E3 as <-. injection E4 as <-. reflexivity.
    + eapply Hval; eauto.
Qed.

Lemma mids_ok ls : depths_cumulative ls -> List.Forall (fun l => 0 <= l_thick l) ls ->
  List.Forall (fun d => 0 <= d) (map depth_mid ls) /\ rising (map depth_mid ls).
Proof.
  intros Hd HF.
  assert (Ht : forall above, List.Forall (fun l => 0 <= l_thick l) above -> 0 <= total_thick above).
  { induction 1 as [|l above H _ IH]; [cbn; lra|]. change (total_thick (l :: above)) with (l_thick l + total_thick above). lra. }
  assert (Happ : forall xs ys, total_thick (xs ++ ys) = total_thick xs + total_thick ys).
  { induction xs as [|x xs IH]; intros ys; [cbn [app]; change (total_thick []) with 0; ring|].
    change (total_thick ((x :: xs) ++ ys)) with (l_thick x + total_thick (xs ++ ys)). rewrite IH. change (total_thick (x :: xs)) with (l_thick x + total_thick xs). ring. }
  split.
  - apply Forall_forall. intros d Hin. apply in_map_iff in Hin. destruct Hin as (l & <- & Hin).
    apply in_split in Hin. destruct Hin as (above & below & E). unfold depth_mid. rewrite (Hd _ _ _ E).
    rewrite E in HF. apply Forall_app in HF. destruct HF as [H1 H2]. inversion H2; subst. specialize (Ht _ H1). lra.
  - intros i x y Hx Hy. rewrite nth_error_map in Hx, Hy.
    destruct (nth_error ls i) as [l|] eqn:E1; [|discriminate]. destruct (nth_error ls (S i)) as [l'|] eqn:E2; [|discriminate].
    injection Hx as <-. injection Hy as <-. apply nth_error_split in E1. destruct E1 as (above & below & E & Hlen).
    rewrite E in E2. rewrite nth_error_app2 in E2 by lia. replace (S i - List.length above)%nat with 1%nat in E2 by lia.
    destruct below as [|l2 below]; [discriminate|]. cbn in E2. injection E2 as ->.
    assert (E' : ls = (above ++ [l]) ++ l' :: below) by (rewrite E, <- app_assoc; reflexivity).
    unfold depth_mid. rewrite (Hd _ _ _ E), (Hd _ _ _ E'), Happ. cbn.
    rewrite E in HF. apply Forall_app in HF. destruct HF as [_ H2]. inversion H2 as [|? ? P1 H3]; subst. inversion H3; subst. lra.
Qed.

Lemma toro_correlations m ls : toro_vel_ok m -> (2 <= List.length ls)%nat -> depths_cumulative ls ->
  List.Forall (fun l => 0 <= l_thick l) ls ->
  exists cs, toro_corr m ls = map Some (cs ++ [1]) /\ S (List.length (cs ++ [1])) = List.length ls /\
    List.Forall (fun c => 0 <= c <= 1) (cs ++ [1]).
Proof.
  intros Hm Hl Hd HF. destruct (mids_ok ls Hd HF) as [H1 H2].
  destruct (toro_corr_mids_spec m (map depth_mid ls) Hm) as (cs & E & Hlen & Hc & _); auto; [now rewrite map_length|].
  exists cs. split; [exact E|]. rewrite map_length in Hlen. rewrite app_length. cbn. split; [lia|].
  apply Forall_app. split; [|constructor; [lra|constructor]]. eapply Forall_impl; [|exact Hc]. intros c [H _]; exact H.
Qed.

(** C34 for Toro's model: never a covariance matrix with three layers or more. *)
Lemma toro_covariance_indefinite m ls cs rows : toro_vel_ok m -> 0 < tv_rho_0 m -> tv_ln_std m <> 0 ->
  (3 <= List.length ls)%nat -> depths_cumulative ls -> List.Forall (fun l => 0 <= l_thick l) ls ->
  toro_corr m ls = map Some cs -> calc_covar_matrix cs (toro_ln_std m ls) = Ok rows -> ~ semidefinite rows.
Proof.
  intros Hm Hr Hs Hl Hd HF Ec Er. destruct (mids_ok ls Hd HF) as [H1 H2].
  destruct (toro_corr_mids_spec m (map depth_mid ls) Hm) as (cs' & E & Hlen & Hc & _); auto; [rewrite map_length; lia|].
  rewrite map_length in Hlen. unfold toro_corr in Ec. rewrite Ec in E.
  assert (Einj : cs = cs' ++ [1]).
  { clear -E. revert E. generalize (cs' ++ [1]). intros ys. revert ys. induction cs; intros [|y ys] E; try discriminate; auto.
    injection E as -> E. f_equal. auto. }
  subst cs. destruct cs' as [|rho cs' _] using rev_ind; [cbn in Hlen; lia|].
  rewrite app_length in Hlen. cbn in Hlen.
  apply Forall_app in Hc. destruct Hc as [_ Hc]. inversion Hc as [|? ? [Hrange Hpos] _]; subst. specialize (Hpos Hr).
  assert (Estd : toro_ln_std m ls = repeat (tv_ln_std m * 1) (List.length cs') ++ [tv_ln_std m * 1; tv_ln_std m * 1; tv_ln_std m * 1]).
  { change ([tv_ln_std m * 1; tv_ln_std m * 1; tv_ln_std m * 1]) with (repeat (tv_ln_std m * 1) 3).
    rewrite <- repeat_app. unfold toro_ln_std. replace (List.length cs' + 3)%nat with (List.length ls) by lia.
    generalize (tv_ln_std m * 1). clear. intros x. induction ls; cbn; congruence. }
  rewrite Estd, <- app_assoc in Er. cbn [app] in Er.
  assert (tv_ln_std m * 1 <> 0) by lra.
  eapply covar_matrix_indefinite; [| | | | |exact Er]; try assumption; [now rewrite repeat_length|lra].
Qed.

(** C81.  The correlation of the first two layers depends on the third. *)
Lemma toro_corr_third m a b c c' : toro_vel_ok m -> 0 < tv_rho_0 m -> tv_rho_200 m < 1 -> 0 <= a <= b ->
  b <= c -> c < c' -> c' - a <= 200 ->
  exists r r', nth_error (toro_corr_mids m [a; b; c]) 0 = Some (Some r) /\
    nth_error (toro_corr_mids m [a; b; c']) 0 = Some (Some r') /\ r' < r.
Proof.
  intros Hm Hr H2 Hab Hbc Hcc Hlim.
  exists (toro_value m ((a + b) / 2) ((c - a) / 2)), (toro_value m ((a + b) / 2) ((c' - a) / 2)).
  rewrite !toro_corr_mids_cons. cbn [nth_error].
  rewrite !toro_corr_at_value by (assumption || lra).
  replace ((b + c) / 2 - (a + b) / 2) with ((c - a) / 2) by field. replace ((b + c') / 2 - (a + b) / 2) with ((c' - a) / 2) by field.
  repeat split; auto. pose proof (depth_corr_range m ((a + b) / 2) Hm ltac:(lra)) as Hd. destruct Hm as (_ & _ & H3 & _).
  unfold toro_value. rewrite !Rmin_left by lra.
  assert (exp (- ((c' - a) / 2) / tv_delta m) < exp (- ((c - a) / 2) / tv_delta m)).
  { apply exp_increasing. apply Rmult_lt_compat_r; [now apply Rinv_0_lt_compat|lra]. }
  apply Rplus_lt_compat_r, Rmult_lt_compat_l; [lra|]. now apply Rmult_lt_compat_l.
Qed.
(** The published thickness term, the difference of the two mid-depths, is used only
    when the mid-depths are evenly spaced. *)
Lemma toro_corr_pair m a b c : toro_vel_ok m -> 0 <= a <= b -> b <= c ->
  nth_error (toro_corr_mids m [a; b; c]) 0 = Some (Some (toro_value m ((a + b) / 2) (b - a))) <->
  toro_value m ((a + b) / 2) ((c - a) / 2) = toro_value m ((a + b) / 2) (b - a).
Proof.
  intros Hm Hab Hbc. rewrite toro_corr_mids_cons. cbn [nth_error]. rewrite toro_corr_at_value by (assumption || lra).
  replace ((b + c) / 2 - (a + b) / 2) with ((c - a) / 2) by field. split; [congruence|intros ->; reflexivity].
Qed.

(** C60 *)
Lemma Rltb_dec_case x y : if Rltb x y then x < y else y <= x.
Proof. destruct (Rltb x y) eqn:E; [now apply Rltb_true|now apply Rltb_false]. Qed.
Lemma site_class_ranges v :
  (usgs_site_class v = Some "USGS A"%string <-> 750 < v) /\
  (usgs_site_class v = Some "USGS B"%string <-> 360 < v <= 750) /\
  (usgs_site_class v = Some "USGS C"%string <-> 180 < v <= 360) /\
  (usgs_site_class v = Some "USGS D"%string <-> v <= 180).
Proof.
  unfold usgs_site_class, searchsorted. cbn [filter].
  assert (H1 := Rltb_dec_case 180 v). assert (H2 := Rltb_dec_case 360 v). assert (H3 := Rltb_dec_case 750 v).
  destruct (Rltb 180 v), (Rltb 360 v), (Rltb 750 v); try lra; cbn;
    (split; [|split; [|split]]); (split; [intros Hh; try discriminate Hh; lra|intros Hh; try reflexivity; lra]).
Qed.
Lemma site_class_known v : exists c m, usgs_site_class v = Some c /\ toro_lookup c = Ok m /\ toro_vel_ok m.
Proof.
  unfold usgs_site_class, searchsorted. cbn [filter].
  assert (H1 := Rltb_dec_case 180 v). assert (H2 := Rltb_dec_case 360 v). assert (H3 := Rltb_dec_case 750 v).
  destruct (Rltb 180 v), (Rltb 360 v), (Rltb 750 v); try lra; cbn -[toro_lookup];
    eexists; eexists; (split; [reflexivity|]); (split; [reflexivity|]); unfold toro_vel_ok; cbn; lra.
Qed.

(** C80 *)
Lemma generic_depth_ignores cls m ln_std : toro_lookup cls = Ok m -> ln_std <> [0.25; 0.15] ->
  exists d s, generic_depth_model cls None (Some ln_std) = Ok (d, Some s) /\ s <> ln_std.
Proof. intros H N. unfold generic_depth_model. rewrite H. cbn [bind]. do 2 eexists. split; [reflexivity|congruence]. Qed.
Lemma generic_depth_honours cls m d ln_std : toro_lookup cls = Ok m ->
  generic_depth_model cls (Some d) (Some ln_std) = Ok (Some d, Some ln_std).
Proof. intros H. unfold generic_depth_model. rewrite H. reflexivity. Qed.

(** C82 *)
Lemma depth_ln_std_named depth std before name value after l :
  str_in name (s_name (l_soil l)) = true ->
  List.Forall (fun nv => str_in (fst nv) (s_name (l_soil l)) = false) after ->
  depth_ln_std depth std (before ++ (name, value) :: after) l = value.
Proof.
  intros Hn Ha. unfold depth_ln_std. rewrite fold_left_app. cbn [fold_left fst snd]. rewrite Hn.
  clear -Ha. induction Ha as [|nv after H _ IH]; [reflexivity|]. cbn [fold_left]. now rewrite H.
Qed.
Lemma depth_ln_std_unnamed depth std names l :
  List.Forall (fun nv => str_in (fst nv) (s_name (l_soil l)) = false) names ->
  depth_ln_std depth std names l = np_interp (depth_mid l) (combine depth std).
Proof.
  intros Ha. unfold depth_ln_std. generalize (np_interp (depth_mid l) (combine depth std)).
  induction Ha as [|nv names H _ IH]; intros x; [reflexivity|]. cbn [fold_left]. rewrite H. apply IH.
Qed.
