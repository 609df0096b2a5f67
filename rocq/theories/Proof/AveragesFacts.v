(** Lemmas about depth averages. *)
From Coquelicot Require Import Coquelicot.
From Verif Require Import Common Model.Curve Model.Layer Model.Averages
  Spec.StepSpec Spec.ProfileSpec Spec.AverageSpec
  Proof.CommonFacts Proof.LayerFacts Proof.ProfileFacts Proof.StepFacts.
Local Open Scope R_scope.

(** The (depth, time) points of a stack starting at depth [b] and time [tau]. *)
Fixpoint knots (b tau : R) (l : list (R * R)) : list (R * R) :=
  match l with
  | [] => []
  | (t, v) :: rest => (b, tau) :: knots (b + t) (tau + t * v) rest
  end.
Fixpoint knots_to (b tau : R) (l : list (R * R)) (D : R) : list (R * R) :=
  match l with
  | [] => []
  | (t, v) :: rest =>
      (b, tau) ::
      match rest with
      | [] => if Rltb b D then [(D, tau + (D - b) * v)] else []
      | _ => knots_to (b + t) (tau + t * v) rest D
      end
  end.

Lemma interp_knots_to l : forall b tau D,
  l <> [] ->
  Forall (fun p => 0 < fst p) (removelast l) -> b <= D ->
  np_interp D (knots_to b tau l D) = tau + step_int l (D - b).
Proof.
  induction l as [|[t v] rest IH]; intros b tau D Hne Hpos Hb; [contradiction|].
  destruct rest as [|[t' v'] rest].
  - cbn [knots_to step_int]. rcase.
    + cbn [np_interp]. rewrite (proj2 (Rltb_false D D)) by lra. ring.
    + cbn. replace D with b by lra. ring.
  - cbn [removelast] in Hpos. inversion Hpos as [|? ? Ht Hpos']; subst. cbn [fst] in Ht.
    rewrite step_int_cons.
    assert (Hk : exists r, knots_to (b + t) (tau + t * v) ((t', v') :: rest) D = (b + t, tau + t * v) :: r)
      by (cbn [knots_to]; eauto).
    destruct Hk as [r Hr].
    change (knots_to b tau ((t, v) :: (t', v') :: rest) D)
      with ((b, tau) :: knots_to (b + t) (tau + t * v) ((t', v') :: rest) D).
    rewrite Hr, np_interp_cons2, <- Hr.
    rcase.
    + destruct (Rle_dec (D - b) t); [|lra].
      rcase.
      * replace D with b by lra. ring.
      * replace (tau + t * v - tau) with (t * v) by ring. replace (b + t - b) with t by ring.
        field. lra.
    + assert (Hs : np_interp D (knots_to (b + t) (tau + t * v) ((t', v') :: rest) D)
                   = tau + t * v + step_int ((t', v') :: rest) (D - (b + t))).
      { apply IH; [discriminate|exact Hpos'|lra]. }
      rewrite Hs. replace (D - (b + t)) with (D - b - t) by ring.
      destruct (Rle_dec (D - b) t) as [Hle|]; [|ring].
      replace (D - b - t) with 0 by lra. replace (D - b) with t by lra.
      assert (H0 : step_int ((t', v') :: rest) 0 = 0).
      { destruct rest as [|p' rest']; [cbn; ring|]. rewrite step_int_cons.
        cbn [removelast] in Hpos'. inversion Hpos'; subst. cbn [fst] in *.
        destruct (Rle_dec 0 t'); [ring|lra]. }
      rewrite H0. ring.
Qed.

Lemma knots_knots_to l : forall b tau D,
  D <= b + Rsum (map fst (removelast l)) -> knots_to b tau l D = knots b tau l.
Proof.
  induction l as [|[t v] rest IH]; intros b tau D HD; [reflexivity|].
  destruct rest as [|p rest].
  - cbn [removelast map Rsum fold_right] in HD. cbn [knots_to knots].
    rewrite (proj2 (Rltb_false b D)) by lra. reflexivity.
  - change (map fst (removelast ((t, v) :: p :: rest)))
      with (t :: map fst (removelast (p :: rest))) in HD. rewrite Rsum_cons in HD.
    change (knots_to b tau ((t, v) :: p :: rest) D)
      with ((b, tau) :: knots_to (b + t) (tau + t * v) (p :: rest) D).
    rewrite IH by lra. reflexivity.
Qed.

Lemma interp_knots_deep l : forall b tau D,
  l <> [] -> Forall (fun p => 0 < fst p) (removelast l) ->
  b + Rsum (map fst (removelast l)) <= D ->
  np_interp D (knots b tau l) = tau + Rsum (map (fun p => fst p * snd p) (removelast l)).
Proof.
  induction l as [|[t v] rest IH]; intros b tau D Hne Hpos HD; [contradiction|].
  destruct rest as [|[t' v'] rest].
  - cbn. ring.
  - change (removelast ((t, v) :: (t', v') :: rest))
      with ((t, v) :: removelast ((t', v') :: rest)) in *.
    inversion Hpos as [|? ? Ht Hpos']; subst. cbn [fst] in Ht.
    change (map fst ((t, v) :: removelast ((t', v') :: rest)))
      with (t :: map fst (removelast ((t', v') :: rest))) in HD. rewrite Rsum_cons in HD.
    assert (Hn : 0 <= Rsum (map fst (removelast ((t', v') :: rest)))).
    { apply Rsum_nonneg. rewrite Forall_map. eapply Forall_impl; [|exact Hpos']. cbn; intros; lra. }
    change (knots b tau ((t, v) :: (t', v') :: rest))
      with ((b, tau) :: (b + t, tau + t * v) :: knots (b + t + t') (tau + t * v + t' * v') rest).
    rewrite np_interp_cons2, (proj2 (Rltb_false D (b + t))) by lra.
    change ((b + t, tau + t * v) :: knots (b + t + t') (tau + t * v + t' * v') rest)
      with (knots (b + t) (tau + t * v) ((t', v') :: rest)).
    rewrite IH; [|discriminate|exact Hpos'|lra].
    change (map (fun p : R * R => fst p * snd p) ((t, v) :: removelast ((t', v') :: rest)))
      with (t * v :: map (fun p : R * R => fst p * snd p) (removelast ((t', v') :: rest))).
    rewrite Rsum_cons. ring.
Qed.

Lemma step_int_deep l : forall d t v,
  Forall (fun p => 0 < fst p) l -> Rsum (map fst l) <= d ->
  step_int (l ++ [(t, v)]) d = Rsum (map (fun p => fst p * snd p) l) + (d - Rsum (map fst l)) * v.
Proof.
  induction l as [|[t0 v0] rest IH]; intros d t v Hpos Hd.
  - cbn. ring.
  - inversion Hpos as [|? ? Ht Hpos']; subst. cbn [map fst snd] in *. rewrite !Rsum_cons in *.
    cbn [app]. destruct (rest ++ [(t, v)]) as [|p r] eqn:E; [destruct rest; discriminate|].
    rewrite step_int_cons, <- E. destruct (Rle_dec d t0) as [Hle|Hgt].
    + destruct rest as [|[t1 v1] rest].
      * cbn in *. replace d with t0 by lra. ring.
      * exfalso. inversion Hpos' as [|? ? Ht1 Hp1]; subst. cbn [map fst] in *. rewrite Rsum_cons in *.
        assert (0 <= Rsum (map fst rest)).
        { apply Rsum_nonneg. rewrite Forall_map. eapply Forall_impl; [|exact Hp1]. cbn; intros; lra. }
        lra.
    + rewrite IH; [ring|exact Hpos'|lra].
Qed.

(** ** The model's tables are these points. *)
Definition rel_depths (b : R) (ls : list layer) : Prop :=
  forall above l below, ls = above ++ l :: below -> l_depth l = b + total_thick above.
Lemma rel_depths_tail b l ls : rel_depths b (l :: ls) -> l_depth l = b /\ rel_depths (b + l_thick l) ls.
Proof.
  intros H. split.
  - rewrite (H [] l ls eq_refl). change (total_thick []) with 0. ring.
  - intros above x below E. rewrite (H (l :: above) x below) by (cbn; now rewrite E).
    rewrite total_thick_cons. ring.
Qed.

Lemma table_knots_to D bot ls : forall b acc x0,
  rel_depths b ls -> last_opt ls = Some bot ->
  combine (map l_depth ls ++ (if Rltb (l_depth bot) D then [D] else []))
    (cumsum_from acc (x0 :: map travel_time (removelast ls) ++
       (if Rltb (l_depth bot) D then [(D - l_depth bot) / shear_vel bot] else [])))
  = knots_to b (acc + x0) (slowness ls) D.
Proof.
  induction ls as [|l ls IH]; intros b acc x0 Hd Hl; [discriminate|].
  apply rel_depths_tail in Hd. destruct Hd as [Hd0 Hd].
  destruct ls as [|l' ls].
  - injection Hl as ->. cbn [map app removelast slowness knots_to cumsum_from combine].
    rewrite <- Hd0. f_equal.
    destruct (Rltb (l_depth bot) D); reflexivity.
  - change (last_opt (l :: l' :: ls)) with (last_opt (l' :: ls)) in Hl.
    change (removelast (l :: l' :: ls)) with (l :: removelast (l' :: ls)).
    change (knots_to b (acc + x0) (slowness (l :: l' :: ls)) D) with
      ((b, acc + x0) :: knots_to (b + l_thick l) (acc + x0 + travel_time l) (slowness (l' :: ls)) D).
    rewrite <- (IH (b + l_thick l) (acc + x0) (travel_time l) Hd Hl), <- Hd0. reflexivity.
Qed.

Lemma table_knots ls : forall b tau,
  rel_depths b ls ->
  combine (map l_depth ls) (tau :: removelast (cumsum_from tau (map (fun l => l_thick l / l_vs l) ls)))
  = knots b tau (initial_slowness ls).
Proof.
  induction ls as [|l ls IH]; intros b tau Hd; [reflexivity|].
  apply rel_depths_tail in Hd. destruct Hd as [Hd0 Hd].
  destruct ls as [|l' ls].
  - cbn. now rewrite Hd0.
  - change (knots b tau (initial_slowness (l :: l' :: ls))) with
      ((b, tau) :: knots (b + l_thick l) (tau + l_thick l / l_vs l) (initial_slowness (l' :: ls))).
    rewrite <- (IH (b + l_thick l) _ Hd), <- Hd0. reflexivity.
Qed.

(** Hypotheses of the averages: usual profiles. *)
Lemma slowness_pos ls :
  Forall (fun l => 0 < l_thick l) (removelast ls) ->
  Forall (fun p => 0 < fst p) (removelast (slowness ls)).
Proof.
  intros H. unfold slowness. rewrite <- map_removelast, Forall_map. exact H.
Qed.
Lemma initial_slowness_pos ls :
  Forall (fun l => 0 < l_thick l) (removelast ls) ->
  Forall (fun p => 0 < fst p) (removelast (initial_slowness ls)).
Proof.
  intros H. unfold initial_slowness. rewrite <- map_removelast, Forall_map. exact H.
Qed.

Lemma time_average_step ls d :
  ls <> [] -> depths_cumulative ls -> Forall (fun l => 0 < l_thick l) (removelast ls) -> 0 <= d ->
  time_average_vel ls d = Ok (d / step_int (slowness ls) d).
Proof.
  intros Hne Hd Hpos H0. unfold time_average_vel.
  destruct (last_opt ls) as [bot|] eqn:El; [|apply last_opt_none in El; contradiction].
  assert (Hr : rel_depths 0 ls) by (intros a l b E; rewrite (Hd a l b E); ring).
  pose proof (table_knots_to d bot ls 0 0 0 Hr El) as Hk.
  assert (Ht : combine (if Rltb (l_depth bot) d then map l_depth ls ++ [d] else map l_depth ls)
      (cumsum (if Rltb (l_depth bot) d
               then (0 :: map travel_time (removelast ls)) ++ [(d - l_depth bot) / shear_vel bot]
               else 0 :: map travel_time (removelast ls)))
      = knots_to 0 (0 + 0) (slowness ls) d).
  { rewrite <- Hk. unfold cumsum. destruct (Rltb (l_depth bot) d); [reflexivity|].
    now rewrite !app_nil_r. }
  rewrite Ht, interp_knots_to; [| |now apply slowness_pos|exact H0].
  - do 2 f_equal. replace (d - 0) with d by ring. ring.
  - unfold slowness. intros E. apply map_eq_nil in E. contradiction.
Qed.

Lemma slowness_nonneg ls :
  Forall (fun l => 0 <= l_thick l) ls -> Forall (fun p => 0 <= fst p) (slowness ls).
Proof. intros H. unfold slowness. now rewrite Forall_map. Qed.

Lemma time_average_bounds ls d vlo vhi r :
  ls <> [] -> depths_cumulative ls -> Forall (fun l => 0 < l_thick l) (removelast ls) ->
  (forall b, last_opt ls = Some b -> 0 <= l_thick b) -> 0 < d ->
  0 < vlo -> Forall (fun l => vlo <= shear_vel l <= vhi) ls ->
  time_average_vel ls d = Ok r -> vlo <= r <= vhi.
Proof.
  intros Hne Hd Hpos Hb H0 Hlo Hv.
  assert (Hnn : Forall (fun l => 0 <= l_thick l) ls).
  { destruct (last_opt ls) as [bot|] eqn:El; [|apply last_opt_none in El; contradiction].
    rewrite (last_opt_inv _ _ El). apply Forall_app. split.
    - eapply Forall_impl; [|exact Hpos]. cbn; intros; lra.
    - constructor; [now apply Hb|constructor]. }
  assert (Hhi : 0 < vhi).
  { destruct ls as [|l ls]; [contradiction|]. inversion Hv; subst. lra. }
  assert (Hs : Forall (fun p => / vhi <= snd p <= / vlo) (slowness ls)).
  { unfold slowness. rewrite Forall_map. eapply Forall_impl; [|exact Hv]. cbn. intros l [H1 H2].
    split; apply Rinv_le_contravar; lra. }
  assert (Hne' : slowness ls <> []) by (unfold slowness; intros E; apply map_eq_nil in E; contradiction).
  pose proof (step_int_bounds (slowness ls) (/ vhi) (/ vlo) d Hne' (slowness_nonneg _ Hnn) (Rlt_le _ _ H0) Hs) as [B1 B2].
  rewrite time_average_step by (auto; lra). intros E. injection E as <-.
  set (T := step_int (slowness ls) d) in *.
  assert (HT : 0 < T).
  { assert (0 < d * / vhi) by (apply Rmult_lt_0_compat; [lra|now apply Rinv_0_lt_compat]). lra. }
  split.
  - apply (Rmult_le_reg_r T); [exact HT|]. replace (d / T * T) with d by (field; lra).
    assert (vlo * T <= vlo * (d * / vlo)) by (apply Rmult_le_compat_l; lra).
    replace (vlo * (d * / vlo)) with d in * by (field; lra). lra.
  - apply (Rmult_le_reg_r T); [exact HT|]. replace (d / T * T) with d by (field; lra).
    assert (vhi * (d * / vhi) <= vhi * T) by (apply Rmult_le_compat_l; lra).
    replace (vhi * (d * / vhi)) with d in * by (field; lra). lra.
Qed.

Lemma total_thick_Rsum ls : total_thick ls = Rsum (map l_thick ls).
Proof. induction ls as [|l ls IH]; [reflexivity|]. rewrite total_thick_cons, IH. reflexivity. Qed.

Lemma vs30_deep ls :
  ls <> [] -> depths_cumulative ls -> Forall (fun l => 0 < l_thick l) (removelast ls) ->
  30 <= total_thick (removelast ls) ->
  vs30 ls = Ok (30 / step_int (initial_slowness ls) 30).
Proof.
  intros Hne Hd Hpos Hdeep. unfold vs30. destruct ls as [|l0 ls0] eqn:El; [contradiction|].
  rewrite <- El in *. clear El l0 ls0.
  assert (Hr : rel_depths 0 ls) by (intros a l b E; rewrite (Hd a l b E); ring).
  unfold cumsum. rewrite (table_knots ls 0 0 Hr).
  rewrite <- (knots_knots_to _ 0 0 30), interp_knots_to; [| |now apply initial_slowness_pos|lra|].
  - do 2 f_equal. replace (30 - 0) with 30 by ring. ring.
  - unfold initial_slowness. intros E. apply map_eq_nil in E. contradiction.
  - unfold initial_slowness. rewrite <- map_removelast, map_map. cbn [fst].
    rewrite <- total_thick_Rsum. lra.
Qed.

Lemma vs30_shallow ls :
  ls <> [] -> depths_cumulative ls -> Forall (fun l => 0 < l_thick l) (removelast ls) ->
  total_thick (removelast ls) <= 30 ->
  vs30 ls = Ok (30 / Rsum (map (fun l => l_thick l * / l_vs l) (removelast ls))).
Proof.
  intros Hne Hd Hpos Hdeep. unfold vs30. destruct ls as [|l0 ls0] eqn:El; [contradiction|].
  rewrite <- El in *. clear El l0 ls0.
  assert (Hr : rel_depths 0 ls) by (intros a l b E; rewrite (Hd a l b E); ring).
  unfold cumsum. rewrite (table_knots ls 0 0 Hr), interp_knots_deep; [| |now apply initial_slowness_pos|].
  - do 2 f_equal. unfold initial_slowness. rewrite <- map_removelast, map_map. cbn [fst snd]. ring.
  - unfold initial_slowness. intros E. apply map_eq_nil in E. contradiction.
  - unfold initial_slowness. rewrite <- map_removelast, map_map. cbn [fst].
    rewrite <- total_thick_Rsum. lra.
Qed.

Lemma vs30_overestimates ls r :
  ls <> [] -> depths_cumulative ls -> Forall (fun l => 0 < l_thick l) (removelast ls) ->
  Forall (fun l => 0 < l_vs l) ls -> 0 < total_thick (removelast ls) < 30 ->
  vs30 ls = Ok r -> 30 / step_int (initial_slowness ls) 30 < r.
Proof.
  intros Hne Hd Hpos Hv Hdeep. rewrite vs30_shallow by (auto; lra). intros E. injection E as <-.
  destruct (last_opt ls) as [bot|] eqn:El; [|apply last_opt_none in El; contradiction].
  pose proof (last_opt_inv _ _ El) as Hinv.
  assert (Hi : initial_slowness ls = initial_slowness (removelast ls) ++ [(l_thick bot, / l_vs bot)]).
  { rewrite Hinv at 1. unfold initial_slowness. now rewrite map_app. }
  rewrite Hi, step_int_deep.
  2:{ unfold initial_slowness. now rewrite Forall_map. }
  2:{ unfold initial_slowness. rewrite map_map. cbn [fst]. rewrite <- total_thick_Rsum. lra. }
  unfold initial_slowness. rewrite !map_map. cbn [fst snd]. rewrite <- total_thick_Rsum.
  set (T := Rsum _). set (H := total_thick (removelast ls)) in *.
  assert (Hb : 0 < / l_vs bot).
  { apply Rinv_0_lt_compat. rewrite Hinv in Hv. apply Forall_app in Hv. destruct Hv as [_ Hv].
    inversion Hv; subst; assumption. }
  assert (HT : 0 < T).
  { assert (Hvs : Forall (fun l => 0 < l_vs l) (removelast ls)).
    { rewrite Hinv in Hv. apply Forall_app in Hv. apply Hv. }
    unfold T, H in *. clear - Hdeep Hpos Hvs. destruct (removelast ls) as [|l rest].
    - change (total_thick []) with 0 in Hdeep. lra.
    - cbn [map]. rewrite Rsum_cons. inversion Hpos as [|? ? Ht Hp]; subst.
      inversion Hvs as [|? ? Hvl Hvr]; subst.
      assert (0 < l_thick l * / l_vs l) by (apply Rmult_lt_0_compat; [lra|now apply Rinv_0_lt_compat]).
      assert (0 <= Rsum (map (fun l => l_thick l * / l_vs l) rest)); [|lra].
      apply Rsum_nonneg. rewrite Forall_map. apply Forall_forall. intros x Hx.
      rewrite Forall_forall in Hp, Hvr. specialize (Hp x Hx). specialize (Hvr x Hx).
      apply Rmult_le_pos; [lra|]. apply Rlt_le. now apply Rinv_0_lt_compat. }
  assert (0 < (30 - H) * / l_vs bot) by (apply Rmult_lt_0_compat; lra).
  unfold Rdiv. apply Rmult_lt_compat_l; [lra|]. apply Rinv_lt_contravar; [|lra].
  apply Rmult_lt_0_compat; lra.
Qed.

(** ** Simplified Rayleigh velocity *)
Lemma cumsum_from_shift a xs : cumsum_from a xs = map (Rplus a) (cumsum_from 0 xs).
Proof.
  revert a; induction xs as [|x xs IH]; intros a; [reflexivity|]. cbn [cumsum_from map].
  f_equal; [ring|]. rewrite IH, (IH (0 + x)), map_map. apply map_ext. intros; ring.
Qed.
Lemma cumsum_rev_cons x xs : cumsum_rev (x :: xs) = (Rsum xs + x) :: cumsum_rev xs.
Proof.
  unfold cumsum_rev, cumsum. cbn [rev]. rewrite cumsum_from_app.
  rewrite rev_app_distr. cbn [cumsum_from rev app]. f_equal.
  rewrite <- (Rsum_perm (rev xs) xs); [ring|]. apply Permutation.Permutation_sym, Permutation.Permutation_rev.
Qed.

Definition incr (l : layer) : R := depth_mid l * l_thick l / l_vs l ^ 2.
Lemma mode_shape_spec ls :
  snd (mode_shape ls) = cumsum_rev (map incr ls) ++ [0] /\ fst (mode_shape ls) = Rsum (map incr ls).
Proof.
  induction ls as [|l ls [IH1 IH2]]; [split; reflexivity|].
  cbn [mode_shape]. destruct (mode_shape ls) as [x sh]. cbn [fst snd] in *. subst x sh.
  assert (E : (l_depth l + l_thick l / 2) * l_thick l / (l_vs l * l_vs l) = incr l).
  { unfold incr, depth_mid. f_equal. now rewrite <- (Rmult_1_r (l_vs l)) at 2. }
  rewrite E. cbn [map]. rewrite cumsum_rev_cons, Rsum_cons. split; [reflexivity|ring].
Qed.

Lemma pair_sums_cons a b rest : pair_sums (a :: b :: rest) = (a + b) :: pair_sums (b :: rest).
Proof. reflexivity. Qed.
Lemma shape_head ls : exists r, cumsum_rev (map incr ls) ++ [0] = fst (mode_shape ls) :: r.
Proof.
  destruct (mode_shape_spec ls) as [_ E]. rewrite E.
  destruct ls as [|l ls]; [exists []; reflexivity|].
  cbn [map]. rewrite cumsum_rev_cons, Rsum_cons. eexists. cbn [app]. f_equal. ring.
Qed.
Lemma mode_shape_cons l ls : fst (mode_shape (l :: ls)) = fst (mode_shape ls) + incr l.
Proof.
  destruct (mode_shape_spec (l :: ls)) as [_ ->]. destruct (mode_shape_spec ls) as [_ ->].
  cbn [map]. rewrite Rsum_cons. ring.
Qed.
Lemma shape_energy_spec ls :
  Rsum (map2 (fun t s => t * s ^ 2) (map l_thick ls) (pair_sums (cumsum_rev (map incr ls) ++ [0])))
  = shape_energy ls.
Proof.
  induction ls as [|l ls IH]; [reflexivity|].
  cbn [map]. rewrite cumsum_rev_cons. cbn [app].
  destruct (shape_head ls) as [r Hr]. rewrite Hr in *.
  rewrite pair_sums_cons. unfold map2 in *. cbn [combine map]. rewrite Rsum_cons, IH.
  cbn [fst snd shape_energy]. rewrite mode_shape_cons. destruct (mode_shape_spec ls) as [_ ->].
  ring.
Qed.
Lemma strain_energy_spec ls :
  Forall (fun l => l_vs l <> 0) ls ->
  Rsum (map (fun l => l_thick l * depth_mid l ^ 2 / l_vs l ^ 2) ls) = strain_energy ls.
Proof.
  induction 1 as [|l ls Hl _ IH]; [reflexivity|].
  cbn [map strain_energy]. rewrite Rsum_cons, IH. f_equal. unfold depth_mid. field. exact Hl.
Qed.

Lemma rayleigh_formula ls :
  Forall (fun l => 0 < l_vs l) ls ->
  simplified_rayleigh_vel ls =
  4 * total_thick ls / (2 * PI / sqrt (4 * strain_energy ls / shape_energy ls)).
Proof.
  intros Hv. unfold simplified_rayleigh_vel.
  change (map (fun l => depth_mid l * l_thick l / l_vs l ^ 2) ls) with (map incr ls).
  rewrite shape_energy_spec, strain_energy_spec, <- total_thick_Rsum; [reflexivity|].
  eapply Forall_impl; [|exact Hv]. cbn; intros; lra.
Qed.

Definition scale_vs (c : R) (l : layer) : layer := set_initial_vs l (c * l_vs l).

Lemma mode_shape_nonneg ls :
  Forall (fun l => 0 < l_vs l /\ 0 <= l_thick l /\ 0 <= l_depth l) ls -> 0 <= fst (mode_shape ls).
Proof.
  induction 1 as [|l ls (H1 & H2 & H3) _ IH]; [cbn; lra|].
  rewrite mode_shape_cons. unfold incr, depth_mid.
  assert (0 <= (l_depth l + l_thick l / 2) * l_thick l / l_vs l ^ 2); [|lra].
  apply Rmult_le_pos; [apply Rmult_le_pos; lra|]. apply Rlt_le, Rinv_0_lt_compat, pow_lt, H1.
Qed.

Lemma energies_pos ls :
  Forall (fun l => 0 < l_vs l /\ 0 <= l_thick l /\ 0 <= l_depth l) ls ->
  0 < total_thick ls -> 0 < strain_energy ls /\ 0 < shape_energy ls.
Proof.
  induction 1 as [|l ls (H1 & H2 & H3) HF IH]; intros Ht.
  - change (total_thick []) with 0 in Ht. lra.
  - rewrite total_thick_cons in Ht. cbn [strain_energy shape_energy]. rewrite mode_shape_cons.
    pose proof (mode_shape_nonneg _ HF) as Hm.
    assert (Hnn : 0 <= strain_energy ls /\ 0 <= shape_energy ls).
    { clear - HF. induction HF as [|x ls (K1 & K2 & K3) HF' [IH1 IH2]]; [cbn; lra|].
      cbn [strain_energy shape_energy]. split.
      - assert (0 <= l_thick x * ((l_depth x + l_thick x / 2) / l_vs x) ^ 2) by
          (apply Rmult_le_pos; [lra|apply pow2_ge_0]). lra.
      - assert (0 <= l_thick x * (fst (mode_shape (x :: ls)) + fst (mode_shape ls)) ^ 2) by
          (apply Rmult_le_pos; [lra|apply pow2_ge_0]). lra. }
    destruct (Req_dec (l_thick l) 0) as [E|E].
    + rewrite E, !Rmult_0_l, !Rplus_0_l. apply IH. lra.
    + assert (Hp : 0 < l_thick l) by lra.
      assert (Hdm : 0 < l_depth l + l_thick l / 2) by lra.
      assert (Hi : 0 < incr l).
      { unfold incr, depth_mid. apply Rdiv_lt_0_compat; [apply Rmult_lt_0_compat; lra|now apply pow_lt]. }
      split.
      * assert (0 < l_thick l * ((l_depth l + l_thick l / 2) / l_vs l) ^ 2); [|lra].
        apply Rmult_lt_0_compat; [lra|]. apply pow_lt. apply Rdiv_lt_0_compat; lra.
      * assert (0 < l_thick l * (fst (mode_shape ls) + incr l + fst (mode_shape ls)) ^ 2); [|lra].
        apply Rmult_lt_0_compat; [lra|]. apply pow_lt. lra.
Qed.

Lemma scale_thick c ls : total_thick (map (scale_vs c) ls) = total_thick ls.
Proof. induction ls as [|l ls IH]; [reflexivity|]. cbn [map]. rewrite !total_thick_cons, IH. reflexivity. Qed.
Lemma scale_energies c ls :
  0 < c -> Forall (fun l => 0 < l_vs l) ls ->
  fst (mode_shape (map (scale_vs c) ls)) = fst (mode_shape ls) / c ^ 2 /\
  strain_energy (map (scale_vs c) ls) = strain_energy ls / c ^ 2 /\
  shape_energy (map (scale_vs c) ls) = shape_energy ls / c ^ 4.
Proof.
  intros Hc. induction 1 as [|l ls Hl _ (IH1 & IH2 & IH3)].
  - cbn [map mode_shape strain_energy shape_energy fst]. repeat split; field; lra.
  - cbn [map strain_energy shape_energy]. rewrite !mode_shape_cons, IH1, IH2, IH3.
    unfold incr, depth_mid. cbn [l_thick l_depth l_vs scale_vs set_initial_vs layer_reset].
    repeat split; field; lra.
Qed.

Lemma rayleigh_scale c ls :
  0 < c -> Forall (fun l => 0 < l_vs l /\ 0 <= l_thick l /\ 0 <= l_depth l) ls ->
  0 < total_thick ls ->
  simplified_rayleigh_vel (map (scale_vs c) ls) = c * simplified_rayleigh_vel ls /\
  0 < simplified_rayleigh_vel ls.
Proof.
  intros Hc HF Ht.
  assert (Hv : Forall (fun l => 0 < l_vs l) ls) by (eapply Forall_impl; [|exact HF]; cbn; tauto).
  assert (Hv' : Forall (fun l => 0 < l_vs l) (map (scale_vs c) ls)).
  { rewrite Forall_map. eapply Forall_impl; [|exact Hv]. cbn. intros; apply Rmult_lt_0_compat; lra. }
  destruct (energies_pos ls HF Ht) as [E1 E2].
  destruct (scale_energies c ls Hc Hv) as (_ & S1 & S2).
  rewrite !rayleigh_formula by assumption. rewrite S1, S2, scale_thick.
  set (a := strain_energy ls) in *. set (b := shape_energy ls) in *.
  replace (4 * (a / c ^ 2) / (b / c ^ 4)) with (c ^ 2 * (4 * a / b)) by (field; lra).
  assert (Hab : 0 < 4 * a / b) by (apply Rdiv_lt_0_compat; lra).
  rewrite sqrt_mult by (try lra; apply pow2_ge_0). rewrite sqrt_pow2 by lra.
  pose proof (sqrt_lt_R0 _ Hab) as Hs. set (f := sqrt (4 * a / b)) in *.
  pose proof PI_RGT_0 as Hpi. split.
  - field. repeat split; lra.
  - apply Rdiv_lt_0_compat; [lra|]. apply Rdiv_lt_0_compat; lra.
Qed.

(** Scaling of the time-averaged velocity (freshly built layers). *)
Lemma shear_vel_scale c l :
  0 < c -> 0 < s_unit_wt (l_soil l) -> 0 <= l_vs l -> shear_mod l = initial_shear_mod l ->
  shear_vel (scale_vs c l) = c * shear_vel l.
Proof.
  intros Hc Hu Hv HG.
  assert (Hd : 0 < density (l_soil l)) by (unfold density, GRAVITY; apply Rdiv_lt_0_compat; lra).
  assert (Hx : forall v, 0 <= v -> sqrt (density (l_soil l) * v ^ 2 / density (l_soil l)) = v).
  { intros v H0. replace (density (l_soil l) * v ^ 2 / density (l_soil l)) with (v * v) by (field; lra).
    now apply sqrt_square. }
  unfold shear_vel. rewrite HG. unfold initial_shear_mod. rewrite (Hx (l_vs l)) by exact Hv.
  transitivity (sqrt (density (l_soil l) * (c * l_vs l) ^ 2 / density (l_soil l))); [reflexivity|].
  apply Hx. apply Rmult_le_pos; lra.
Qed.

Lemma depths_scale c ls : depths_cumulative ls -> depths_cumulative (map (scale_vs c) ls).
Proof.
  intros H above l below E. apply map_eq_app in E. destruct E as (a1 & r & -> & <- & E).
  destruct r as [|x r]; [discriminate|]. injection E as <- <-.
  rewrite scale_thick. exact (H a1 x r eq_refl).
Qed.

Lemma time_average_scale c ls d :
  0 < c -> ls <> [] -> depths_cumulative ls -> Forall (fun l => 0 < l_thick l) (removelast ls) ->
  Forall (fun l => 0 < s_unit_wt (l_soil l) /\ 0 < l_vs l /\ shear_mod l = initial_shear_mod l) ls ->
  (forall b, last_opt ls = Some b -> 0 <= l_thick b) -> 0 < d ->
  exists r, time_average_vel ls d = Ok r /\ time_average_vel (map (scale_vs c) ls) d = Ok (c * r).
Proof.
  intros Hc Hne Hd Hpos HF Hb H0.
  rewrite (time_average_step ls) by (auto; lra).
  rewrite (time_average_step (map (scale_vs c) ls)).
  2:{ intros E. apply map_eq_nil in E. contradiction. }
  2:{ now apply depths_scale. }
  2:{ rewrite <- map_removelast, Forall_map. exact Hpos. }
  2:{ lra. }
  eexists; split; [reflexivity|]. f_equal.
  assert (Hs : slowness (map (scale_vs c) ls) = map (fun p => (fst p, / c * snd p)) (slowness ls)).
  { unfold slowness. rewrite !map_map. apply map_ext_in. intros l Hl. cbn [fst snd].
    rewrite Forall_forall in HF. destruct (HF l Hl) as (F1 & F2 & F3).
    rewrite (shear_vel_scale c l) by (auto; lra). f_equal.
    rewrite Rinv_mult. ring. }
  rewrite Hs, step_int_scal.
  assert (HT : 0 < step_int (slowness ls) d).
  { assert (Hnn : Forall (fun p => 0 <= fst p) (slowness ls)).
    { apply slowness_nonneg. destruct (last_opt ls) as [bot|] eqn:El; [|apply last_opt_none in El; contradiction].
      rewrite (last_opt_inv _ _ El). apply Forall_app. split.
      - eapply Forall_impl; [|exact Hpos]. cbn; intros; lra.
      - constructor; [now apply Hb|constructor]. }
    assert (Hvp : Forall (fun p => 0 < snd p) (slowness ls)).
    { unfold slowness. rewrite Forall_map. eapply Forall_impl; [|exact HF]. cbn.
      intros l (F1 & F2 & F3). apply Rinv_0_lt_compat. unfold shear_vel. rewrite F3.
      apply sqrt_lt_R0. unfold initial_shear_mod.
      assert (0 < density (l_soil l)) by (unfold density, GRAVITY; apply Rdiv_lt_0_compat; lra).
      replace (density (l_soil l) * l_vs l ^ 2 / density (l_soil l)) with (l_vs l ^ 2) by (field; lra).
      now apply pow_lt. }
    assert (Hne' : slowness ls <> []) by (unfold slowness; intros E; apply map_eq_nil in E; contradiction).
    clear - Hnn Hvp Hne' H0. revert d H0. induction (slowness ls) as [|[t v] rest IH]; intros d H0; [contradiction|].
    inversion Hnn as [|? ? Ht Hnn']; inversion Hvp as [|? ? Hv Hvp']; subst. cbn [fst snd] in *.
    destruct rest as [|p rest]; [cbn; apply Rmult_lt_0_compat; lra|].
    rewrite step_int_cons. destruct (Rle_dec d t); [apply Rmult_lt_0_compat; lra|].
    assert (0 <= t * v) by (apply Rmult_le_pos; lra).
    assert (0 < step_int (p :: rest) (d - t)) by (apply IH; [exact Hnn'|exact Hvp'|discriminate|lra]). lra. }
  field. split; lra.
Qed.
