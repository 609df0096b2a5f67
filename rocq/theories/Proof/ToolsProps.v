(** Properties C57, C59, C69: mean stress helper, data frames, nrattle profiles. *)
From Coq Require Import String.
From Verif Require Import Common Model.Curve Model.Layer Model.Profile Model.Tools
  Spec.ProfileSpec Spec.ToolsSpec Proof.CommonFacts Proof.LayerFacts Proof.ProfileFacts Proof.ProfileOps Proof.AdjustProps.
Local Open Scope R_scope.

(** ** C57 *)

Lemma diff_zero_thick ls hs : forall above, depths_cumulative (above ++ ls ++ [hs]) -> l_thick hs = 0 ->
  diff_zero (map l_depth (ls ++ [hs])) = map l_thick (ls ++ [hs]).
Proof.
  induction ls as [|l ls IH]; intros above D Z; [cbn; now rewrite Z|].
  cbn [app map]. destruct (ls ++ [hs]) as [|l' r] eqn:E; [destruct ls; discriminate|].
  specialize (IH (above ++ [l])). rewrite <- app_assoc in IH. cbn [app] in IH, D. rewrite E in D. specialize (IH D Z).
  cbn [map] in *. change (diff_zero (l_depth l :: l_depth l' :: map l_depth r)) with ((l_depth l' - l_depth l) :: diff_zero (l_depth l' :: map l_depth r)).
  rewrite IH. f_equal. exact (depth_step _ above l l' r D eq_refl).
Qed.
Lemma total_weight_app a b : total_weight (a ++ b) = total_weight a + total_weight b.
Proof.
  induction a as [|x a IH]; [cbn [app]; change (total_weight []) with 0; lra|]. cbn [app].
  change (total_weight (x :: a ++ b)) with (s_unit_wt (l_soil x) * l_thick x + total_weight (a ++ b)).
  change (total_weight (x :: a)) with (s_unit_wt (l_soil x) * l_thick x + total_weight a). lra.
Qed.
Lemma stress_mid ls : forall above, stresses_cumulative (above ++ ls) ->
  let incr := map (fun l => s_unit_wt (l_soil l) * l_thick l) ls in
  map (fun ci => fst ci - snd ci / 2) (combine (cumsum_from (total_weight above) incr) incr) =
  map (fun l => l_svert l + l_thick l / 2 * s_unit_wt (l_soil l)) ls.
Proof.
  induction ls as [|l ls IH]; intros above D; [reflexivity|]. cbn [map cumsum_from combine fst snd]. f_equal.
  - rewrite (D above l ls eq_refl). field.
  - specialize (IH (above ++ [l])). rewrite <- app_assoc in IH. specialize (IH D). rewrite total_weight_app in IH.
    replace (total_weight [l]) with (s_unit_wt (l_soil l) * l_thick l) in IH by (unfold total_weight; cbn; ring). exact IH.
Qed.

(** The stress computed by the helper, layer by layer. *)
Lemma mean_stress_value ls hs wt k0 : depths_cumulative (ls ++ [hs]) -> stresses_cumulative (ls ++ [hs]) -> l_thick hs = 0 ->
  calc_mean_eff_stress (map l_depth (ls ++ [hs])) (map (fun l => s_unit_wt (l_soil l)) (ls ++ [hs])) wt k0 =
  Ok (map (fun l => (l_svert l + l_thick l / 2 * s_unit_wt (l_soil l) - Rmax 0 (9.81 * (l_depth l + l_thick l / 2 - wt))) * (1 + 2 * k0) / 3) (ls ++ [hs])).
Proof.
  intros D S Z. unfold calc_mean_eff_stress, mean_thicknesses. rewrite (diff_zero_thick ls hs [] D Z).
  destruct (map l_depth (ls ++ [hs])) as [|d0 ds] eqn:E; [destruct ls; discriminate|]. rewrite <- E, !map_length, Nat.eqb_refl. clear E.
  f_equal. pose proof (stress_mid (ls ++ [hs]) [] S) as M. cbv zeta in M. change (total_weight []) with 0 in M.
  fold (cumsum (map (fun l => s_unit_wt (l_soil l) * l_thick l) (ls ++ [hs]))) in M.
  assert (I : map (fun ut => fst ut * snd ut) (combine (map (fun l => s_unit_wt (l_soil l)) (ls ++ [hs])) (map l_thick (ls ++ [hs]))) =
              map (fun l => s_unit_wt (l_soil l) * l_thick l) (ls ++ [hs])).
  { generalize (ls ++ [hs]) as xs. induction xs as [|x xs IH]; [reflexivity|]. cbn. now rewrite IH. }
  rewrite I, M. generalize (ls ++ [hs]) as xs. clear. induction xs as [|x xs IH]; [reflexivity|]. cbn [map combine fst snd]. now rewrite IH.
Qed.
(** Against the mean stress reported by the layers of a profile. *)
Lemma mean_stress_profile w p k0 ls hs : view w p = ls ++ [hs] -> depths_cumulative (view w p) -> stresses_cumulative (view w p) ->
  l_thick hs = 0 -> Forall (fun l => 0 <= l_thick l /\ l_prof l = Some p) (view w p) ->
  exists ms, calc_mean_eff_stress (map l_depth (view w p)) (map (fun l => s_unit_wt (l_soil l)) (view w p)) (p_wt (w_profs w p)) k0 = Ok ms /\
    Forall2 (fun a m => exists s, stress_mean w a (l_thick (w_heap w a) / 2) true k0 = Ok s /\
      m - s = (GRAVITY - 9.81) * Rmax (l_depth (w_heap w a) + l_thick (w_heap w a) / 2 - p_wt (w_profs w p)) 0 * (1 + 2 * k0) / 3)
      (layers_of w p) ms.
Proof.
  intros E D S Z F. rewrite E in *. rewrite (mean_stress_value ls hs _ k0 D S Z). eexists. split; [reflexivity|].
  rewrite <- E in *. unfold view in *. clear E D S. induction (layers_of w p) as [|a addrs IH]; [constructor|].
  cbn [map] in *. pose proof (Forall_inv F) as [Ht Hp]. constructor; [|apply IH; now apply Forall_inv_tail in F].
  unfold stress_mean, stress_vert, stress_vert_total. destruct (Rleb _ _) eqn:Q; [|apply Rleb_false in Q; lra].
  cbn [bind]. rewrite Hp. cbn [bind]. eexists. split; [reflexivity|]. unfold pore_pressure.
  set (y := l_depth (w_heap w a) + l_thick (w_heap w a) / 2 - p_wt (w_profs w p)).
  replace (Rmax 0 (9.81 * y)) with (9.81 * Rmax y 0).
  - field.
  - unfold Rmax. destruct (Rle_dec y 0), (Rle_dec 0 (9.81 * y)); lra.
Qed.
(** Hence equal only where there is no water. *)
Lemma mean_stress_differs x k0 : 0 < x -> 0 <= k0 -> (GRAVITY - 9.81) * Rmax x 0 * (1 + 2 * k0) / 3 < 0.
Proof.
  intros Hx Hk. rewrite Rmax_left by lra. unfold GRAVITY.
  assert (0 < x * (1 + 2 * k0)) by (apply Rmult_lt_0_compat; lra). nra.
Qed.

(** ** C69 *)

Lemma nr_damping_q q : 1 < q -> nr_damping q = 1 / (2 * q).
Proof.
  intros H. unfold nr_damping. destruct (isclose q 0) eqn:I.
  - exfalso. unfold isclose in I. apply Rleb_true in I. rewrite Rminus_0_r, Rabs_R0, Rabs_pos_eq in I by lra. lra.
  - destruct (Rltb 1 q) eqn:L; [|apply Rltb_false in L; lra]. replace 0.5 with (/ 2) by lra. field. lra.
Qed.
Lemma nr_damping_iq q : 1 <= q <= 1e8 - 1 -> nr_damping (1 / q) = 1 / (2 * q).
Proof.
  intros H. assert (P : 1e-8 < 1 / q <= 1).
  { split.
    - apply Rmult_lt_reg_r with q; [lra|]. replace (1 / q * q) with 1 by (field; lra). lra.
    - apply Rmult_le_reg_r with q; [lra|]. replace (1 / q * q) with 1 by (field; lra). lra. }
  unfold nr_damping. destruct (isclose (1 / q) 0) eqn:I.
  - exfalso. unfold isclose in I. apply Rleb_true in I. rewrite Rminus_0_r, Rabs_R0, Rabs_pos_eq in I by lra. lra.
  - destruct (Rltb 1 (1 / q)) eqn:L; [apply Rltb_true in L; lra|]. replace 0.5 with (/ 2) by lra. field. lra.
Qed.
Lemma nr_damping_zero q : Rabs q <= 1e-8 -> nr_damping q = 0.
Proof.
  intros H. unfold nr_damping. destruct (isclose q 0) eqn:I; [reflexivity|].
  exfalso. unfold isclose in I. apply Rleb_false in I. rewrite Rminus_0_r, Rabs_R0 in I. lra.
Qed.
(** Numbers 1 to n: the half-space comes last. *)
Lemma nr_rows_numbered rs v d : map nr_num rs = map Z.of_nat (seq 1 (length rs)) ->
  nr_rows rs v d = rs ++ [mkNr (Z.of_nat (length rs) + 1) 0 v d 0].
Proof.
  intros H. unfold nr_rows, nr_set. destruct (existsb _ rs) eqn:E; [|reflexivity]. exfalso.
  apply existsb_exists in E as (x & Hx & Q). cbn [nr_num] in Q. apply Z.eqb_eq in Q.
  assert (I : In (nr_num x) (map nr_num rs)) by now apply in_map. rewrite H in I. apply in_map_iff in I as (k & K1 & K2).
  apply in_seq in K2. lia.
Qed.

(** The profile that is built: kilometres become metres, and the half-space has no thickness. *)
Lemma nr_profile_layers w rs v d : map nr_num rs = map Z.of_nat (seq 1 (length rs)) ->
  Forall2 (fun r l => l_thick l = 1000 * nr_thick r /\ l_vs l = 1000 * nr_vs r /\ s_unit_wt (l_soil l) = GRAVITY * nr_density r /\
     l_dmin l = nr_damping (nr_iq r) /\ s_damp (l_soil l) = DConst (nr_damping (nr_iq r)) /\ s_mod (l_soil l) = None)
    (rs ++ [mkNr (Z.of_nat (length rs) + 1) 0 v d 0])
    (view (fst (profile_from_nrattle w rs v d)) (snd (profile_from_nrattle w rs v d))).
Proof.
  intros H. unfold profile_from_nrattle. rewrite (nr_rows_numbered rs v d H). set (all := rs ++ _). clearbody all.
  pose proof (alloc_raw (map nr_make all) w) as A. destruct (alloc_layers w (map nr_make all)) as [w1 addrs]. cbn [fst snd] in A.
  destruct A as (_ & C & _). pose proof (new_profile_frame w1 addrs 0) as N. destruct (new_profile w1 addrs 0) as [w2 q]. cbn [fst snd] in *.
  destruct N as (_ & N2 & _ & _ & N5 & _). unfold view. rewrite N2. clear N2.
  revert all C. induction addrs as [|a addrs IH]; intros [|r all] C; try discriminate; [constructor|].
  cbn [map] in *. injection C as C1 C2. constructor; [|now apply IH].
  destruct (N5 a) as (P1 & P2 & P3 & P4 & _). rewrite <- P1, <- P2, <- P3, <- P4, C1. unfold nr_make, nr_soil. cbn. repeat split; ring.
Qed.
(** A control file that already has a layer numbered one past the count loses that layer. *)
Lemma nr_rows_replaced rs v d x : In x rs -> nr_num x = (Z.of_nat (length rs) + 1)%Z -> x <> mkNr (nr_num x) 0 v d 0 ->
  length (nr_rows rs v d) = length rs /\ ~ In x (nr_rows rs v d).
Proof.
  intros Hx Hn Nx. unfold nr_rows, nr_set. set (r := mkNr _ 0 v d 0).
  destruct (existsb _ rs) eqn:E.
  - rewrite map_length. split; [reflexivity|].
    intros I. apply in_map_iff in I as (y & Ey & Iy). destruct (nr_num y =? nr_num r)%Z eqn:Q.
    + apply Nx. rewrite Hn. now symmetry.
    + subst y. apply Z.eqb_neq in Q. apply Q. exact Hn.
  - exfalso. assert (T : existsb (fun y => (nr_num y =? nr_num r)%Z) rs = true); [|congruence].
    apply existsb_exists. exists x. split; [exact Hx|]. apply Z.eqb_eq. exact Hn.
Qed.

(** ** C59 *)

(** The table written by [to_dataframe] lacks the column read by [from_dataframe]. *)
Lemma dataframe_fails l ls : from_dataframe (to_dataframe (l :: ls)) = Err KeyError.
Proof.
  unfold to_dataframe. cbn [map depth_column combine fst snd]. unfold from_dataframe. cbn [map_res].
  assert (E : forall c, row_layer (layer_row l ++ [("depth"%string, c)]) = Err KeyError).
  { intros c. unfold row_layer, need_damping, need_num, layer_row. cbn. destruct (s_damp (l_soil l)); reflexivity. }
  rewrite E. reflexivity.
Qed.
(** With the column renamed. *)
Lemma combine_map_fst {A B C} (f : A -> C) (g : C -> B -> C) (xs : list A) (ys : list B) : length ys = length xs ->
  Forall2 (fun x z => exists y, z = g (f x) y) xs (map (fun rd => g (fst rd) (snd rd)) (combine (map f xs) ys)).
Proof.
  revert ys. induction xs as [|x xs IH]; intros [|y ys] E; try discriminate; cbn; constructor; eauto.
Qed.
Lemma cumsum_length acc xs : length (cumsum_from acc xs) = length xs.
Proof. revert acc. induction xs as [|x xs IH]; intros acc; [reflexivity|]. cbn. now rewrite IH. Qed.
Lemma depth_column_length xs : xs <> [] -> length (depth_column xs) = length xs.
Proof.
  intros H. unfold depth_column. cbn [length]. rewrite removelast_firstn_len, firstn_length.
  unfold cumsum. rewrite cumsum_length. destruct xs; [congruence|]. cbn [length]. lia.
Qed.
Lemma dataframe_renamed ls rows : Forall (fun l => exists d, s_damp (l_soil l) = DConst d) ls ->
  rows = map (rename_col "shear_vel" "vel_shear") (to_dataframe ls) -> ls <> [] ->
  exists ls', from_dataframe rows = Ok ls' /\
    Forall2 (fun l l' => l_thick l' = l_thick l /\ l_vs l' = shear_vel l /\ s_unit_wt (l_soil l') = s_unit_wt (l_soil l) /\
       s_damp (l_soil l') = s_damp (l_soil l) /\ DConst (l_dmin l') = s_damp (l_soil l) /\ s_name (l_soil l') = EmptyString) ls ls'.
Proof.
  intros F -> N. unfold to_dataframe.
  pose proof (combine_map_fst layer_row (fun r d => (r ++ [("depth"%string, CNum d)])%list) ls (depth_column (map l_thick ls))) as C.
  rewrite depth_column_length, map_length in C by (destruct ls; [congruence|discriminate]). specialize (C eq_refl).
  set (rows := map _ (combine _ _)) in *. clearbody rows. clear N.
  induction C as [|l r ls rows (d & ->) _ IH]; [exists []; split; [reflexivity|constructor]|].
  pose proof (Forall_inv F) as (x & Hx). apply Forall_inv_tail in F. destruct (IH F) as (ls' & E & G).
  unfold from_dataframe in *. cbn [map map_res]. rewrite E.
  unfold row_layer, need_damping, need_num, layer_row, rename_col. rewrite Hx. cbn.
  eexists. split; [reflexivity|]. constructor; [|exact G]. rewrite Hx. cbn. repeat split.
Qed.

(** The depth column. *)
Lemma depth_column_from ls l : forall above, depths_cumulative (above ++ l :: ls) ->
  total_thick above :: removelast (cumsum_from (total_thick above) (map l_thick (l :: ls))) = map l_depth (l :: ls).
Proof.
  revert l. induction ls as [|l' ls IH]; intros l above D.
  - cbn. now rewrite (D above l [] eq_refl).
  - cbn [map cumsum_from]. rewrite (D above l (l' :: ls) eq_refl). f_equal.
    specialize (IH l' (above ++ [l])). rewrite <- app_assoc in IH. specialize (IH D). rewrite total_thick_app in IH.
    replace (total_thick [l]) with (l_thick l) in IH by (unfold total_thick; cbn; ring).
    cbn [map] in IH. rewrite <- IH. cbn [cumsum_from]. destruct (cumsum_from (total_thick above + l_thick l + l_thick l') (map l_thick ls)); reflexivity.
Qed.
Lemma depth_column_depths ls : ls <> [] -> depths_cumulative ls -> depth_column (map l_thick ls) = map l_depth ls.
Proof.
  intros N D. destruct ls as [|l ls]; [congruence|]. exact (depth_column_from ls l [] D).
Qed.
