(** Properties C18, C57, C59, C69 and C89: damping adjustment, mean stress, tables and nrattle profiles. *)
From Coq Require Import String.
From Verif Require Import Common Model.Curve Model.Layer Model.Profile Model.Tools Spec.ProfileSpec Spec.ToolsSpec Proof.CommonFacts
  Proof.AdjustProps Proof.ToolsProps Proof.VariationEx.
Local Open Scope R_scope.

(** No scattering, and the example profile adjusted to 20 ms. *)
Definition no_scatter (ls : list layer) : res (option R) := Ok (Some 0).
Lemma ex_adjusted : exists w', adjust_damping no_scatter ex_w 0 0.02 ExNone true = (w', Ok (Some (0%nat, 0))).
Proof.
  apply adjust_succeeds; [reflexivity| | |]; rewrite ex_view; cbn -[pow]; [lra| |].
  - repeat (apply Forall_cons; [cbn; lra|]). apply Forall_nil.
  - apply Rgt_not_eq. lra.
Qed.
Lemma ex_adjusted_sand : exists w', adjust_damping no_scatter ex_w 0 0.02 (ExCall (fun l => Rltb (l_vs l) 300)) true = (w', Ok (Some (0%nat, 0))).
Proof.
  assert (E0 : Rltb 200 300 = true) by (unfold Rltb; destruct (Rlt_dec 200 300); [reflexivity|lra]).
  assert (E1 : Rltb 400 300 = false) by (unfold Rltb; destruct (Rlt_dec 400 300); [lra|reflexivity]).
  assert (E2 : Rltb 800 300 = false) by (unfold Rltb; destruct (Rlt_dec 800 300); [lra|reflexivity]).
  apply adjust_succeeds; [reflexivity| | |]; rewrite ex_view; cbn -[pow Rltb]; rewrite ?E0, ?E1, ?E2; cbn -[pow Rltb]; [lra| |].
  - repeat (apply Forall_cons; [cbn; lra|]). apply Forall_nil.
  - apply Rgt_not_eq. lra.
Qed.

(** C18: when only shallow layers are excluded and the half-space has no thickness,
    scattering plus the attenuation of all layers is the target. *)
Theorem C18_meets_target_partial : forall scatter w p target e w' q s exc sel hs,
  adjust_damping scatter w p target e true = (w', Ok (Some (q, s))) ->
  depths_cumulative (view w p) -> view w p = exc ++ sel ++ [hs] ->
  List.Forall (fun l => is_excluded e l = true) exc -> List.Forall (fun l => is_excluded e l = false) (sel ++ [hs]) -> l_thick hs = 0 ->
  s + kappa (view w' q) = target.
Proof. exact adjust_meets_target. Qed.
Print Assumptions C18_meets_target_partial.
Example C18_meets_target_ex : exists w' exc sel hs e, e = ExCall (fun l => Rltb (l_vs l) 300) /\
  adjust_damping no_scatter ex_w 0 0.02 e true = (w', Ok (Some (0%nat, 0))) /\
  depths_cumulative (view ex_w 0) /\ view ex_w 0 = exc ++ sel ++ [hs] /\ exc <> [] /\ sel <> [] /\ l_thick hs = 0.
Proof.
  destruct ex_adjusted_sand as (w' & E). exists w', [ex_heap 0], [ex_heap 1], (ex_heap 2). eexists. split; [reflexivity|].
  split; [exact E|]. split; [exact ex_depths|]. split; [exact ex_view|]. split; [discriminate|]. split; [discriminate|reflexivity].
Qed.

(** C18: if a layer of positive thickness between two adjusted layers is excluded, the
    total is below the target. *)
Theorem C18_refuted : forall scatter w p target e w' q s a l m x b hs r,
  adjust_damping scatter w p target e true = (w', Ok (Some (q, s))) ->
  depths_cumulative (view w p) -> List.Forall (fun y => 0 <= l_thick y /\ 0 < l_vs y) (view w p) ->
  view w p = a ++ l :: m ++ x :: b -> view w p = r ++ [hs] ->
  is_excluded e l = false -> is_excluded e x = false -> is_excluded e hs = false -> l_thick hs = 0 ->
  List.Forall (fun y => is_excluded e y = true) m -> 0 < total_thick m ->
  s + kappa (view w' q) < target.
Proof. exact adjust_below_target. Qed.
Print Assumptions C18_refuted.

(** C18: if the deepest layers are excluded, or the half-space has a thickness, the
    total is above the target. *)
Theorem C18_deep_refuted : forall scatter w p target e w' q s exc sel last deep,
  adjust_damping scatter w p target e true = (w', Ok (Some (q, s))) ->
  depths_cumulative (view w p) -> view w p = exc ++ (sel ++ [last]) ++ deep ->
  List.Forall (fun l => is_excluded e l = true) (exc ++ deep) -> List.Forall (fun l => is_excluded e l = false) (sel ++ [last]) ->
  List.Forall (fun l => 0 < l_thick l /\ 0 < l_vs l) (sel ++ [last]) ->
  target < s + kappa (view w' q).
Proof. exact adjust_exceeds_target. Qed.
Print Assumptions C18_deep_refuted.

(** C18: in general the target is met exactly if the thicknesses of the adjusted layers
    agree with the distances between their tops, weighted with the inverse squared
    velocities. *)
Theorem C18_iff : forall scatter w p target e w' q s,
  adjust_damping scatter w p target e true = (w', Ok (Some (q, s))) ->
  let sel := filter (fun l => negb (is_excluded e l)) (view w p) in
  s + kappa (view w' q) = target <-> thick_sum sel = gap_sum sel.
Proof. exact adjust_total_iff. Qed.
Print Assumptions C18_iff.
Example C18_iff_ex : exists w', adjust_damping no_scatter ex_w 0 0.02 ExNone true = (w', Ok (Some (0%nat, 0))).
Proof. exact ex_adjusted. Qed.

(** C18: excluded layers keep their minimum damping, that of the others is inversely
    proportional to the velocity, and nothing else about the layers changes. *)
Theorem C18_dampings : forall scatter w p target e w' q s,
  adjust_damping scatter w p target e true = (w', Ok (Some (q, s))) ->
  Forall2 (fun l l' => l_soil l' = l_soil l /\ l_thick l' = l_thick l /\ l_vs l' = l_vs l /\ l_depth l' = l_depth l /\
      (is_excluded e l = true -> l_dmin l' = l_dmin l)) (view w p) (view w' q) /\
  exists c, c <> 0 /\ Forall2 (fun l l' => is_excluded e l = false -> l_dmin l' * l_vs l' = c) (view w p) (view w' q).
Proof. exact adjust_dampings. Qed.
Print Assumptions C18_dampings.

(** C18: RuntimeError exactly if no layer is selected or scattering and excluded layers
    already reach the target. *)
Theorem C18_errors : forall scatter w p target e s,
  scatter (view w p) = Ok (Some s) ->
  let sel := filter (fun l => negb (is_excluded e l)) (view w p) in
  let exc := filter (is_excluded e) (view w p) in
  snd (adjust_damping scatter w p target e true) = Err RuntimeError <-> sel = [] \/ target <= s + kappa exc.
Proof. exact adjust_errors. Qed.
Print Assumptions C18_errors.

(** C18: in all other cases, with nonzero velocities and a distance between the first
    and last adjusted layer, a profile is returned. *)
Theorem C18_total : forall scatter w p target e s,
  scatter (view w p) = Ok (Some s) ->
  let sel := filter (fun l => negb (is_excluded e l)) (view w p) in
  let exc := filter (is_excluded e) (view w p) in
  s + kappa exc < target -> List.Forall (fun l => l_vs l <> 0) sel -> gap_sum sel <> 0 ->
  exists w', adjust_damping scatter w p target e true = (w', Ok (Some (p, s))).
Proof. exact adjust_succeeds. Qed.
Print Assumptions C18_total.

(** C18: in place, only the layers of the profile change. *)
Theorem C18_in_place : forall scatter w p target e w' r,
  adjust_damping scatter w p target e true = (w', r) ->
  w_profs w' = w_profs w /\ forall a, ~ In a (layers_of w p) -> w_heap w' a = w_heap w a.
Proof. exact adjust_frame. Qed.
Print Assumptions C18_in_place.

(** C18: otherwise every layer and profile that existed before is left as it was. *)
Theorem C18_copy : forall scatter w p target e w' r,
  (forall a, In a (layers_of w p) -> (a < w_next w)%nat) ->
  adjust_damping scatter w p target e false = (w', r) ->
  (forall q, (q < w_pnext w)%nat -> w_profs w' q = w_profs w q) /\ (forall a, (a < w_next w)%nat -> w_heap w' a = w_heap w a).
Proof. exact adjust_copy_frame. Qed.
Print Assumptions C18_copy.

(** C57: the values are the mean of the vertical effective stress at the middle of the
    layer and twice k0 times it. *)
Theorem C57_value : forall ls hs wt k0,
  depths_cumulative (ls ++ [hs]) -> stresses_cumulative (ls ++ [hs]) -> l_thick hs = 0 ->
  calc_mean_eff_stress (map l_depth (ls ++ [hs])) (map (fun l => s_unit_wt (l_soil l)) (ls ++ [hs])) wt k0 =
  Ok (map (fun l => (l_svert l + l_thick l / 2 * s_unit_wt (l_soil l) - Rmax 0 (9.81 * (l_depth l + l_thick l / 2 - wt))) * (1 + 2 * k0) / 3) (ls ++ [hs])).
Proof. exact mean_stress_value. Qed.
Print Assumptions C57_value.

(** C57: against the mean stress reported by the profile, the difference is that of the
    two unit weights of water. *)
Theorem C57_profile : forall w p k0 ls hs,
  view w p = ls ++ [hs] -> depths_cumulative (view w p) -> stresses_cumulative (view w p) ->
  l_thick hs = 0 -> Forall (fun l => 0 <= l_thick l /\ l_prof l = Some p) (view w p) ->
  exists ms, calc_mean_eff_stress (map l_depth (view w p)) (map (fun l => s_unit_wt (l_soil l)) (view w p)) (p_wt (w_profs w p)) k0 = Ok ms /\
    Forall2 (fun a m => exists s, stress_mean w a (l_thick (w_heap w a) / 2) true k0 = Ok s /\
      m - s = (GRAVITY - 9.81) * Rmax (l_depth (w_heap w a) + l_thick (w_heap w a) / 2 - p_wt (w_profs w p)) 0 * (1 + 2 * k0) / 3)
      (layers_of w p) ms.
Proof. exact mean_stress_profile. Qed.
Print Assumptions C57_profile.
Example C57_ex : stresses_cumulative (view ex_w 0) /\ depths_cumulative (view ex_w 0) /\
  List.Forall (fun l => 0 <= l_thick l /\ l_prof l = Some 0%nat) (view ex_w 0).
Proof.
  split; [|split; [exact ex_depths|]].
  - rewrite ex_view. intros above l below E. destruct above as [|a [|b [|c above]]]; cbn in E.
    + injection E as <- _. cbn. lra.
    + injection E as <- <- _. cbn. lra.
    + injection E as <- <- <- _. cbn. lra.
    + injection E as <- <- <- E. destruct above; discriminate.
  - rewrite ex_view. repeat (apply Forall_cons; [split; [cbn; lra|reflexivity]|]). apply Forall_nil.
Qed.

(** C57: below the water table that difference is not zero. *)
Theorem C57_differs : forall x k0,
  0 < x -> 0 <= k0 -> (GRAVITY - 9.81) * Rmax x 0 * (1 + 2 * k0) / 3 < 0.
Proof. exact mean_stress_differs. Qed.
Print Assumptions C57_differs.

(** C59: the table of a profile cannot be read back: the velocity column has another
    name. *)
Theorem C59_refuted : forall l ls,
  from_dataframe (to_dataframe (l :: ls)) = Err KeyError.
Proof. exact dataframe_fails. Qed.
Print Assumptions C59_refuted.

(** C59: with the column renamed, thickness, velocity, unit weight and damping come
    back, the name does not, and the minimum damping is that of the soil type. *)
Theorem C59_renamed_partial : forall ls rows,
  Forall (fun l => exists d, s_damp (l_soil l) = DConst d) ls ->
  rows = map (rename_col "shear_vel" "vel_shear") (to_dataframe ls) -> ls <> [] ->
  exists ls', from_dataframe rows = Ok ls' /\
    Forall2 (fun l l' => l_thick l' = l_thick l /\ l_vs l' = shear_vel l /\ s_unit_wt (l_soil l') = s_unit_wt (l_soil l) /\
       s_damp (l_soil l') = s_damp (l_soil l) /\ DConst (l_dmin l') = s_damp (l_soil l) /\ s_name (l_soil l') = EmptyString) ls ls'.
Proof. exact dataframe_renamed. Qed.
Print Assumptions C59_renamed_partial.
Example C59_renamed_ex : List.Forall (fun l => exists d, s_damp (l_soil l) = DConst d) [ex_heap 2] /\ [ex_heap 2] <> [].
Proof. split; [repeat constructor; eexists; reflexivity|discriminate]. Qed.

(** C59: the depth column has the depths of the layers. *)
Theorem C59_depths : forall ls,
  ls <> [] -> depths_cumulative ls -> depth_column (map l_thick ls) = map l_depth ls.
Proof. exact depth_column_depths. Qed.
Print Assumptions C59_depths.

(** C69: an entry above 1 is taken as Q. *)
Theorem C69_q : forall q,
  1 < q -> nr_damping q = 1 / (2 * q).
Proof. exact nr_damping_q. Qed.
Print Assumptions C69_q.

(** C69: an entry 1/Q up to 1 gives the damping 1/(2Q), for Q below 1e8 - 1. *)
Theorem C69_inverse_q : forall q,
  1 <= q <= 1e8 - 1 -> nr_damping (1 / q) = 1 / (2 * q).
Proof. exact nr_damping_iq. Qed.
Print Assumptions C69_inverse_q.

(** C69: entries up to 1e-8 give no damping. *)
Theorem C69_zero : forall q,
  Rabs q <= 1e-8 -> nr_damping q = 0.
Proof. exact nr_damping_zero. Qed.
Print Assumptions C69_zero.

(** C69: for layers numbered from 1, the profile has these layers in order with km
    scaled to m, and the half-space last with no thickness. *)
Theorem C69_layers_partial : forall w rs v d,
  map nr_num rs = map Z.of_nat (seq 1 (length rs)) ->
  Forall2 (fun r l => l_thick l = 1000 * nr_thick r /\ l_vs l = 1000 * nr_vs r /\ s_unit_wt (l_soil l) = GRAVITY * nr_density r /\
     l_dmin l = nr_damping (nr_iq r) /\ s_damp (l_soil l) = DConst (nr_damping (nr_iq r)) /\ s_mod (l_soil l) = None)
    (rs ++ [mkNr (Z.of_nat (length rs) + 1) 0 v d 0])
    (view (fst (profile_from_nrattle w rs v d)) (snd (profile_from_nrattle w rs v d))).
Proof. exact nr_profile_layers. Qed.
Print Assumptions C69_layers_partial.
Example C69_layers_ex : let rs := [mkNr 1 0.01 0.2 1.9 50; mkNr 2 0.02 0.4 2 0.02] in map nr_num rs = map Z.of_nat (seq 1 (List.length rs)).
Proof. reflexivity. Qed.

(** C69: a layer that has the number of layers plus one as its number is replaced by the
    half-space. *)
Theorem C69_refuted : forall rs v d x,
  In x rs -> nr_num x = (Z.of_nat (length rs) + 1)%Z -> x <> mkNr (nr_num x) 0 v d 0 ->
  length (nr_rows rs v d) = length rs /\ ~ In x (nr_rows rs v d).
Proof. exact nr_rows_replaced. Qed.
Print Assumptions C69_refuted.
Example C69_refuted_ex : let x := mkNr 3 0.02 0.4 2 0.02 in In x [mkNr 1 0.01 0.2 1.9 50; x] /\
  nr_num x = (Z.of_nat (List.length [mkNr 1 0.01 0.2 1.9 50; x]) + 1)%Z /\ x <> mkNr (nr_num x) 0 2 2.5 0.
Proof. cbn. split; [auto|]. split; [reflexivity|]. intros E. injection E as E _. lra. Qed.

(** C89: a layer is excluded exactly if its soil type name contains a member of the
    list, rather than being a member. *)
Theorem C89_refuted : forall parts l,
  is_excluded (ExList parts) l = true <->
  exists e a b, In e parts /\ s_name (l_soil l) = (a ++ e ++ b)%string.
Proof. exact exclude_list. Qed.
Print Assumptions C89_refuted.
Example C89_refuted_ex : "Sandstone"%string = ("" ++ "Sand" ++ "stone")%string /\ ~ In "Sandstone"%string ["Sand"%string].
Proof. split; [reflexivity|]. intros [E|[]]. discriminate. Qed.
