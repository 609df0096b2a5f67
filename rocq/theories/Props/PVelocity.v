(** Properties C33, C34, C35, C60, C80, C81 and C82: random velocities. *)
From Coq Require Import String.
From Verif Require Import Common Model.Curve Model.Layer Model.Profile Model.Gauss Model.Variation
  Spec.ProfileSpec Spec.VariationSpec Proof.CommonFacts Proof.VariationEx
  Proof.CovarFacts Proof.VelocityProps.
Local Open Scope R_scope.

Definition ex_vel : vel_var := mkVelVar (fun _ => Ok [0.5; 1]) (fun _ => Ok [0.3; 0.3; 0.2]) false.
Definition ex_model : toro_vel := mkToroVel 0.36 0.95 3.4 0.42 0 0.063.
Lemma ex_model_ok : toro_vel_ok ex_model.
Proof. unfold toro_vel_ok, ex_model; cbn; lra. Qed.

(** C33: for every draw of an unstrained profile the call returns a profile of new
    layers with the old soil types, thicknesses, minimum damping and water table; each
    varied velocity is positive and within exp(2 scale sigma) of the old one, and equal
    to the draw if that is within the range; the half-space keeps its velocity unless it
    is to be varied; the input is unchanged. *)
Theorem C33_velocities : forall v w p draw corr std,
  allocated w p -> vv_corr v (view w p) = Ok corr -> vv_ln_std v (view w p) = Ok std ->
  List.length std = S (List.length corr) -> List.length std = List.length (view w p) ->
  List.length draw = List.length (view w p) ->
  List.Forall (fun l => 0 < s_unit_wt (l_soil l) /\ 0 <= l_vs l /\ shear_mod l = initial_shear_mod l) (view w p) ->
  exists w' q, velocity_call v w p draw = (w', Ok q) /\
    List.length (view w' q) = List.length (view w p) /\
    (forall i l l', nth_error (view w p) i = Some l -> nth_error (view w' q) i = Some l' ->
       l_soil l' = l_soil l /\ l_thick l' = l_thick l /\ l_dmin l' = l_dmin l /\ shear_mod l' = initial_shear_mod l') /\
    (forall i l l' s, nth_error (view w p) i = Some l -> nth_error (view w' q) i = Some l' -> nth_error std i = Some s ->
       (S i < List.length (view w p))%nat \/ vv_bedrock v = true ->
       0 < l_vs l' /\ Rabs (ln (l_vs l') - ln (l_vs l)) <= 2 * tn_scale 2 * Rabs s) /\
    (forall i l l' s d, nth_error (view w p) i = Some l -> nth_error (view w' q) i = Some l' -> nth_error std i = Some s ->
       nth_error draw i = Some d -> (S i < List.length (view w p))%nat \/ vv_bedrock v = true ->
       Rabs (d - ln (l_vs l)) <= 2 * tn_scale 2 * Rabs s -> l_vs l' = exp d) /\
    (vv_bedrock v = false -> forall l l', last_opt (view w p) = Some l -> last_opt (view w' q) = Some l' -> l_vs l' = l_vs l) /\
    p_wt (w_profs w' q) = p_wt (w_profs w p) /\
    (forall a, (a < w_next w)%nat -> w_heap w' a = w_heap w a) /\
    (forall r, (r < w_pnext w)%nat -> w_profs w' r = w_profs w r).
Proof. exact velocity_variation. Qed.
Print Assumptions C33_velocities.
Example C33_ex : allocated ex_w 0 /\ vv_corr ex_vel (view ex_w 0) = Ok [0.5; 1] /\ vv_ln_std ex_vel (view ex_w 0) = Ok [0.3; 0.3; 0.2] /\
  List.length [0.3; 0.3; 0.2] = List.length (view ex_w 0) /\ List.length [5.1; 6.2; 6.7] = List.length (view ex_w 0) /\
  List.Forall (fun l => 0 < s_unit_wt (l_soil l) /\ 0 <= l_vs l /\ shear_mod l = initial_shear_mod l) (view ex_w 0).
Proof. split; [exact ex_allocated|]. repeat (split; [reflexivity|]). exact ex_unstrained. Qed.

(** C34: the matrix is symmetric, with the scaled variances on the diagonal, the scaled
    covariances of adjacent layers beside it and zeros elsewhere. *)
Theorem C34_shape_partial : forall corr ln_std,
  length ln_std = S (length corr) ->
  exists rows, calc_covar_matrix corr ln_std = Ok rows /\ length rows = length ln_std /\ symmetric rows /\
    (forall i s, nth_error ln_std i = Some s -> entry rows i i = Some ((s * tn_scale 2) ^ 2)) /\
    (forall i c s s', nth_error corr i = Some c -> nth_error ln_std i = Some s -> nth_error ln_std (S i) = Some s' ->
       entry rows i (S i) = Some (c * (s * tn_scale 2) * (s' * tn_scale 2))) /\
    (forall i j, (i < length ln_std)%nat -> (j < length ln_std)%nat -> (S i < j)%nat -> entry rows i j = Some 0).
Proof. exact covar_matrix_shape. Qed.
Print Assumptions C34_shape_partial.
Example C34_ex : List.length [0.3; 0.3; 0.2] = S (List.length [0.5; 1]).
Proof. reflexivity. Qed.

(** C34: it is positive semi-definite when no correlation exceeds 1/2. *)
Theorem C34_weak : forall corr ln_std rows,
  length ln_std = S (length corr) ->
  List.Forall (fun c => Rabs c <= 1 / 2) corr -> calc_covar_matrix corr ln_std = Ok rows -> semidefinite rows.
Proof. exact covar_matrix_weak. Qed.
Print Assumptions C34_weak.
Example C34_weak_ex : List.Forall (fun c => Rabs c <= 1 / 2) [0.5; -0.3].
Proof. repeat (apply Forall_cons; [unfold Rabs; destruct Rcase_abs; lra|]). apply Forall_nil. Qed.

(** C34: and for two layers with any correlation. *)
Theorem C34_two_layers : forall c s s' rows,
  -1 <= c <= 1 -> calc_covar_matrix [c] [s; s'] = Ok rows -> semidefinite rows.
Proof. exact covar_matrix_two. Qed.
Print Assumptions C34_two_layers.

(** C34: with three or more layers, a half-space correlation of 1 and any other
    correlation above it than 0, it is never positive semi-definite. *)
Theorem C34_refuted : forall corr rho ln_std a b c rows,
  length ln_std = length corr -> rho <> 0 -> a <> 0 -> b <> 0 -> c <> 0 ->
  calc_covar_matrix (corr ++ [rho; 1]) (ln_std ++ [a; b; c]) = Ok rows -> ~ semidefinite rows.
Proof. exact covar_matrix_indefinite. Qed.
Print Assumptions C34_refuted.
Example C34_refuted_ex : exists rows, calc_covar_matrix ([] ++ [0.5; 1]) ([] ++ [0.3; 0.3; 0.2]) = Ok rows.
Proof. eexists. reflexivity. Qed.

(** C34: so the matrix of the Toro model with a positive rho_0 is not a covariance
    matrix for any profile of three or more layers. *)
Theorem C34_refuted_toro : forall m ls cs rows,
  toro_vel_ok m -> 0 < tv_rho_0 m -> tv_ln_std m <> 0 ->
  (3 <= List.length ls)%nat -> depths_cumulative ls -> List.Forall (fun l => 0 <= l_thick l) ls ->
  toro_corr m ls = map Some cs -> calc_covar_matrix cs (toro_ln_std m ls) = Ok rows -> ~ semidefinite rows.
Proof. exact toro_covariance_indefinite. Qed.
Print Assumptions C34_refuted_toro.
Example C34_toro_ex : toro_vel_ok ex_model /\ 0 < tv_rho_0 ex_model /\ tv_ln_std ex_model <> 0 /\ (3 <= List.length (view ex_w 0))%nat /\
  depths_cumulative (view ex_w 0) /\ List.Forall (fun l => 0 <= l_thick l) (view ex_w 0).
Proof.
  split; [exact ex_model_ok|]. split; [cbn; lra|]. split; [cbn; lra|]. split; [cbn; lia|]. split; [exact ex_depths|exact ex_thick_ok].
Qed.

(** C35: there is one correlation per pair of adjacent layers, all lie in [0, 1] and the
    last is 1. *)
Theorem C35_correlations : forall m ls,
  toro_vel_ok m -> (2 <= List.length ls)%nat -> depths_cumulative ls ->
  List.Forall (fun l => 0 <= l_thick l) ls ->
  exists cs, toro_corr m ls = map Some (cs ++ [1]) /\ S (List.length (cs ++ [1])) = List.length ls /\
    List.Forall (fun c => 0 <= c <= 1) (cs ++ [1]).
Proof. exact toro_correlations. Qed.
Print Assumptions C35_correlations.
Example C35_ex : toro_vel_ok ex_model /\ (2 <= List.length (view ex_w 0))%nat /\ depths_cumulative (view ex_w 0) /\
  List.Forall (fun l => 0 <= l_thick l) (view ex_w 0).
Proof. split; [exact ex_model_ok|]. split; [cbn; lia|]. split; [exact ex_depths|exact ex_thick_ok]. Qed.

(** C35,C81: the correlations in terms of the mid-depths: the depth term is taken at the
    average of the two mid-depths, the thickness term for half the distance between the
    first and the third. *)
Theorem C35_values : forall m mids,
  toro_vel_ok m -> (2 <= List.length mids)%nat ->
  List.Forall (fun d => 0 <= d) mids -> rising mids ->
  exists cs, toro_corr_mids m mids = map Some (cs ++ [1]) /\ S (S (List.length cs)) = List.length mids /\
    List.Forall (fun c => 0 <= c <= 1 /\ (0 < tv_rho_0 m -> 0 < c)) cs /\
    (forall i c a b d, nth_error cs i = Some c -> nth_error mids i = Some a -> nth_error mids (S i) = Some b ->
       nth_error mids (S (S i)) = Some d -> c = toro_value m ((a + b) / 2) ((d - a) / 2)).
Proof. exact toro_corr_mids_spec. Qed.
Print Assumptions C35_values.
Example C35_values_ex : List.Forall (fun d => 0 <= d) [5; 20; 30] /\ rising [5; 20; 30].
Proof.
  split; [repeat (apply Forall_cons; [lra|]); apply Forall_nil|].
  intros [|[|[|i]]] x y E1 E2; cbn in E1, E2; try discriminate; try (injection E1 as <-; injection E2 as <-; lra); destruct i; discriminate.
Qed.

(** C81: lowering the third layer only, without moving the first two, lowers the
    correlation of the first two. *)
Theorem C81_refuted : forall m a b c c',
  toro_vel_ok m -> 0 < tv_rho_0 m -> tv_rho_200 m < 1 -> 0 <= a <= b ->
  b <= c -> c < c' -> c' - a <= 200 ->
  exists r r', nth_error (toro_corr_mids m [a; b; c]) 0 = Some (Some r) /\
    nth_error (toro_corr_mids m [a; b; c']) 0 = Some (Some r') /\ r' < r.
Proof. exact toro_corr_third. Qed.
Print Assumptions C81_refuted.
Example C81_ex : tv_rho_200 ex_model < 1 /\ 0 < tv_rho_0 ex_model.
Proof. cbn; lra. Qed.

(** C81: the correlation is the published one, with the distance of the two mid-depths,
    only if half the distance to the third happens to give the same. *)
Theorem C81_iff : forall m a b c,
  toro_vel_ok m -> 0 <= a <= b -> b <= c ->
  nth_error (toro_corr_mids m [a; b; c]) 0 = Some (Some (toro_value m ((a + b) / 2) (b - a))) <->
  toro_value m ((a + b) / 2) ((c - a) / 2) = toro_value m ((a + b) / 2) (b - a).
Proof. exact toro_corr_pair. Qed.
Print Assumptions C81_iff.

(** C60: the class as a function of the average velocity; the four cases are exclusive
    and exhaustive and ordered. *)
Theorem C60_classes : forall v,
  (usgs_site_class v = Some "USGS A"%string <-> 750 < v) /\
  (usgs_site_class v = Some "USGS B"%string <-> 360 < v <= 750) /\
  (usgs_site_class v = Some "USGS C"%string <-> 180 < v <= 360) /\
  (usgs_site_class v = Some "USGS D"%string <-> v <= 180).
Proof. exact site_class_ranges. Qed.
Print Assumptions C60_classes.

(** C60: every class returned has parameters, within the range for which the
    correlations are valid. *)
Theorem C60_known : forall v,
  exists c m, usgs_site_class v = Some c /\ toro_lookup c = Ok m /\ toro_vel_ok m.
Proof. exact site_class_known. Qed.
Print Assumptions C60_known.

(** C80: standard deviations given without depths are ignored, for every site class. *)
Theorem C80_refuted : forall cls m ln_std,
  toro_lookup cls = Ok m -> ln_std <> [0.25; 0.15] ->
  exists d s, generic_depth_model cls None (Some ln_std) = Ok (d, Some s) /\ s <> ln_std.
Proof. exact generic_depth_ignores. Qed.
Print Assumptions C80_refuted.
Example C80_ex : exists m, toro_lookup "USGS C" = Ok m /\ [0.4; 0.3] <> [0.25; 0.15].
Proof. eexists. split; [reflexivity|]. intros E. injection E as E1 E2. lra. Qed.

(** C80: with depths they are used. *)
Theorem C80_with_depths : forall cls m d ln_std,
  toro_lookup cls = Ok m ->
  generic_depth_model cls (Some d) (Some ln_std) = Ok (Some d, Some ln_std).
Proof. exact generic_depth_honours. Qed.
Print Assumptions C80_with_depths.

(** C82: the standard deviation of a layer is the value of the last entry of the mapping
    whose name is contained in the name of the soil type. *)
Theorem C82_named : forall depth std before name value after l,
  str_in name (s_name (l_soil l)) = true ->
  List.Forall (fun nv => str_in (fst nv) (s_name (l_soil l)) = false) after ->
  depth_ln_std depth std (before ++ (name, value) :: after) l = value.
Proof. exact depth_ln_std_named. Qed.
Print Assumptions C82_named.
Example C82_ex : str_in "and" (s_name (l_soil (ex_heap 0))) = true /\ str_in "Rock" (s_name (l_soil (ex_heap 0))) = false.
Proof. split; reflexivity. Qed.

(** C82: otherwise it is interpolated at the mid-depth of the layer. *)
Theorem C82_unnamed : forall depth std names l,
  List.Forall (fun nv => str_in (fst nv) (s_name (l_soil l)) = false) names ->
  depth_ln_std depth std names l = np_interp (depth_mid l) (combine depth std).
Proof. exact depth_ln_std_unnamed. Qed.
Print Assumptions C82_unnamed.
