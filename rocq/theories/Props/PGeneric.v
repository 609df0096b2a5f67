(** Properties C56, C58, C98 and C99: generic profiles. *)
From Coq Require Import String Sorted.
From Verif Require Import Common Model.Layer Model.Tools Model.Generic Spec.GenericSpec Proof.CommonFacts Proof.GenericProps.
Local Open Scope R_scope.

(** C58: the two lower-case names are accepted, everything else raises ValueError. *)
Theorem C58_region : forall depths vs30 region,
  (region = "california"%string \/ region = "japan"%string -> exists rows, kea16_profile depths vs30 region = Ok rows) /\
  (region <> "california"%string -> region <> "japan"%string -> kea16_profile depths vs30 region = Err ValueError).
Proof. exact kea16_region. Qed.
Print Assumptions C58_region.

(** C58: there is one row for every depth. *)
Theorem C58_depths : forall depths vs30 region rows,
  kea16_profile depths vs30 region = Ok rows ->
  map (fun r => fst (fst r)) rows = depths.
Proof. exact kea16_depths. Qed.
Print Assumptions C58_depths.

(** C58: the velocity at the surface is that of the region. *)
Theorem C58_surface : forall depths vs30 region rows i v s,
  kea16_profile depths vs30 region = Ok rows -> nth_error rows i = Some (0, v, s) ->
  (region = "california"%string /\ v = 0.25 * vs30 + 104 /\ s = 0.0002 * vs30 + 0.195) \/
  (region = "japan"%string /\ v = 0.2 * vs30 + 40 /\ s = 0.4).
Proof. exact kea16_surface. Qed.
Print Assumptions C58_surface.

(** C58: below the surface the velocity is positive and strictly increases with depth;
    the standard deviation is positive and constant. *)
Theorem C58_increases : forall depths vs30 region rows i j d d' v v' s s',
  0 < vs30 -> kea16_profile depths vs30 region = Ok rows ->
  nth_error rows i = Some (d, v, s) -> nth_error rows j = Some (d', v', s') -> 0 <= d < d' -> 0 < v < v' /\ 0 < s /\ s = s'.
Proof. exact kea16_increases. Qed.
Print Assumptions C58_increases.
Example C58_increases_ex : exists rows v v' s s', kea16_profile [0; 10] 400 "japan" = Ok rows /\
  nth_error rows 0 = Some (0, v, s) /\ nth_error rows 1 = Some (10, v', s') /\ (0 <= 0 < 10)%R.
Proof. do 5 eexists. split; [reflexivity|]. split; [reflexivity|]. split; [reflexivity|]. lra. Qed.

(** C98: both names of the documentation and of the error message raise ValueError. *)
Theorem C98_refuted : forall depths vs30,
  kea16_profile depths vs30 "California" = Err ValueError /\ kea16_profile depths vs30 "Japan" = Err ValueError.
Proof. exact kea16_documented. Qed.
Print Assumptions C98_refuted.

(** A profile with two similar layers over a half-space, and one in which the half-space is
    similar to the layer above. *)
Definition ex_rows : list nrow := [mkRow 0 200 18; mkRow 10 202 19; mkRow 20 400 20].
Definition ex_rows' : list nrow := [mkRow 0 200 18; mkRow 10 400 19; mkRow 20 404 20].
Lemma ex_good : good_rows ex_rows /\ good_rows ex_rows'.
Proof. split; (split; [discriminate|]); split; repeat (constructor; cbn; try lra). Qed.
Definition ex_groups : list (list nrow) := [[mkRow 0 200 18; mkRow 10 202 19]; [mkRow 20 400 20]].
Definition ex_groups' : list (list nrow) := [[mkRow 0 200 18]; [mkRow 10 400 19; mkRow 20 404 20]].
Lemma ex_grouped : grouped 0.02 ex_groups /\ grouped 0.02 ex_groups'.
Proof.
  split; (constructor; [| |constructor]); unfold within; cbn [n_vs]; try (apply Forall_cons; [|apply Forall_nil]); try apply Forall_nil; cbn [n_vs].
  - rewrite Rabs_pos_eq; lra.
  - rewrite Rabs_pos_eq; lra.
  - rewrite Rabs_pos_eq; lra.
  - rewrite Rabs_pos_eq; lra.
Qed.

(** C56: there is a division into groups of similar consecutive rows, and the code finds
    it. *)
Theorem C56_grouping : forall tol rows,
  good_rows rows -> exists gs, grouped tol gs /\ concat gs = rows /\ rows_of (groups tol (annotate rows)) = gs.
Proof. exact grouping_exists. Qed.
Print Assumptions C56_grouping.

(** C56: and it is the only one. *)
Theorem C56_grouping_unique : forall tol gs,
  forall gs2, grouped tol gs -> grouped tol gs2 -> concat gs = concat gs2 -> gs = gs2.
Proof. exact grouping_unique. Qed.
Print Assumptions C56_grouping_unique.

(** C56: the rows are merged group by group: each starts where its group does and takes
    the same time, its velocity and unit weight lie between those of the group, and the
    weight is kept up to the last group. *)
Theorem C56_merged : forall rows tol gs,
  good_rows rows -> grouped tol gs -> concat gs = rows ->
  exists out, simplify_profile rows tol = Ok (Some out) /\ merged gs out /\
    Forall2 (fun g m => between n_vs g m /\ between n_wt g m) gs out /\
    (no_thinner 1e-10 rows -> weight out + weight (last gs []) = weight rows).
Proof. exact simplify_merges. Qed.
Print Assumptions C56_merged.
Example C56_merged_ex : good_rows ex_rows /\ grouped 0.02 ex_groups /\ concat ex_groups = ex_rows /\ no_thinner 1e-10 ex_rows.
Proof. split; [apply ex_good|]. split; [apply ex_grouped|]. split; [reflexivity|]. cbn. lra. Qed.

(** C56: the depths are depths of the original from the same first one, there are no
    more rows than before, and the result is again a usable profile. *)
Theorem C56_depths : forall rows tol out,
  good_rows rows -> simplify_profile rows tol = Ok (Some out) ->
  incl (map n_depth out) (map n_depth rows) /\ hd_error (map n_depth out) = hd_error (map n_depth rows) /\
  (0 < length out <= length rows)%nat /\ good_rows out.
Proof. exact simplify_depths. Qed.
Print Assumptions C56_depths.

(** C56: if the half-space is a group of its own, total thickness, travel time and
    half-space velocity are kept exactly. *)
Theorem C56_keeps_partial : forall rows tol gs h out,
  good_rows rows -> grouped tol gs -> concat gs = rows -> simplify_profile rows tol = Ok (Some out) ->
  last gs [] = [h] -> travel out = travel rows /\ extent out = extent rows /\
  last_opt (map n_vs out) = last_opt (map n_vs rows).
Proof. exact simplify_halfspace. Qed.
Print Assumptions C56_keeps_partial.

(** C56: if the half-space is merged with rows above, travel time and thickness are
    lost. *)
Theorem C56_refuted : forall rows tol gs out r x g,
  good_rows rows -> grouped tol gs -> concat gs = rows -> simplify_profile rows tol = Ok (Some out) ->
  last gs [] = r :: x :: g -> travel out < travel rows /\ extent out < extent rows.
Proof. exact simplify_loses. Qed.
Print Assumptions C56_refuted.
Example C56_refuted_ex : good_rows ex_rows' /\ grouped 0.02 ex_groups' /\ concat ex_groups' = ex_rows' /\
  (exists r x g, last ex_groups' [] = r :: x :: g) /\ exists out, simplify_profile ex_rows' 0.02 = Ok (Some out).
Proof.
  split; [apply ex_good|]. split; [apply ex_grouped|]. split; [reflexivity|]. split; [do 3 eexists; reflexivity|].
  destruct (simplify_merges ex_rows' 0.02 ex_groups') as (out & E & _); [apply ex_good|apply ex_grouped|reflexivity|]. now exists out.
Qed.

(** C56: exactly what the last group holds is lost. *)
Theorem C56_balance : forall rows tol gs out,
  good_rows rows -> grouped tol gs -> concat gs = rows -> simplify_profile rows tol = Ok (Some out) ->
  travel out + travel (last gs []) = travel rows /\ extent out + extent (last gs []) = extent rows.
Proof. exact simplify_keeps. Qed.
Print Assumptions C56_balance.

(** C56: an empty table raises IndexError. *)
Theorem C56_empty : forall tol,
  simplify_profile [] tol = Err IndexError.
Proof. exact simplify_empty. Qed.
Print Assumptions C56_empty.

(** C99: with columns of equal length, every row has a mean stress and a thickness, and
    the thicknesses add up to the depth of the half-space. *)
Theorem C99_loads : forall depths vs density wt simplify rows0,
  ncm_rows depths vs density = Ok rows0 -> good_rows rows0 ->
  exists rows ms ths, load_ncm depths vs density wt simplify = Ok (Some (rows, ms, ths)) /\ good_rows rows /\
    length ms = length rows /\ length ths = length rows /\ Rsum ths = extent rows /\ last_opt ths = Some 0 /\
    calc_mean_eff_stress (map n_depth rows) (map n_wt rows) wt 0.5 = Ok ms /\
    match simplify with None => rows = rows0 | Some tol => simplify_profile rows0 tol = Ok (Some rows) end.
Proof. exact ncm_loads. Qed.
Print Assumptions C99_loads.
Example C99_loads_ex : exists rows, ncm_rows [0; 10; 20] [200; 300; 400] [1800; 1900; 2000] = Ok rows /\ good_rows rows.
Proof. eexists. split; [reflexivity|]. split; [discriminate|]. split; repeat (constructor; cbn; try lra). Qed.

(** C99: columns of different lengths raise ValueError. *)
Theorem C99_columns : forall depths vs density wt simplify,
  length depths <> length vs \/ length depths <> length density ->
  load_ncm depths vs density wt simplify = Err ValueError.
Proof. exact ncm_columns. Qed.
Print Assumptions C99_columns.

(** C100: the density of a soil type with the loaded unit weight is that of the file
    times 9.81 / 9.80665. *)
Theorem C100_refuted : forall depths vs density rows i r rho soil,
  ncm_rows depths vs density = Ok rows ->
  nth_error rows i = Some r -> nth_error density i = Some rho -> s_unit_wt soil = n_wt r ->
  Layer.density soil = rho / 1000 * (9.81 / 9.80665).
Proof. exact ncm_density. Qed.
Print Assumptions C100_refuted.
Example C100_ex : exists rows r, ncm_rows [0; 10] [200; 300] [1800; 1900] = Ok rows /\ nth_error rows 1 = Some r.
Proof. do 2 eexists. split; reflexivity. Qed.
