(** Properties C143-C146: the geometry of profiles in binary64 arithmetic. *)
From Coq Require Import String.
From Flocq Require Import Core.
From Verif Require Import Common Model.Curve Model.Layer Model.Profile Model.Variation Model.Rounded
  Spec.ProfileSpec Spec.HistorySpec Spec.RoundSpec Proof.CommonFacts Proof.ProfileFacts Proof.ProfileOps Proof.ProfileRefute
  Proof.RoundFacts Proof.RoundProfile Proof.RoundToro.
Local Open Scope R_scope.

(** The examples use the profile of 10 m and 5 m on a half-space built by [site3]. *)
Lemma rd_b64 (m : Z) : (Z.abs m < 2 ^ 53)%Z -> is_b64 (IZR m).
Proof. intros H. replace (IZR m) with (IZR m / 2 ^ 0) by (cbn [pow]; field). apply is_b64_div; [exact H|lia]. Qed.
Definition rd_world : world := run init_world site3.
Lemma rd_ok : NoDup (layers_of rd_world 0) /\ bottom_distinct (view rd_world 0) /\ layers_of rd_world 0 <> nil /\
  Forall (fun l => 0 <= l_thick l /\ is_b64 (l_thick l)) (view rd_world 0).
Proof.
  unfold rd_world. split; [runw; rdec; repeat constructor; cbn; intuition congruence|]. split.
  { apply bottom_distinct_zero. intros b. runw. rdec. intros E. injection E as <-. reflexivity. }
  split; [runw; rdec; discriminate|].
  assert (E : map l_thick (view (run init_world site3) 0) = cons 10 (cons 5 (cons 0 nil))) by (runw; rdec; reflexivity).
  apply (proj1 (Forall_map l_thick (fun t => 0 <= t /\ is_b64 t) (view (run init_world site3) 0))). rewrite E.
  repeat (apply Forall_cons; [split; [lra|apply rd_b64; now apply Z.ltb_lt]|]). apply Forall_nil.
Qed.

(** C143: whatever the rounding errors in the depths, a lookup of a depth finds the
    layer that starts at or above it and whose successor starts below it; the distance
    into the layer is not negative, not larger than the thickness of the layer unless it
    is the last one, accurate to half a unit in the last place, and zero at the top of a
    layer. *)
Theorem C143_lookup : forall w p x,
  NoDup (layers_of w p) -> bottom_distinct (view w p) -> layers_of w p <> [] ->
  Forall (fun l => 0 <= l_thick l /\ is_b64 (l_thick l)) (view w p) -> is_b64 x -> 0 <= x ->
  let w' := fst (lookup_depth_r b64 w p x) in
  exists i u l, snd (lookup_depth_r b64 w p x) = Ok (i, u) /\ nth_error (view w' p) i = Some l /\
    l_depth l <= x /\ 0 <= u /\ Rabs (l_depth l + u - x) <= half_ulp * (x - l_depth l) /\
    (forall b, nth_error (view w' p) (S i) = Some b -> x < l_depth b /\ u <= l_thick l) /\
    (l_depth l = x -> u = 0).
Proof. exact lookup_rounded. Qed.
Print Assumptions C143_lookup.
Example C143_lookup_ex : NoDup (layers_of rd_world 0) /\ bottom_distinct (view rd_world 0) /\ layers_of rd_world 0 <> nil /\
  Forall (fun l => 0 <= l_thick l /\ is_b64 (l_thick l)) (view rd_world 0) /\ is_b64 12 /\ 0 <= 12.
Proof. destruct rd_ok as (A & B & C & D). repeat (split; [assumption|]). split; [apply rd_b64; now apply Z.ltb_lt|lra]. Qed.

(** C143: so the assertion of Layer.stress_vert, that the distance is not larger than
    the thickness, never fails at a depth above the half-space. *)
Theorem C143_assertion : forall w p x i u,
  NoDup (layers_of w p) -> bottom_distinct (view w p) -> layers_of w p <> [] ->
  Forall (fun l => 0 <= l_thick l /\ is_b64 (l_thick l)) (view w p) -> is_b64 x -> 0 <= x ->
  snd (lookup_depth_r b64 w p x) = Ok (i, u) -> (S i < length (layers_of w p))%nat ->
  exists l s, nth_error (view (fst (lookup_depth_r b64 w p x)) p) i = Some l /\ stress_vert_r b64 l u = Ok s.
Proof. exact stress_never_asserts. Qed.
Print Assumptions C143_assertion.

(** C143: the depths stored by update_layers are contiguous: the first layer starts at 0
    and every other exactly at the depth_base of the layer above; the stresses likewise;
    nothing else changes. *)
Theorem C143_stacked : forall w p,
  NoDup (layers_of w p) -> bottom_distinct (view w p) ->
  let w' := update_layers_r b64 w p in
  stacked (view w' p) /\ stress_stacked (view w' p) /\
  layers_of w' p = layers_of w p /\ Forall2 same_core (view w p) (view w' p) /\
  (forall a, In a (layers_of w p) -> l_prof (w_heap w' a) = Some p) /\
  forall a, ~ In a (layers_of w p) -> w_heap w' a = w_heap w a.
Proof. exact stack_view. Qed.
Print Assumptions C143_stacked.

(** C143: without rounding the lookup is the one of the exact model. *)
Theorem C143_model : forall w p d,
  lookup_depth_r unrounded w p d = lookup_depth w p d.
Proof. exact lookup_exact. Qed.
Print Assumptions C143_model.

(** C144: the depth of layer n is the sum of the thicknesses above it up to the relative
    error of n roundings, and depths do not decrease from layer to layer. *)
Theorem C144_depths : forall w p above l below,
  NoDup (layers_of w p) -> bottom_distinct (view w p) ->
  Forall (fun l => 0 <= l_thick l /\ is_b64 (l_thick l)) (view w p) ->
  view (update_layers_r b64 w p) p = above ++ l :: below ->
  within_error (length above) (l_depth l) (total_thick above) /\
  forall m rest, above = m ++ rest -> forall x, In x rest -> l_depth x <= l_depth l.
Proof. exact depths_rounded. Qed.
Print Assumptions C144_depths.

(** C144: the vertical stress at the top of layer n is the weight above it up to the
    relative error of n + 1 roundings. *)
Theorem C144_stresses : forall w p above l below,
  NoDup (layers_of w p) -> bottom_distinct (view w p) ->
  Forall (fun l => 0 <= l_thick l * s_unit_wt (l_soil l) /\ no_underflow (l_thick l * s_unit_wt (l_soil l))) (view w p) ->
  view (update_layers_r b64 w p) p = above ++ l :: below ->
  within_error (S (length above)) (l_svert l) (total_weight above).
Proof. exact stresses_rounded. Qed.
Print Assumptions C144_stresses.
Example C144_stresses_ex : Forall (fun l => 0 <= l_thick l * s_unit_wt (l_soil l) /\ no_underflow (l_thick l * s_unit_wt (l_soil l))) (view rd_world 0).
Proof.
  assert (E : map (fun l => l_thick l * s_unit_wt (l_soil l)) (view rd_world 0) = cons (10 * 18) (cons (5 * 18) (cons (0 * 18) nil))) by (unfold rd_world; runw; rdec; reflexivity).
  apply (proj1 (Forall_map (fun l => l_thick l * s_unit_wt (l_soil l)) (fun t => 0 <= t /\ no_underflow t) (view rd_world 0))). rewrite E.
  repeat (apply Forall_cons; [split; [lra|]|]); try apply Forall_nil; unfold no_underflow.
  - right. rewrite Rabs_right by lra. apply small_min. lra.
  - right. rewrite Rabs_right by lra. apply small_min. lra.
  - left. lra.
Qed.

(** C145: for a profile of 17.3 m there are depths with which the generator does not
    stop after the layer truncated at the total depth but adds a layer thinner than
    1e-14 m; without rounding it stops. *)
Theorem C145_refuted : exists raw ys t m, increasing raw /\
  Forall (fun d => is_b64 d /\ / 2 ^ 1022 <= d) raw /\
  iter_thickness_r b64 (b64 17.3) raw = (ys ++ [(t, m)], true) /\
  length ys = (count_above (b64 17.3) raw + 1)%nat /\ 0 < t < 0.00000000000001 /\
  length (fst (iter_thickness_r unrounded (b64 17.3) raw)) = length ys.
Proof. exact toro_extra_layer. Qed.
Print Assumptions C145_refuted.

(** C145: in general: all thicknesses are positive and all mid-depths inside the
    profile; with two depths below the total depth the generator ends; then the
    thicknesses sum to the total depth up to 1.5 units in the last place, and there is
    one layer for each depth above the total depth plus one, or plus two, the last of
    them being at most one unit in the last place thick. *)
Theorem C145_fill : forall total raw ys o,
  is_b64 total -> / 2 ^ 1022 <= total ->
  increasing raw -> Forall (fun d => is_b64 d /\ / 2 ^ 1022 <= d) raw ->
  iter_thickness_r b64 total raw = (ys, o) ->
  Forall (fun y => 0 < fst y /\ 0 < snd y <= total) ys /\
  ((count_above total raw + 2 <= length raw)%nat -> o = true) /\
  (o = true ->
   Rabs (Rsum (map fst ys) - total) <= 3 * half_ulp * total /\
   (length ys = (count_above total raw + 1)%nat \/
    length ys = (count_above total raw + 2)%nat /\
    exists ys' t m, ys = ys' ++ [(t, m)] /\ t <= 2 * half_ulp * total)).
Proof. exact toro_fill. Qed.
Print Assumptions C145_fill.
Example C145_fill_ex : is_b64 20 /\ / 2 ^ 1022 <= 20 /\ increasing (cons 4 (cons 25 (cons 30 nil))) /\
  Forall (fun d => is_b64 d /\ / 2 ^ 1022 <= d) (cons 4 (cons 25 (cons 30 nil))) /\
  (count_above 20%R (cons 4%R (cons 25%R (cons 30%R nil))) + 2 <= 3)%nat.
Proof.
  split; [apply rd_b64; now apply Z.ltb_lt|]. split; [apply small_min; lra|]. split.
  { intros above x y below E. destruct above as [|? [|? [|? above]]]; cbn [app] in E; try (injection E as <- <- _; lra); try discriminate.
    - injection E as _ <- <- _. lra.
    - destruct above; discriminate. }
  split; [repeat (apply Forall_cons; [split; [apply rd_b64; now apply Z.ltb_lt|apply small_min; lra]|]); apply Forall_nil|].
  unfold count_above. cbn [filter]. rewrite (Rltb_yes 4 20), (Rltb_no 25 20), (Rltb_no 30 20) by lra. cbn. lia.
Qed.

(** C145: no LookupError is raised: every mid-depth lies in a layer of the original
    profile. *)
Theorem C145_hosts : forall ls above base hs raw ys o,
  stacked ls -> ls = above ++ [base; hs] ->
  / 2 ^ 1022 <= depth_base_r b64 base ->
  increasing raw -> Forall (fun d => is_b64 d /\ / 2 ^ 1022 <= d) raw ->
  iter_thickness_r b64 (depth_base_r b64 base) raw = (ys, o) ->
  Forall (fun y => exists l, host_r b64 ls (snd y) = Some l /\ In l ls /\ l_depth l < snd y <= depth_base_r b64 l) ys.
Proof. exact toro_hosts. Qed.
Print Assumptions C145_hosts.

(** C145: the half-space of the varied profile starts at the total depth up to the
    relative error of n + 3 roundings for n layers. *)
Theorem C145_reaches : forall total raw ys ls' above hs,
  is_b64 total -> / 2 ^ 1022 <= total ->
  increasing raw -> Forall (fun d => is_b64 d /\ / 2 ^ 1022 <= d) raw ->
  iter_thickness_r b64 total raw = (ys, true) -> Forall (fun y => is_b64 (fst y)) ys ->
  stacked ls' -> is_b64 (l_thick hs) -> 0 <= l_thick hs -> ls' = above ++ [hs] -> map l_thick above = map fst ys ->
  within_error (length ys + 3) (l_depth hs) total.
Proof. exact toro_reaches. Qed.
Print Assumptions C145_reaches.

(** C145: without rounding the generator is the one of the exact model, given the depths
    computed from the increments. *)
Theorem C145_model : forall m dt incs,
  forall raw total prev,
  raw_depths m incs total = map (fun d => Ok (Some d)) raw ->
  iter_from m dt incs total prev =
  (map Some (fst (iter_from_r unrounded dt raw prev)), if snd (iter_from_r unrounded dt raw prev) then Done else More).
Proof. exact iter_from_exact. Qed.
Print Assumptions C145_model.

(** C146: sub-layers are at most 1.5 units in the last place thicker than the optimal
    thickness, n of them have the thickness of the layer up to half a unit, and no more
    are made than needed up to rounding. *)
Theorem C146_sublayers : forall thick opt,
  0 < thick -> 0 < opt -> no_underflow (thick / opt) ->
  no_underflow (thick / INR (sub_count_r b64 thick opt)) ->
  let n := sub_count_r b64 thick opt in let t := sub_thick_r b64 thick opt in
  (1 <= n)%nat /\ Rabs (INR n * t - thick) <= half_ulp * thick /\ t <= (1 + 3 * half_ulp) * opt /\
  ((1 < n)%nat -> INR (n - 1) * opt < (1 + half_ulp) * thick).
Proof. exact sub_rounded. Qed.
Print Assumptions C146_sublayers.
Example C146_sublayers_ex : 0 < 10 /\ 0 < 3 /\ no_underflow (10 / 3) /\ no_underflow (10 / INR (sub_count_r b64 10 3)).
Proof.
  split; [lra|]. split; [lra|].
  assert (A : no_underflow (10 / 3)) by (right; rewrite Rabs_right by lra; apply small_min; lra). split; [exact A|].
  right. pose proof (b64_rel (10 / 3) A) as Q. pose proof half_ulp_small. rewrite (Rabs_right (10 / 3)) in Q by lra.
  assert (Q' : b64 (10 / 3) <= 4) by (apply Rabs_le_inv in Q; lra).
  assert (N : (1 <= sub_count_r b64 10 3 <= 5)%nat).
  { unfold sub_count_r. destruct (Rceil_spec (b64 (10 / 3))) as [C _].
    assert (Rceil (b64 (10 / 3)) < 5)%Z by (apply lt_IZR; lra). lia. }
  destruct N as [N1 N2]. apply le_INR in N1. apply le_INR in N2. cbn [INR] in N1, N2.
  assert (P : 0 < / INR (sub_count_r b64 10 3)) by (apply Rinv_0_lt_compat; lra).
  assert (P5 : / 5 <= / INR (sub_count_r b64 10 3)) by (apply Rinv_le_contravar; lra).
  unfold Rdiv. rewrite Rabs_right by lra. apply small_min. lra.
Qed.
