(** Properties C08-C15: profiles. *)
From Coq Require Import String Sorted.
From Verif Require Import Common Model.Curve Model.Layer Model.Profile Spec.CurveSpec Spec.LayerSpec
  Spec.ProfileSpec Spec.HistorySpec Spec.AbstractProfile Spec.EqualitySpec
  Proof.CommonFacts Proof.ProfileFacts Proof.ProfileRefine Proof.ProfileOps Proof.ProfileProps Proof.ProfileRefute Proof.ProfileDivided Proof.LayerEquality.
Local Open Scope R_scope.

(** A history used in the examples: three layers, an insertion, a strain. *)
Definition ex_run : list op :=
  [ONewLayer clay 10 200 (Some 0.05); ONewLayer soft 5 300 (Some 0.05);
   ONewLayer clay 0 500 (Some 0.05); ONewProfile [0; 1; 2]%nat 3;
   ONewLayer clay 4 250 (Some 0.05); OInsert 0%nat 1 3%nat;
   OLayer 1%nat (LSetStrain 0.02)].
Lemma ex_bottom h : l_thick (h 2%nat) = 0 -> forall pre, bottom_distinct (map h (pre ++ [2%nat])).
Proof.
  intros H pre. apply bottom_distinct_zero. intros b Hb. rewrite map_app in Hb. cbn [map] in Hb.
  rewrite last_opt_app in Hb. injection Hb as <-. exact H.
Qed.
Lemma insert_thick w p i a b : l_thick (w_heap (step w (OInsert p i a)) b) = l_thick (w_heap w b).
Proof.
  cbn [step]. unfold insert.
  match goal with |- context [update_layers ?w1 ?q ?j] => destruct (update_layers_core w1 q j b) as (_ & E & _) end.
  symmetry. exact E.
Qed.
Lemma new_thick w addrs wt b : l_thick (w_heap (step w (ONewProfile addrs wt)) b) = l_thick (w_heap w b).
Proof.
  cbn [step]. unfold new_profile.
  match goal with |- context [update_layers ?w1 ?q ?j] => destruct (update_layers_core w1 q j b) as (_ & E & _) end.
  symmetry. exact E.
Qed.
Lemma ex_admissible : admissible_run init_world ex_run /\ Forall op_defined ex_run.
Proof.
  split; [|repeat constructor].
  assert (HB : forall w p, layers_of w p = [0; 3; 1; 2]%nat -> l_thick (w_heap w 2%nat) = 0 ->
            bottom_distinct (view w p)).
  { intros w p E Ht. unfold view. rewrite E. exact (ex_bottom (w_heap w) Ht [0; 3; 1]%nat). }
  unfold ex_run. cbn [admissible_run].
  split; [exact I|]. split; [exact I|]. split; [exact I|]. split.
  { cbn [admissible]. split; [repeat constructor; cbn; intuition congruence|]. split.
    - intros a Ha. split; [cbn in *; lia|]. destruct Ha as [<-|[<-|[<-|[]]]]; reflexivity.
    - match goal with |- bottom_distinct (map ?h _) => apply (ex_bottom h) with (pre := [0; 1]%nat) end. runw. rdec. reflexivity. }
  split; [exact I|]. split.
  { cbn [admissible]. split; [cbn; lia|]. split; [split; [cbn; lia|reflexivity]|].
    split; [cbn; lia|]. apply HB; [reflexivity|]. rewrite insert_thick.
    change (l_thick (w_heap (step (step (run init_world (firstn 3 ex_run)) (ONewProfile [0; 1; 2]%nat 3))
                               (ONewLayer clay 4 250 (Some 0.05))) 2%nat) = 0).
    transitivity (l_thick (w_heap (step (run init_world (firstn 3 ex_run)) (ONewProfile [0; 1; 2]%nat 3)) 2%nat));
      [reflexivity|]. rewrite new_thick. reflexivity. }
  split; [|exact I]. cbn [admissible].
  match goal with |- (1 < ?n)%nat => change n with 4%nat end. lia.
Qed.

(** C08: after any admissible history of construction, append, insert, thickness
    changes, strain assignments, lookups and copies, every layer of every profile starts
    where the layers above it end and carries their weight. Admissible
    (Spec/HistorySpec.v): valid positions, each layer object in one profile, and no
    layer equal by value to a half-space of non-zero thickness. *)
Theorem C08_depths : forall os p,
  admissible_run init_world os -> (p < w_pnext (run init_world os))%nat ->
  depths_cumulative (view (run init_world os) p) /\
  stresses_cumulative (view (run init_world os) p).
Proof. exact history_depths. Qed.
Print Assumptions C08_depths.
Example C08_depths_ex : admissible_run init_world ex_run /\ (0 < w_pnext (run init_world ex_run))%nat.
Proof. split; [apply ex_admissible|].
  match goal with |- (0 < ?n)%nat => change n with 1%nat end. lia. Qed.

(** C08,C09: the same as a refinement: a description holding only the thickness and unit
    weight of each layer and the list of layers of each profile predicts the depth, the
    vertical stress, the owner and the water table of every layer after every admissible
    history. *)
Theorem C08_refinement : forall os p i a,
  admissible_run init_world os -> Forall op_defined os ->
  (p < w_pnext (run init_world os))%nat ->
  nth_error (layers_of (run init_world os) p) i = Some a ->
  a_layers (arun ainit os) p = layers_of (run init_world os) p /\
  l_depth (w_heap (run init_world os) a) = adepth (arun ainit os) p i /\
  l_svert (w_heap (run init_world os) a) = aweight (arun ainit os) p i /\
  l_prof (w_heap (run init_world os) a) = Some p /\
  a_wt (arun ainit os) p = p_wt (w_profs (run init_world os) p) /\
  l_thick (w_heap (run init_world os) a) = a_thick (arun ainit os) a /\
  s_unit_wt (l_soil (w_heap (run init_world os) a)) = a_uwt (arun ainit os) a.
Proof. exact run_depths. Qed.
Print Assumptions C08_refinement.
Example C08_refinement_ex : adepth (arun ainit ex_run) 0 3 = 19 /\ aweight (arun ainit ex_run) 0 2 = 252.
Proof. split; unfold adepth, aweight, arun, ex_run; cbn [fold_left astep]; change (Z.to_nat 1) with 1%nat; cbn; lra. Qed.

(** C08: a layer that compares equal to a bottom layer of non-zero thickness does not
    push the layers below it down. *)
Theorem C08_refuted_equal_bottom : ~ depths_cumulative (view (run init_world twins) 0%nat).
Proof. exact twins_wrong. Qed.
Print Assumptions C08_refuted_equal_bottom.

(** C08: insert(-1, layer) moves the half-space to depth 0 and leaves the new layer
    without a profile. *)
Theorem C08_refuted_negative_insert : let w := run init_world (site3 ++ [OInsert 0%nat (-1) 3%nat]) in
  layers_of w 0%nat = [0; 1; 3; 2]%nat /\
  l_depth (w_heap w 2%nat) = 0 /\ total_thick (map (w_heap w) [0; 1; 3]%nat) = 18 /\
  l_prof (w_heap w 3%nat) = None.
Proof. exact insert_negative_wrong. Qed.
Print Assumptions C08_refuted_negative_insert.

(** C08: insert(len + 1, layer) succeeds but leaves the new layer at depth 0 without a
    profile. *)
Theorem C08_refuted_insert_past_end : let w0 := run init_world site3 in
  snd (insert w0 0%nat 4 3%nat) = Ok tt /\
  let w := fst (insert w0 0%nat 4 3%nat) in
  layers_of w 0%nat = [0; 1; 2; 3]%nat /\
  l_depth (w_heap w 3%nat) = 0 /\ total_thick (map (w_heap w) [0; 1; 2]%nat) = 15 /\
  l_prof (w_heap w 3%nat) = None.
Proof. exact insert_past_end_wrong. Qed.
Print Assumptions C08_refuted_insert_past_end.

(** C09: total vertical stress at a distance into a layer is the weight above plus the
    weight of the part of the layer; distances beyond the thickness raise
    AssertionError. *)
Theorem C09_total_stress : forall w p a above below within,
  stresses_cumulative (view w p) -> layers_of w p = above ++ a :: below ->
  stress_vert w a within false =
  if Rle_dec within (l_thick (w_heap w a))
  then Ok (total_weight (map (w_heap w) above) + within * s_unit_wt (l_soil (w_heap w a)))
  else Err AssertionError.
Proof. exact stress_vert_total_spec. Qed.
Print Assumptions C09_total_stress.

(** C09,C10: after any admissible history, total and effective stress are given by the
    simple description. *)
Theorem C09_history_stress : forall os p i a within,
  admissible_run init_world os -> Forall op_defined os ->
  let w := run init_world os in let m := arun ainit os in
  (p < w_pnext w)%nat -> nth_error (layers_of w p) i = Some a -> within <= a_thick m a ->
  stress_vert w a within false = Ok (aweight m p i + a_uwt m a * within) /\
  stress_vert w a within true =
    Ok (aweight m p i + a_uwt m a * within - 9.80665 * Rmax (adepth m p i + within - a_wt m p) 0).
Proof. exact history_effective. Qed.
Print Assumptions C09_history_stress.
Example C09_history_ex : 2 <= a_thick (arun ainit ex_run) 3 /\
  nth_error (layers_of (run init_world ex_run) 0) 1 = Some 3%nat.
Proof. split; [cbn; lra|]. reflexivity. Qed.

(** C10: pore pressure is never negative, zero at and above the water table, and grows
    with slope g below it. *)
Theorem C10_pore_pressure : forall wt d,
  0 <= pore_pressure wt d /\ (d <= wt -> pore_pressure wt d = 0) /\
  (wt <= d -> pore_pressure wt d = 9.80665 * (d - wt)).
Proof. exact pore_pressure_spec. Qed.
Print Assumptions C10_pore_pressure.

(** C10: the effective stress is the total minus the pore pressure, never above the
    total, and equal to it above the water table. *)
Theorem C10_effective : forall w p a within s,
  l_prof (w_heap w a) = Some p -> stress_vert w a within false = Ok s ->
  exists s', stress_vert w a within true = Ok s' /\
    s' = s - GRAVITY * Rmax (l_depth (w_heap w a) + within - p_wt (w_profs w p)) 0 /\
    s' <= s /\ (l_depth (w_heap w a) + within <= p_wt (w_profs w p) -> s' = s).
Proof. exact effective_stress_spec. Qed.
Print Assumptions C10_effective.

(** C11: for a depth >= 0 the lookup returns the only layer that contains it, with the
    distance below its top, whatever the stored depths were before. *)
Theorem C11_lookup : forall w p d,
  NoDup (layers_of w p) -> bottom_distinct (view w p) -> layers_of w p <> [] ->
  Forall (fun l => 0 <= l_thick l) (view w p) -> 0 <= d ->
  exists i u, snd (lookup_depth w p d) = Ok (i, u) /\ contains_depth (view w p) d i u /\
    forall j v, contains_depth (view w p) d j v -> j = i /\ v = u.
Proof. exact lookup_unique. Qed.
Print Assumptions C11_lookup.
Example C11_lookup_ex : let w := run init_world site3 in
  NoDup (layers_of w 0) /\ layers_of w 0 <> [] /\ Forall (fun l => 0 <= l_thick l) (view w 0) /\
  bottom_distinct (view w 0).
Proof.
  cbn zeta. split; [runw; rdec; repeat constructor; cbn; intuition congruence|].
  split; [runw; rdec; discriminate|]. split; [runw; rdec; repeat constructor; lra|].
  apply bottom_distinct_zero. intros b. runw. rdec. intros E. injection E as <-. reflexivity.
Qed.

(** C11: looking up the top of a layer of positive thickness (or of the half-space)
    returns that layer with distance 0. *)
Theorem C11_interface : forall w p above a below,
  NoDup (layers_of w p) -> bottom_distinct (view w p) ->
  Forall (fun l => 0 <= l_thick l) (view w p) ->
  layers_of w p = above ++ a :: below -> (below = [] \/ 0 < l_thick (w_heap w a)) ->
  snd (lookup_depth w p (total_thick (map (w_heap w) above))) = Ok (length above, 0).
Proof. exact lookup_interface. Qed.
Print Assumptions C11_interface.

(** C11: a negative depth is not rejected: the lookup answers the half-space with a
    negative distance. *)
Theorem C11_negative : forall w p d,
  NoDup (layers_of w p) -> bottom_distinct (view w p) -> layers_of w p <> [] ->
  Forall (fun l => 0 <= l_thick l) (view w p) -> d < 0 ->
  snd (lookup_depth w p d) =
  Ok ((length (layers_of w p) - 1)%nat, d - total_thick (removelast (view w p))).
Proof. exact lookup_depth_negative. Qed.
Print Assumptions C11_negative.

(** C12,C08: two layers are equal exactly if their soil types have the same class, name,
    unit weight and curves, and they have the same thickness and initial velocity. *)
Theorem C12_equality : forall a b,
  layer_eqb a b = true <-> equal_layers a b.
Proof. exact layer_equality. Qed.
Print Assumptions C12_equality.

(** C08: the condition on the bottom layer in these terms. *)
Theorem C08_bottom : forall ls,
  bottom_distinct ls <->
  forall above l middle bottom, ls = above ++ l :: middle ++ [bottom] -> equal_layers l bottom -> l_thick bottom = 0.
Proof. exact bottom_distinct_meaning. Qed.
Print Assumptions C08_bottom.

(** C12: location(index=i) names layer i (len + i for negative i) when no earlier layer
    is equal to it. *)
Theorem C12_index : forall w p i k a,
  py_index i (length (layers_of w p)) = Some k -> nth_error (layers_of w p) k = Some a ->
  (forall j b, (j < k)%nat -> nth_error (layers_of w p) j = Some b ->
     b <> a /\ ~ equal_layers (w_heap w b) (w_heap w a)) ->
  snd (location w p None (Some i)) = Ok (k, a, 0).
Proof. exact location_by_index. Qed.
Print Assumptions C12_index.

(** C12: in every case the layer object is the right one and the index is that of the
    first layer that is it or equal to it. *)
Theorem C12_layer : forall w p i r,
  snd (location w p None (Some i)) = Ok r ->
  exists k a j, py_index i (length (layers_of w p)) = Some k /\
    nth_error (layers_of w p) k = Some a /\ r = (j, a, 0) /\ (j <= k)%nat /\
    exists b, nth_error (layers_of w p) j = Some b /\ (b = a \/ equal_layers (w_heap w b) (w_heap w a)) /\
      (forall i' b', (i' < j)%nat -> nth_error (layers_of w p) i' = Some b' ->
         b' <> a /\ ~ equal_layers (w_heap w b') (w_heap w a)).
Proof. exact location_by_index_layer. Qed.
Print Assumptions C12_layer.

(** C12: with two equal layers, location(index=2) names index 0. *)
Theorem C12_refuted : snd (location (run init_world twins) 0%nat None (Some 2%Z)) = Ok (0%nat, 2%nat, 0).
Proof. exact location_twin. Qed.
Print Assumptions C12_refuted.

(** C13: when every layer has its initial modulus, the copy has the same soil types,
    thicknesses, velocities, minimum damping and water table, uses new layer objects,
    and leaves the original unchanged. *)
Theorem C13_copy : forall w p,
  (forall a, In a (layers_of w p) -> (a < w_next w)%nat) ->
  Forall (fun l => 0 < s_unit_wt (l_soil l) /\ 0 <= l_vs l /\ shear_mod l = initial_shear_mod l) (view w p) ->
  let r := profile_copy w p in
  Forall2 (fun l l' => l_soil l' = l_soil l /\ l_thick l' = l_thick l /\ l_vs l' = l_vs l /\
                       l_dmin l' = l_dmin l) (view w p) (view (fst r) (snd r)) /\
  p_wt (w_profs (fst r) (snd r)) = p_wt (w_profs w p) /\
  (forall a, In a (layers_of (fst r) (snd r)) -> (w_next w <= a)%nat) /\
  (forall a, (a < w_next w)%nat -> w_heap (fst r) a = w_heap w a) /\
  (forall q, (q < w_pnext w)%nat -> w_profs (fst r) q = w_profs w q).
Proof. exact copy_preserves. Qed.
Print Assumptions C13_copy.
Example C13_ex : let w := run init_world site3 in
  Forall (fun l => 0 < s_unit_wt (l_soil l) /\ 0 <= l_vs l /\ shear_mod l = initial_shear_mod l) (view w 0) /\
  length (view w 0) = 3%nat.
Proof. cbn zeta. split; [|reflexivity]. runw. rdec. repeat constructor; try lra. Qed.

(** C13: in general the velocity of the copy is the strain-compatible velocity of the
    original. *)
Theorem C13_copy_velocity : forall w p,
  (forall a, In a (layers_of w p) -> (a < w_next w)%nat) ->
  let r := profile_copy w p in
  Forall2 (fun l l' => l_soil l' = l_soil l /\ l_thick l' = l_thick l /\ l_vs l' = shear_vel l /\
                       l_dmin l' = l_dmin l) (view w p) (view (fst r) (snd r)).
Proof. exact copy_strain_compatible. Qed.
Print Assumptions C13_copy_velocity.

(** C13: after a strain of 2 % was assigned, the copy of a layer of velocity 200 has
    initial velocity 100. *)
Theorem C13_refuted : let w := run init_world strained in
  map l_vs (view w 0%nat) = [200; 500] /\
  exists x, map l_vs (view w 1%nat) = [100; x].
Proof. exact copy_strained. Qed.
Print Assumptions C13_refuted.

(** C14: auto_discretize replaces every selected layer by the smallest number of equal
    parts not exceeding wave_frac * Vs / max_freq, keeps the others and the half-space,
    and preserves total thickness, travel time, attenuation, water table and the depth
    of the half-space; existing layers keep their properties and existing profiles their
    lists. *)
Theorem C14_refines : forall w p f wf nl,
  (forall a, In a (layers_of w p) -> (a < w_next w)%nat) -> NoDup (layers_of w p) ->
  layers_of w p <> [] -> Forall site_ok (removelast (view w p)) -> 0 < f -> 0 < wf ->
  exists w' q groups bottom,
    auto_discretize w p f wf nl = (w', Ok q) /\ last_opt (view w p) = Some bottom /\
    Forall2 (fun l g => if negb nl || is_nonlinear (l_soil l)
                        then equal_parts l (shear_vel l / f * wf) g else g = [l])
      (removelast (view w p)) groups /\
    Forall2 same_core (concat groups ++ [bottom]) (view w' q) /\
    p_wt (w_profs w' q) = p_wt (w_profs w p) /\
    total_thick (view w' q) = total_thick (view w p) /\
    Rsum (map travel_time (removelast (view w' q))) = Rsum (map travel_time (removelast (view w p))) /\
    (Forall (fun l => shear_vel l = l_vs l) (removelast (view w p)) ->
     site_attenuation (view w' q) = site_attenuation (view w p)) /\
    (bottom_distinct (view w' q) ->
     depths_cumulative (view w' q) /\
     exists b', last_opt (view w' q) = Some b' /\ l_depth b' = total_thick (removelast (view w p))) /\
    (forall r, (r < w_pnext w)%nat -> w_profs w' r = w_profs w r) /\
    (forall a, (a < w_next w)%nat -> same_core (w_heap w a) (w_heap w' a)).
Proof. exact auto_discretize_refines. Qed.
Print Assumptions C14_refines.
Example C14_ex : let w := run init_world site3 in
  Forall site_ok (removelast (view w 0)) /\ NoDup (layers_of w 0) /\ layers_of w 0 <> [].
Proof.
  cbn zeta. split; [|split; [runw; rdec; repeat constructor; cbn; intuition congruence|runw; rdec; discriminate]].
  assert (HV : forall l, In l (view (run init_world site3) 0) ->
     0 < s_unit_wt (l_soil l) /\ 0 < l_vs l /\ shear_mod l = initial_shear_mod l /\ 0 <= l_thick l).
  { intros l. runw. rdec. intros [<-|[<-|[<-|[]]]]; repeat split; lra. }
  apply Forall_forall. intros l Hl. destruct (HV l) as (H1 & H2 & H3 & H4).
  { rewrite (last_opt_inv (view (run init_world site3) 0) (w_heap (run init_world site3) 2%nat)) by
      (runw; rdec; reflexivity). apply in_or_app. now left. }
  split; [exact H1|]. split; [|exact H4]. rewrite shear_vel_initial; auto; lra.
Qed.

(** C15: for every profile with a linear layer and a nonlinear layer above the
    half-space: after auto_discretize, changing the thickness of the linear layer leaves
    the nonlinear layer at its old depth, although both still belong to the original
    profile. *)
Theorem C15_refuted : forall w p f wf a b t w' q,
  (p < w_pnext w)%nat ->
  (forall a, In a (layers_of w p) -> (a < w_next w)%nat) -> NoDup (layers_of w p) ->
  In a (removelast (layers_of w p)) -> In b (removelast (layers_of w p)) ->
  is_nonlinear (l_soil (w_heap w a)) = false -> is_nonlinear (l_soil (w_heap w b)) = true ->
  auto_discretize w p f wf true = (w', Ok q) ->
  let w2 := fst (set_thickness w' a t) in
  layers_of w2 p = layers_of w p /\
  l_thick (w_heap w2 a) = t /\ w_heap w2 b = w_heap w b.
Proof. exact auto_discretize_detaches. Qed.
Print Assumptions C15_refuted.
Example C15_ex :
  let w := run init_world [ONewLayer clay 10 200 (Some 0.05); ONewLayer soft 10 300 (Some 0.05);
                           ONewLayer clay 0 500 (Some 0.05); ONewProfile [0; 1; 2]%nat 0] in
  In 0%nat (removelast (layers_of w 0)) /\ In 1%nat (removelast (layers_of w 0)) /\
  is_nonlinear (l_soil (w_heap w 0%nat)) = false /\ is_nonlinear (l_soil (w_heap w 1%nat)) = true /\
  NoDup (layers_of w 0).
Proof.
  cbn zeta. split; [runw; rdec; auto|]. split; [runw; rdec; auto|]. split; [runw; rdec; reflexivity|].
  split; [runw; rdec; reflexivity|]. runw; rdec. repeat constructor; cbn; intuition congruence.
Qed.

Lemma set_thick_other w a t b : b <> a -> l_thick (w_heap (fst (set_thickness w a t)) b) = l_thick (w_heap w b).
Proof.
  intros N. unfold set_thickness. set (w1 := set_heap w _).
  assert (E1 : l_thick (w_heap w1 b) = l_thick (w_heap w b)) by (unfold w1; cbn; now rewrite hset_other).
  destruct (l_prof (w_heap w1 a)) as [q|]; [|exact E1]. destruct (profile_index w1 q a) as [i|e]; [|exact E1].
  cbn [fst]. destruct (update_layers_core w1 q (Z.of_nat i + 1) b) as (_ & <- & _). exact E1.
Qed.

(** C15: if every layer above the half-space is divided (nonlinear_only=False, or all of
    them nonlinear), the original profile goes on working: changing the thickness of one
    of its layers above the half-space puts all its layers, half-space included, at
    their depths and stresses. *)
Theorem C15_divided_partial : forall os p f wf nl a t w' q,
  let w := run init_world os in
  admissible_run init_world os -> (p < w_pnext w)%nat ->
  (nl = true -> forall b, In b (removelast (layers_of w p)) -> is_nonlinear (l_soil (w_heap w b)) = true) ->
  auto_discretize w p f wf nl = (w', Ok q) -> In a (removelast (layers_of w p)) ->
  let w2 := fst (set_thickness w' a t) in
  bottom_distinct (view w2 p) ->
  snd (set_thickness w' a t) = Ok tt /\ layers_of w2 p = layers_of w p /\ l_thick (w_heap w2 a) = t /\
  depths_cumulative (view w2 p) /\ stresses_cumulative (view w2 p) /\
  (forall b, In b (layers_of w p) -> l_prof (w_heap w2 b) = Some p).
Proof. exact divided_usable. Qed.
Print Assumptions C15_divided_partial.
Example C15_divided_ex : exists w' q, auto_discretize (run init_world ex_run) 0 50 0.2 false = (w', Ok q) /\
  In 1%nat (removelast (layers_of (run init_world ex_run) 0)) /\ bottom_distinct (view (fst (set_thickness w' 1 7)) 0).
Proof.
  pose proof (run_inv _ _ init_inv (proj1 ex_admissible)) as I.
  assert (L : layers_of (run init_world ex_run) 0 = [0; 3; 1; 2]%nat) by reflexivity.
  assert (N : w_pnext (run init_world ex_run) = 1%nat) by reflexivity.
  assert (T0 : l_thick (w_heap (run init_world ex_run) 2%nat) = 0) .
  { destruct (run_depths ex_run 0 3 2%nat (proj1 ex_admissible) (proj2 ex_admissible)) as (_ & _ & _ & _ & _ & H & _);
      [rewrite N; lia|rewrite L; reflexivity|]. rewrite H. reflexivity. }
  destruct (auto_discretize_spec (run init_world ex_run) 0 50 0.2 false) as (w' & q & _ & _ & E & _ & _ & _ & _ & _ & _ & C & P & _).
  - intros a Ha. apply (inv_alloc _ I 0%nat); [rewrite N; lia|exact Ha].
  - apply (inv_nodup _ I). rewrite N. lia.
  - rewrite L. discriminate.
  - exists w', q. split; [exact E|]. split; [rewrite L; cbn; tauto|].
    assert (L2 : layers_of (fst (set_thickness w' 1 7)) 0 = [0; 3; 1; 2]%nat).
    { rewrite <- L. unfold layers_of. rewrite set_thickness_profs, P by (rewrite N; lia). reflexivity. }
    unfold view. rewrite L2. apply (ex_bottom _ ) with (pre := [0; 3; 1]%nat).
    rewrite set_thick_other by discriminate. destruct (C 2%nat) as (_ & <- & _); [|exact T0].
    apply (inv_alloc _ I 0%nat); [rewrite N; lia|rewrite L; cbn; tauto].
Qed.
