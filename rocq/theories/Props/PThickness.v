(** Properties C32, C39 and C40: profiles with random layer thicknesses and half-space depths. *)
From Coq Require Import String.
From Verif Require Import Common Model.Curve Model.Layer Model.Profile Model.Gauss Model.Variation
  Spec.ProfileSpec Spec.VariationSpec Proof.CommonFacts Proof.VariationEx
  Proof.ToroFacts Proof.ThicknessProps.
Local Open Scope R_scope.

(** C32: a profile with increasing depths and at least one layer above the half-space is
    always varied: each new layer has the generated thickness and the soil type,
    velocity and minimum damping of the layer that contains its centre; the half-space
    stays at its depth with its soil type and velocity; the water table and every
    existing object are unchanged. The half-space gets the minimum damping of its soil
    type. *)
Theorem C32_profile_partial : forall m w p incs dm,
  toro_ok m -> List.Forall (fun e => 0 < e) incs ->
  allocated w p -> depths_cumulative (view w p) -> (2 <= length (view w p))%nat ->
  List.Forall (fun l => 0 <= l_thick l) (view w p) -> 0 < total_thick (removelast (view w p)) ->
  (forall hsl, last_opt (view w p) = Some hsl -> soil_damping_min (l_soil hsl) = Ok dm) ->
  exists hsl tm o, last_opt (view w p) = Some hsl /\
    iter_thickness m (total_thick (removelast (view w p))) incs = (map Some tm, o) /\
    (o = More -> toro_thickness_call m w p incs = (w, None)) /\
    (o <> More -> exists w' q layers bottom,
       toro_thickness_call m w p incs = (w', Some (Ok q)) /\
       view w' q = layers ++ [bottom] /\
       Forall2 (fun y l' => l_thick l' = fst y /\
          exists l, hosts (view w p) (snd y) l /\ l_soil l' = l_soil l /\ l_vs l' = l_vs l /\ l_dmin l' = l_dmin l)
         tm layers /\
       l_soil bottom = l_soil hsl /\ l_vs bottom = l_vs hsl /\ l_thick bottom = 0 /\ l_dmin bottom = dm /\
       depths_cumulative (view w' q) /\ l_depth bottom = total_thick (removelast (view w p)) /\
       p_wt (w_profs w' q) = p_wt (w_profs w p) /\
       (forall a, (a < w_next w)%nat -> w_heap w' a = w_heap w a) /\
       (forall r, (r < w_pnext w)%nat -> w_profs w' r = w_profs w r) /\
       (w_pnext w <= q < w_pnext w')%nat /\ (w_next w <= w_next w')%nat /\
       NoDup (layers_of w' q) /\ (forall a, In a (layers_of w' q) -> (w_next w <= a < w_next w')%nat)).
Proof. exact toro_profile. Qed.
Print Assumptions C32_profile_partial.
Example C32_ex : allocated ex_w 0 /\ depths_cumulative (view ex_w 0) /\ (2 <= List.length (view ex_w 0))%nat /\
  List.Forall (fun l => 0 <= l_thick l) (view ex_w 0) /\ 0 < total_thick (removelast (view ex_w 0)) /\
  (forall hsl, last_opt (view ex_w 0) = Some hsl -> soil_damping_min (l_soil hsl) = Ok 0.01).
Proof.
  split; [exact ex_allocated|]. split; [exact ex_depths|]. split; [cbn; lia|]. split; [exact ex_thick_ok|].
  rewrite ex_total. split; [lra|]. intros hsl E. injection E as <-. reflexivity.
Qed.

(** C32: a half-space layer with a minimum damping of its own always loses it. *)
Theorem C32_refuted : forall m w p incs dm hsl w' q,
  toro_ok m -> List.Forall (fun e => 0 < e) incs -> allocated w p -> depths_cumulative (view w p) ->
  (2 <= length (view w p))%nat -> List.Forall (fun l => 0 <= l_thick l) (view w p) -> 0 < total_thick (removelast (view w p)) ->
  last_opt (view w p) = Some hsl -> soil_damping_min (l_soil hsl) = Ok dm -> l_dmin hsl <> dm ->
  toro_thickness_call m w p incs = (w', Some (Ok q)) ->
  exists bottom, last_opt (view w' q) = Some bottom /\ l_dmin bottom <> l_dmin hsl.
Proof. exact toro_half_space_damping. Qed.
Print Assumptions C32_refuted.
Example C32_refuted_ex : exists hsl, last_opt (view ex_w 0) = Some hsl /\ l_dmin hsl <> 0.01.
Proof. exists (ex_heap 2). split; [reflexivity|cbn; lra]. Qed.

(** C39: for every sampled depth d >= 0 the half-space of the result is the half-space
    object of the input, at depth exactly d; above it are the original layers, the last
    one cut to less than its thickness, or, when d is below the original half-space,
    copies of the deepest layer with a common thickness less than twice the original
    one. *)
Theorem C39_depth_partial : forall w p d hsl parent,
  allocated w p -> NoDup (layers_of w p) -> last_opt (view w p) = Some hsl -> l_thick hsl = 0 ->
  second_last (view w p) = Some parent -> 0 < l_thick parent -> 0 < s_unit_wt (l_soil parent) ->
  List.Forall (fun l => 0 <= l_thick l) (view w p) -> 0 <= d ->
  exists w' q layers bottom, half_space_call w p d = (w', Some (Ok q)) /\
    view w' q = layers ++ [bottom] /\ same_core hsl bottom /\
    depths_cumulative (view w' q) /\ total_thick layers = d /\ l_depth bottom = d /\
    p_wt (w_profs w' q) = p_wt (w_profs w p) /\
    ((exists above l below ls1 l1, view w p = above ++ l :: below /\ below <> [] /\ layers = ls1 ++ [l1] /\
        Forall2 (fun x y => taken x y /\ l_thick y = l_thick x) above ls1 /\ taken l l1 /\
        l_thick l1 = d - total_thick above /\ 0 <= l_thick l1 < l_thick l) \/
     (exists above ls1 ls2 t, view w p = above ++ [parent; hsl] /\ layers = ls1 ++ ls2 /\ ls2 <> [] /\
        Forall2 (fun x y => taken x y /\ l_thick y = l_thick x) above ls1 /\
        List.Forall (fun y => taken parent y /\ l_thick y = t) ls2 /\ l_thick parent <= t < 2 * l_thick parent)) /\
    last_opt (layers_of w' q) = last_opt (layers_of w p) /\
    (forall r, (r < w_pnext w)%nat -> w_profs w' r = w_profs w r) /\
    (forall a, (a < w_next w)%nat -> same_core (w_heap w a) (w_heap w' a)) /\
    (forall a, (a < w_next w)%nat -> In a (removelast (layers_of w p)) ->
       w_heap w' a = w_heap (fst (update_layers w p 0)) a).
Proof. exact half_space_depth. Qed.
Print Assumptions C39_depth_partial.
Example C39_ex : allocated ex_w 0 /\ NoDup (layers_of ex_w 0) /\ last_opt (view ex_w 0) = Some (ex_heap 2) /\ l_thick (ex_heap 2) = 0 /\
  second_last (view ex_w 0) = Some (ex_heap 1) /\ 0 < l_thick (ex_heap 1) /\ 0 < s_unit_wt (l_soil (ex_heap 1)) /\
  List.Forall (fun l => 0 <= l_thick l) (view ex_w 0) /\ 0 <= 55.
Proof.
  split; [exact ex_allocated|]. split; [exact ex_nodup|]. split; [reflexivity|]. split; [reflexivity|]. split; [reflexivity|].
  split; [cbn; lra|]. split; [cbn; lra|]. split; [exact ex_thick_ok|lra].
Qed.

(** C39: at the depth of an interface, or at the surface, the result has a layer of
    thickness zero above the half-space. *)
Theorem C39_refuted : forall w p d hsl parent above l below,
  allocated w p -> NoDup (layers_of w p) -> last_opt (view w p) = Some hsl -> l_thick hsl = 0 ->
  second_last (view w p) = Some parent -> 0 < l_thick parent -> 0 < s_unit_wt (l_soil parent) ->
  List.Forall (fun x => 0 <= l_thick x) (view w p) ->
  view w p = above ++ l :: below -> below <> [] -> 0 < l_thick l -> d = total_thick above ->
  exists w' q layers l1 bottom, half_space_call w p d = (w', Some (Ok q)) /\
    view w' q = (layers ++ [l1]) ++ [bottom] /\ l_thick l1 = 0.
Proof. exact half_space_interface. Qed.
Print Assumptions C39_refuted.
Example C39_refuted_ex : view ex_w 0 = cons (ex_heap 0) nil ++ ex_heap 1 :: cons (ex_heap 2) nil /\
  0 < l_thick (ex_heap 1) /\ 10 = total_thick (cons (ex_heap 0) nil).
Proof. split; [reflexivity|]. cbn. split; lra. Qed.

(** C40: the half-space of the input profile reports the sampled depth afterwards, so
    that the depths of the input are consistent only if this is the original depth; the
    depths of the layers above it and all other attributes are unchanged. *)
Theorem C40_refuted : forall w p d hsl parent,
  (p < w_pnext w)%nat ->
  allocated w p -> NoDup (layers_of w p) -> last_opt (view w p) = Some hsl -> l_thick hsl = 0 ->
  second_last (view w p) = Some parent -> 0 < l_thick parent -> 0 < s_unit_wt (l_soil parent) ->
  List.Forall (fun x => 0 <= l_thick x) (view w p) -> 0 <= d ->
  exists w' q b, half_space_call w p d = (w', Some (Ok q)) /\
    last_opt (view w' p) = Some b /\ l_depth b = d /\
    (depths_cumulative (view w' p) -> d = total_thick (removelast (view w p))) /\
    (depths_cumulative (view w p) -> map l_depth (removelast (view w' p)) = map l_depth (removelast (view w p))) /\
    Forall2 same_core (view w p) (view w' p).
Proof. exact half_space_moves_input. Qed.
Print Assumptions C40_refuted.
