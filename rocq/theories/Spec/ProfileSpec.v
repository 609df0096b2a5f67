(** Geometry of a layered profile, stated on the list of layers top to bottom. *)
From Verif Require Import Common Model.Layer.
Local Open Scope R_scope.

(** Total thickness and weight of a list of layers. *)
Definition total_thick (ls : list layer) : R := fold_right (fun l acc => l_thick l + acc) 0 ls.
Definition total_weight (ls : list layer) : R :=
  fold_right (fun l acc => s_unit_wt (l_soil l) * l_thick l + acc) 0 ls.

(** Every layer starts where the layers above it end, and carries their weight. *)
Definition depths_cumulative (ls : list layer) : Prop :=
  forall above l below, ls = above ++ l :: below -> l_depth l = total_thick above.
Definition stresses_cumulative (ls : list layer) : Prop :=
  forall above l below, ls = above ++ l :: below -> l_svert l = total_weight above.

(** No layer above the bottom one compares equal to it, except with thickness 0. *)
Definition bottom_distinct (ls : list layer) : Prop :=
  forall above l middle bottom,
    ls = above ++ l :: middle ++ [bottom] -> layer_eqb l bottom = true -> l_thick bottom = 0.

(** Depth [d] lies at distance [within] below the top of layer number [i]: inside
    the layer, or anywhere below when the layer is the last one. *)
Definition contains_depth (ls : list layer) (d : R) (i : nat) (within : R) : Prop :=
  exists above l below,
    ls = above ++ l :: below /\ i = length above /\
    total_thick above + within = d /\ 0 <= within /\
    (below <> [] -> within < l_thick l).

(** [sub] divides layer [l] into equal parts of the same material no thicker than
    [limit], with no more parts than needed. *)
Definition equal_parts (l : layer) (limit : R) (sub : list layer) : Prop :=
  exists n, (1 <= n)%nat /\ length sub = n /\
    Forall (fun x => l_soil x = l_soil l /\ l_thick x * INR n = l_thick l /\
                     l_vs x = shear_vel l /\ l_dmin x = l_dmin l) sub /\
    l_thick l <= limit * INR n /\
    ((1 < n)%nat -> limit * INR (n - 1) < l_thick l).

(** Two layers that agree in everything but their place in a profile. *)
Definition same_core (a b : layer) : Prop :=
  l_soil a = l_soil b /\ l_thick a = l_thick b /\ l_vs a = l_vs b /\ l_dmin a = l_dmin b /\
  l_G a = l_G b /\ l_D a = l_D b /\ l_strain a = l_strain b /\ l_smax a = l_smax b.
