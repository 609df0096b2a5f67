(** Depths in a list of layers as the wave kernels see them. *)
From Verif Require Import Common Model.Curve Model.Layer Model.Waves.
Local Open Scope R_scope.

(** Depth [z] lies at distance [u] below the top of layer number [i]: inside the
    layer, or anywhere below when the layer is the last one. *)
Definition at_depth (ls : list wlayer) (z : R) (i : nat) (u : R) : Prop :=
  exists above l below, ls = above ++ l :: below /\ i = length above /\
    Rsum (map wl_thick above) + u = z /\ 0 <= u /\ (below <> [] -> u < wl_thick l).
