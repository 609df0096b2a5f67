(** What a curve table of a soil type with documented behaviour looks like. *)
From Verif Require Import Common Model.Curve Model.Layer Spec.SoilModelSpec.
Local Open Scope R_scope.

(** The soil tabulates both curves at the strains [ss]: the modulus reduction starts at
    one, stays positive and falls with strain; the damping is positive and rises. *)
Definition softens (ss : list R) (s : soil) : Prop :=
  exists mc dc ms, s_mod s = Some mc /\ s_damp s = DCurve dc /\
    c_strains mc = ss /\ c_strains dc = ss /\
    c_values mc = 1 :: ms /\ length (1 :: ms) = length ss /\ length (c_values dc) = length ss /\
    List.Forall (fun m => 0 < m <= 1) (c_values mc) /\ falls ss (c_values mc) /\
    List.Forall (fun d => 0 < d) (c_values dc) /\ rises ss (c_values dc).

(** The first strain of a list is not negative and no other is smaller. *)
Definition first_smallest (ss : list R) : Prop :=
  exists s0 rest, ss = s0 :: rest /\ 0 <= s0 /\ List.Forall (fun s => s0 <= s) rest.
