(** Programs that use layers and profiles in the documented way. *)
From Coq Require Import String.
From Verif Require Import Common Model.Layer Model.Profile Spec.ProfileSpec.
Local Open Scope R_scope.

(** The world before anything is created. *)
Definition dummy_soil : soil := mkSoil 0 "" 0 None (DConst 0).
Definition init_world : world :=
  mkWorld (fun _ => layer_make dummy_soil 0 0 0) 0 (fun _ => mkProfile [] 0) 0.

(** Which operations a well-behaved program performs.  The conditions are on the
    call itself: layers are given to one profile only, list positions are valid,
    and afterwards no layer compares equal to the half-space below it. *)
Definition fresh (w : world) (a : nat) : Prop :=
  (a < w_next w)%nat /\ l_prof (w_heap w a) = None.
Definition admissible (w : world) (o : op) : Prop :=
  match o with
  | ONewLayer _ _ _ _ => True
  | ONewProfile addrs wt =>
      NoDup addrs /\ (forall a, In a addrs -> fresh w a) /\
      bottom_distinct (map (w_heap w) addrs)
  | OAppend p a => (p < w_pnext w)%nat /\ fresh w a
  | OInsert p i a =>
      (p < w_pnext w)%nat /\ fresh w a /\ (0 <= i <= Z.of_nat (length (layers_of w p)))%Z /\
      bottom_distinct (view (step w o) p)
  | OSetThickness a t =>
      (a < w_next w)%nat /\
      forall p, l_prof (w_heap w a) = Some p -> bottom_distinct (view (step w o) p)
  | OUpdateLayers p start =>
      (p < w_pnext w)%nat /\ (0 <= start <= Z.of_nat (length (layers_of w p)))%Z /\
      bottom_distinct (view w p)
  | OLayer a _ => (a < w_next w)%nat
  | OLookup p _ => (p < w_pnext w)%nat /\ bottom_distinct (view w p)
  | OCopy p => (p < w_pnext w)%nat /\ bottom_distinct (map layer_copy (view w p))
  | OAutoDisc _ _ _ _ => False
  end.

(** Admissible histories. *)
Fixpoint admissible_run (w : world) (os : list op) : Prop :=
  match os with
  | [] => True
  | o :: rest => admissible w o /\ admissible_run (step w o) rest
  end.

