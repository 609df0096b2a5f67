(** What a user expects of a tabulated curve, stated on the two lists only. *)
From Coq Require Import Sorted.
From Verif Require Import Common.
Local Open Scope R_scope.

(** A usable table: as many values as strains, positive strictly increasing
    strains, at least one point. *)
Definition good_table (ss vs : list R) : Prop :=
  length ss = length vs /\ ss <> [] /\ Forall (fun s => 0 < s) ss /\ StronglySorted Rlt ss.

(** Point number [i] of the table. *)
Definition point (ss vs : list R) (i : nat) (s v : R) : Prop :=
  nth_error ss i = Some s /\ nth_error vs i = Some v.

(** The straight line through two points in (ln strain, value). *)
Definition chord (s0 v0 s1 v1 s : R) : R :=
  v0 + (v1 - v0) * ((ln s - ln s0) / (ln s1 - ln s0)).

(** Limiting a value to an interval, by cases. *)
Inductive limited (lo hi v : R) : R -> Prop :=
| lim_in : lo <= v <= hi -> limited lo hi v v
| lim_lo : v < lo -> limited lo hi v lo
| lim_hi : hi < v -> limited lo hi v hi.
