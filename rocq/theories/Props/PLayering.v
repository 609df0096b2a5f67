(** Property C31: random layer thicknesses. *)
From Coq Require Import String.
From Verif Require Import Common Model.Curve Model.Layer Model.Profile Model.Gauss Model.Variation
  Spec.ProfileSpec Spec.VariationSpec Proof.CommonFacts Proof.VariationEx
  Proof.ToroFacts Proof.ThicknessProps.
From Coquelicot Require Import Coquelicot.
Local Open Scope R_scope.

Lemma ex_toro : toro_ok toro_thick_default.
Proof. unfold toro_ok, toro_thick_default; cbn; lra. Qed.

(** C31: for every total depth and sequence of positive increments: all thicknesses are
    positive, every mid-depth is the centre of its layer, the accumulated increments are
    the integral of the layering rate down to each interface, and either the thicknesses
    add up to the total depth, the process having passed it with the last increment and
    not before, or the increments do not reach it yet. *)
Theorem C31_layering : forall m dt incs,
  toro_ok m -> 0 < dt -> List.Forall (fun e => 0 < e) incs ->
  exists tm o N, iter_thickness m dt incs = (map Some tm, o) /\
    List.Forall (fun y => 0 < fst y) tm /\
    (forall k t mid, nth_error tm k = Some (t, mid) -> centre (map fst tm) k mid) /\
    (forall k, (S k < length tm)%nat ->
       is_RInt (rate (tt_c1 m) (tt_c2 m) (tt_c3 m)) 0 (Rsum (firstn (S k) (map fst tm)))
         (Rsum (firstn (S k) incs))) /\
    is_RInt (rate (tt_c1 m) (tt_c2 m) (tt_c3 m)) 0 dt N /\
    (o = Done /\ Rsum (map fst tm) = dt /\
       Rsum (firstn (length tm - 1) incs) < N <= Rsum (firstn (length tm) incs) \/
     o = More /\ length tm = length incs /\ Rsum incs < N).
Proof. exact toro_layering. Qed.
Print Assumptions C31_layering.
Example C31_ex : toro_ok toro_thick_default /\ 0 < 30 /\ List.Forall (fun e => 0 < e) (cons 0.7 (cons 2.5 nil)).
Proof. split; [exact ex_toro|]. split; [lra|]. repeat (apply List.Forall_cons; [lra|]). apply List.Forall_nil. Qed.
