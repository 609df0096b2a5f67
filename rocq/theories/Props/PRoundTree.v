(** Property C152: branch weights in floating point. *)
From Coq Require Import Qreals.
From Verif Require Import Common Model.LogicTree Model.Rounded Model.RoundedTree Spec.LogicTreeSpec Spec.RoundSpec Spec.RoundTreeSpec.
From Verif Require Import Proof.RoundFacts Proof.RoundToro Proof.RoundTree.
From Coq Require Import String List.
Import ListNotations.
Local Open Scope R_scope.

(** Two nodes of two alternatives each, with weights 1/4, 3/4 and 1/2, 1/2. *)
Definition rt_nodes : list node :=
  [mkNode "a" [mkAlt (VInt 1) (1 # 4) [] []; mkAlt (VInt 2) (3 # 4) [] []];
   mkNode "b" [mkAlt (VInt 1) (1 # 2) [] []; mkAlt (VInt 2) (1 # 2) [] []]].
Lemma rt_quarter k : (0 <= k <= 4)%Z -> is_b64 (IZR k / 2 ^ 2).
Proof. intros H. apply is_b64_div; lia. Qed.
Lemma rt_floats : float_weights rt_nodes.
Proof.
  assert (Q1 : is_b64 (Q2R (1 # 4))) by (replace (Q2R (1 # 4)) with (IZR 1 / 2 ^ 2) by (unfold Q2R; cbn; lra); apply rt_quarter; lia).
  assert (Q3 : is_b64 (Q2R (3 # 4))) by (replace (Q2R (3 # 4)) with (IZR 3 / 2 ^ 2) by (unfold Q2R; cbn; lra); apply rt_quarter; lia).
  assert (Q2 : is_b64 (Q2R (1 # 2))) by (replace (Q2R (1 # 2)) with (IZR 2 / 2 ^ 2) by (unfold Q2R; cbn; lra); apply rt_quarter; lia).
  repeat (apply Forall_cons || apply Forall_nil || (split; [assumption|unfold Qle; cbn; lia])).
Qed.
Lemma rt_small k : 0 < k -> / 2 <= k * 4 -> / 2 ^ 1000 <= k.
Proof.
  intros H1 H2. apply (Rle_trans _ (/ 2 ^ 3)); [apply Rinv_le_contravar; [apply pow_lt; lra|apply Rle_pow; [lra|lia]]|]. cbn. lra.
Qed.

(** C152: the weight of a branch, multiplied in any order in binary64, is positive and
    within the error of one rounding per node but one of the exact product, unless the
    product is below 2^-1000. *)
Theorem C152_branch : forall nodes bs oe b w,
  NoDup (map n_name nodes) -> float_weights nodes -> (length nodes < 2 ^ 50)%nat ->
  tree_iter nodes = (bs, oe) -> In b bs -> ordinary_weight b -> branch_weight_r b w ->
  0 < w /\ within_error (length nodes - 1) w (Q2R (branch_weight b)).
Proof. exact branch_accurate. Qed.
Print Assumptions C152_branch.
Example C152_branch_ex : exists b bs w, tree_iter rt_nodes = (b :: bs, None) /\ ordinary_weight b /\ branch_weight_r b w.
Proof.
  eexists. eexists. eexists. split; [vm_compute; reflexivity|]. split.
  - unfold ordinary_weight. apply rt_small; unfold branch_weight, Q2R; cbn; lra.
  - right. cbn [map]. apply left_to_right.
Qed.

(** C152: the weights of the branches of a tree, added in any order, are within the
    error of one rounding per node and per branch (but two) of their exact sum, whatever
    conditions the tree has. *)
Theorem C152_total : forall nodes bs oe ws s,
  NoDup (map n_name nodes) -> float_weights nodes -> (length nodes < 2 ^ 50)%nat ->
  tree_iter nodes = (bs, oe) -> Forall ordinary_weight bs -> Forall2 branch_weight_r bs ws -> float_sum ws s ->
  within_error (length nodes - 1 + (length bs - 1)) s (Q2R (Qsum (map branch_weight bs))).
Proof. exact total_accurate. Qed.
Print Assumptions C152_total.
Example C152_total_ex : exists bs ws s, tree_iter rt_nodes = (bs, None) /\ length bs = 4%nat /\ Forall ordinary_weight bs /\
  Forall2 branch_weight_r bs ws /\ float_sum ws s.
Proof.
  eexists. eexists. eexists. split; [vm_compute; reflexivity|]. split; [reflexivity|]. split; [|split].
  - repeat apply Forall_cons; try apply Forall_nil; unfold ordinary_weight; apply rt_small; unfold branch_weight, Q2R; cbn; lra.
  - repeat (apply Forall2_cons; [right; cbn [map]; apply left_to_right|]). apply Forall2_nil.
  - right. apply left_to_right.
Qed.

(** C152: without the limit of 2^-1000 a branch of positive exact weight can have the
    computed weight zero. *)
Theorem C152_underflow : exists nodes b, tree_wf nodes /\ float_weights nodes /\ tree_iter nodes = ([b], None) /\
  Qlt 0 (branch_weight b) /\ forall w, branch_weight_r b w -> w = 0.
Proof. exact weight_underflow. Qed.
Print Assumptions C152_underflow.
