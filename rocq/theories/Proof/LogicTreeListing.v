(** Conditions written as a value or as the list of that one value: C159. *)
From Coq Require Import QArith String Qabs.
From Verif Require Import Common Model.LogicTree Spec.LogicTreeSpec Spec.LogicTreeListing Proof.LogicTreeFacts.
Local Open Scope Q_scope.

Lemma listed_matches r v : no_float r -> matches (listed r) v = matches r v.
Proof.
  intros H. destruct r as [w|l]; [|reflexivity].
  destruct w as [s|z|q|t|l]; cbn [listed matches existsb]; rewrite ?Bool.orb_false_r; try reflexivity. now destruct (H q).
Qed.
Lemma listed_float q v b : matches (RList [VFloat q]) v = Ok true -> matches (RVal (VFloat q)) v = Ok b -> b = true.
Proof.
  cbn [matches existsb]. rewrite Bool.orb_false_r. unfold value_eqb. cbn [num]. destruct (num v) as [x|]; [|discriminate].
  intros E. injection E as E. apply Qeq_bool_eq in E. intros F. injection F as <-. unfold qisclose. apply Qle_bool_iff.
  assert (Z : Qabs (q - x) == 0). { assert (q - x == 0) as -> by (rewrite E; ring). reflexivity. }
  rewrite Z. apply Qle_trans with (0 + 0); [apply Qle_refl|]. apply Qplus_le_compat; [discriminate|].
  apply Qmult_le_0_compat; [discriminate|apply Qabs_nonneg].
Qed.

(** ** Trees *)
Definition alike (f : reference -> reference) (r : reference) : Prop := forall v, matches (f r) v = matches r v.
Definition alike_conds f (d : conds) : Prop := forall k r, In (k, r) d -> alike f r.
Definition alike_real f (r : realization) : Prop := alike_conds f (r_requires r) /\ alike_conds f (r_excludes r).

Lemma get_with f b k : dict_get (with_branch f b) k = match dict_get b k with Ok r => Ok (with_real f r) | Err e => Err e end.
Proof. induction b as [|[k' r] b IH]; cbn; [reflexivity|]. destruct (String.eqb k' k); [reflexivity|exact IH]. Qed.
Lemma match_with f b d : alike_conds f d -> all_match (with_branch f b) (with_conds f d) = all_match b d.
Proof.
  induction d as [|[k r] d IH]; intros A; cbn; [reflexivity|]. rewrite get_with. destruct (dict_get b k) as [x|]; cbn [bind]; [|reflexivity].
  rewrite (A k r (or_introl eq_refl)). cbn [with_real r_value]. destruct (matches r (r_value x)) as [[|]|]; cbn [bind]; try reflexivity.
  apply IH. intros k' r' H. apply (A k'). now right.
Qed.
Lemma valid_with f r b : alike_real f r -> real_is_valid (with_real f r) (with_branch f b) = real_is_valid r b.
Proof.
  intros [A B]. unfold real_is_valid. cbn [with_real r_requires r_excludes].
  replace (match with_conds f (r_requires r) with [] => Ok true | p :: d => all_match (with_branch f b) (p :: d) end)
    with (match r_requires r with [] => Ok true | p :: d => all_match b (p :: d) end).
  2: { destruct (r_requires r) as [|p d] eqn:E; [reflexivity|]. rewrite <- (match_with f b (p :: d)) by exact A. reflexivity. }
  destruct (match r_requires r with [] => _ | _ => _ end) as [[|]|]; cbn [bind]; try reflexivity.
  destruct (r_excludes r) as [|p d] eqn:E; [reflexivity|]. rewrite <- (match_with f b (p :: d)) by exact B. reflexivity.
Qed.
Lemma all_valid_with f b rs : List.Forall (fun p => alike_real f (snd p)) rs ->
  all_valid (with_branch f b) (with_branch f rs) = all_valid b rs.
Proof.
  induction 1 as [|[k r] rs H _ IH]; cbn; [reflexivity|]. rewrite valid_with by exact H.
  destruct (real_is_valid r b) as [[|]|]; cbn [bind]; try reflexivity. exact IH.
Qed.
Lemma set_with f b k r : with_branch f (dict_set b k r) = dict_set (with_branch f b) k (with_real f r).
Proof. induction b as [|[k' r'] b IH]; cbn; [reflexivity|]. destruct (String.eqb k' k); cbn; [reflexivity|]. f_equal. exact IH. Qed.
Lemma branch_with f rs : branch_of (map (with_real f) rs) = with_branch f (branch_of rs).
Proof.
  unfold branch_of.
  assert (G : forall b, fold_left (fun d r => dict_set d (r_name r) r) (map (with_real f) rs) (with_branch f b) =
    with_branch f (fold_left (fun d r => dict_set d (r_name r) r) rs b)); [|exact (G [])].
  induction rs as [|r rs IH]; intros b; cbn [map fold_left with_real r_name]; [reflexivity|].
  change (mkReal (r_name r) (r_value r) (r_weight r) (with_conds f (r_requires r)) (with_conds f (r_excludes r))) with (with_real f r).
  rewrite <- set_with. apply IH.
Qed.
Lemma set_all (P : realization -> Prop) b k r : P r -> List.Forall (fun p => P (snd p)) b -> List.Forall (fun p => P (snd p)) (dict_set b k r).
Proof.
  intros Hr. induction 1 as [|[k' r'] b H1 H2 IH]; cbn; [repeat constructor; exact Hr|]. destruct (String.eqb k' k); constructor; assumption.
Qed.
Lemma branch_all (P : realization -> Prop) rs : List.Forall P rs -> List.Forall (fun p => P (snd p)) (branch_of rs).
Proof.
  unfold branch_of. assert (G : List.Forall (fun p : string * realization => P (snd p)) []) by constructor. revert G.
  generalize (@nil (string * realization)) as b. induction rs as [|r rs IH]; intros b G H; cbn; [exact G|].
  inversion H; subst. apply IH; [now apply set_all|assumption].
Qed.
Lemma key_with f b : branch_key (with_branch f b) = branch_key b.
Proof. unfold branch_key. f_equal. unfold as_dict, with_branch. rewrite map_map. reflexivity. Qed.
Lemma loop_with f todo : List.Forall (List.Forall (alike_real f)) todo -> forall seen,
  iter_loop seen (map (map (with_real f)) todo) = (map (with_branch f) (fst (iter_loop seen todo)), snd (iter_loop seen todo)).
Proof.
  induction 1 as [|rs todo H _ IH]; intros seen; cbn [map iter_loop]; [reflexivity|].
  rewrite branch_with. unfold tree_is_valid. rewrite all_valid_with by now apply branch_all. rewrite key_with.
  destruct (all_valid (branch_of rs) (branch_of rs)) as [[|]|]; [|apply IH|reflexivity].
  destruct (negb _); [reflexivity|]. destruct (existsb _ _); [apply IH|]. rewrite IH.
  now destruct (iter_loop _ todo) as [bs e].
Qed.
Lemma product_with {A B} (g : A -> B) ls : product (map (map g) ls) = map (map g) (product ls).
Proof.
  induction ls as [|l ls IH]; cbn; [reflexivity|]. rewrite IH. induction l as [|x l IHl]; cbn; [reflexivity|].
  rewrite map_app, IHl, !map_map. reflexivity.
Qed.
Lemma product_all {A} (P : A -> Prop) ls : List.Forall (List.Forall P) ls -> List.Forall (List.Forall P) (product ls).
Proof.
  induction 1 as [|l ls H _ IH]; cbn; [repeat constructor|]. apply List.Forall_forall. intros x Hx.
  apply in_flat_map in Hx. destruct Hx as (y & Hy & Hx). apply in_map_iff in Hx. destruct Hx as (z & <- & Hz).
  constructor; [exact (proj1 (List.Forall_forall _ _) H y Hy)|exact (proj1 (List.Forall_forall _ _) IH z Hz)].
Qed.
Lemma node_with f n : node_iter (with_node f n) = map (with_real f) (node_iter n).
Proof.
  unfold node_iter, with_node. cbn [n_alts n_name]. induction (n_alts n) as [|a l IH]; cbn; [reflexivity|].
  destruct (negb (Qle_bool (a_weight a) 0)); cbn; now rewrite IH.
Qed.

Theorem listed_tree nodes : List.Forall no_float_conds nodes ->
  tree_iter (map (with_node listed) nodes) = (map (with_branch listed) (fst (tree_iter nodes)), snd (tree_iter nodes)).
Proof.
  intros H. unfold tree_iter. rewrite map_map. rewrite (map_ext _ (fun n => map (with_real listed) (node_iter n))) by (intros n; apply node_with).
  rewrite <- (map_map node_iter (map (with_real listed))), product_with. apply loop_with. apply product_all.
  apply List.Forall_forall. intros l Hl. apply in_map_iff in Hl. destruct Hl as (n & <- & Hn).
  pose proof (proj1 (List.Forall_forall _ _) H n Hn) as F. apply List.Forall_forall. intros r Hr. unfold node_iter in Hr.
  apply in_map_iff in Hr. destruct Hr as (a & <- & Ha). apply filter_In in Ha. destruct Ha as [Ha _].
  split; intros k r Hk v; apply listed_matches; apply (F a k r Ha); cbn in Hk; auto.
Qed.
Theorem listed_value r v : no_float r -> matches (listed r) v = matches r v.
Proof. exact (listed_matches r v). Qed.

(** 0.1 + 0.2 and 0.3 in binary64. *)
Theorem listed_refuted : exists nodes b, List.Forall no_lists nodes /\ tree_iter nodes = ([b], None) /\
  tree_iter (map (with_node listed) nodes) = ([], None).
Proof.
  exists [mkNode "a" [mkAlt (VFloat (5404319552844596 # 18014398509481984)) 1 [] []];
     mkNode "b" [mkAlt (VInt 1) 1 [("a"%string, RVal (VFloat (5404319552844595 # 18014398509481984)))] []]].
  eexists. split; [repeat constructor; intros a l [<-|[]]; discriminate|]. split; vm_compute; reflexivity.
Qed.
