(** Equality of layers, and locations by index in its terms. *)
From Coq Require Import String.
From Verif Require Import Common Model.Curve Model.Layer Model.Profile Spec.ProfileSpec Spec.EqualitySpec
  Proof.CommonFacts Proof.LayerFacts Proof.ProfileFacts Proof.ProfileRefine Proof.ProfileOps Proof.ProfileProps.
Local Open Scope R_scope.

Lemma same_modulus_spec a b : mod_eqb a b = true <-> same_modulus a b.
Proof.
  destruct a as [c|], b as [d|]; cbn; split; intros H; try discriminate; try constructor; try (now apply Nat.eqb_eq); inversion H; subst.
  now apply Nat.eqb_eq.
Qed.
Lemma same_damping_spec a b : damp_eqb a b = true <-> same_damping_data a b.
Proof.
  destruct a as [x|c], b as [y|d]; cbn; split; intros H; try discriminate; try (inversion H; subst).
  - unfold Reqb in H. destruct (Req_EM_T x y); [subst; constructor|discriminate].
  - unfold Reqb. destruct (Req_EM_T y y); [reflexivity|congruence].
  - constructor. now apply Nat.eqb_eq.
  - now apply Nat.eqb_eq.
Qed.
Theorem soil_equality s t : soil_eqb s t = true <-> equal_soils s t.
Proof.
  unfold soil_eqb, equal_soils. rewrite !Bool.andb_true_iff, Nat.eqb_eq, String.eqb_eq, same_modulus_spec, same_damping_spec.
  unfold Reqb. destruct (Req_EM_T (s_unit_wt s) (s_unit_wt t)); intuition discriminate.
Qed.
Theorem layer_equality a b : layer_eqb a b = true <-> equal_layers a b.
Proof.
  unfold layer_eqb, equal_layers. rewrite !Bool.andb_true_iff, soil_equality.
  unfold Reqb. destruct (Req_EM_T (l_thick a) (l_thick b)), (Req_EM_T (l_vs a) (l_vs b)); intuition discriminate.
Qed.
Theorem bottom_distinct_meaning ls : bottom_distinct ls <->
  forall above l middle bottom, ls = above ++ l :: middle ++ [bottom] -> equal_layers l bottom -> l_thick bottom = 0.
Proof.
  unfold bottom_distinct. split; intros H above l middle bottom E Q; apply (H above l middle bottom E); now apply layer_equality.
Qed.

Theorem location_by_index w p i k a :
  py_index i (length (layers_of w p)) = Some k -> nth_error (layers_of w p) k = Some a ->
  (forall j b, (j < k)%nat -> nth_error (layers_of w p) j = Some b ->
     b <> a /\ ~ equal_layers (w_heap w b) (w_heap w a)) ->
  snd (location w p None (Some i)) = Ok (k, a, 0).
Proof.
  intros H1 H2 H3. apply location_index; [exact H1|exact H2|]. intros j b Hj Hb. destruct (H3 j b Hj Hb) as [N E]. split; [exact N|].
  apply Bool.not_true_is_false. intros T. now apply E, layer_equality.
Qed.
Theorem location_by_index_layer w p i r :
  snd (location w p None (Some i)) = Ok r ->
  exists k a j, py_index i (length (layers_of w p)) = Some k /\
    nth_error (layers_of w p) k = Some a /\ r = (j, a, 0) /\ (j <= k)%nat /\
    exists b, nth_error (layers_of w p) j = Some b /\ (b = a \/ equal_layers (w_heap w b) (w_heap w a)) /\
      (forall i' b', (i' < j)%nat -> nth_error (layers_of w p) i' = Some b' ->
         b' <> a /\ ~ equal_layers (w_heap w b') (w_heap w a)).
Proof.
  unfold location. destruct (py_index i (length (layers_of w p))) as [k|] eqn:Hk; cbn [opt_bind]; [|discriminate].
  destruct (nth_error (layers_of w p) k) as [a|] eqn:Ha; [|discriminate]. cbn [snd].
  unfold profile_index. destruct (index_from (w_heap w) (layers_of w p) a 0) as [j|] eqn:Hj; [|discriminate].
  cbn [bind]. intros E. injection E as <-.
  apply index_from_least in Hj. destruct Hj as (j' & b & -> & Hb & Heq & Hmin). cbn [Nat.add].
  exists k, a, j'. repeat (split; [solve [auto]|]). split.
  - destruct (Nat.le_gt_cases j' k) as [H|H]; [exact H|].
    destruct (Hmin k a H Ha) as [H1 _]. congruence.
  - exists b. split; [exact Hb|]. split; [destruct Heq as [Heq|Heq]; [now left|right; now apply layer_equality]|].
    intros i' b' L B. destruct (Hmin i' b' L B) as [N F]. split; [exact N|]. intros Q. apply layer_equality in Q. congruence.
Qed.
