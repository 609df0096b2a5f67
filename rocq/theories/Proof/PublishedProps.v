(** Property C61: the database of published curves. *)
From Coq Require Import String QArith Qreals Sorted.
From Verif Require Import Common Model.Curve Model.Layer Model.Published Spec.CurveSpec Spec.PublishedSpec
  Proof.CommonFacts Proof.CurveFacts Proof.CurveProps.
Local Open Scope R_scope.

(** ** Deciding statements about lists of rationals *)

Definition Qltb (x y : Q) : bool := negb (Qle_bool y x).
Fixpoint sortedb (r : Q -> Q -> bool) (xs : list Q) : bool :=
  match xs with
  | [] => true
  | x :: rest => match rest with [] => true | y :: _ => r x y && sortedb r rest end
  end.
Lemma Qltb_real x y : Qltb x y = true <-> Q2R x < Q2R y.
Proof.
  unfold Qltb. rewrite negb_true_iff. split; intros H.
  - apply Qlt_Rlt. apply Qnot_le_lt. intros L. apply Qle_bool_iff in L. congruence.
  - apply not_true_iff_false. intros L. apply Qle_bool_iff, Qle_Rle in L. lra.
Qed.
Lemma Qle_real x y : Qle_bool x y = true <-> Q2R x <= Q2R y.
Proof.
  rewrite Qle_bool_iff. split; [apply Qle_Rle|]. intros H. destruct (Qlt_le_dec y x) as [L|L]; [|exact L]. apply Qlt_Rlt in L. lra.
Qed.
Lemma sortedb_real (b : Q -> Q -> bool) (r : R -> R -> Prop) xs : (forall x y, b x y = true <-> r (Q2R x) (Q2R y)) ->
  (forall x y z, r x y -> r y z -> r x z) -> sortedb b xs = true <-> StronglySorted r (map Q2R xs).
Proof.
  intros E T. induction xs as [|x xs IH]; [split; [constructor|reflexivity]|].
  destruct xs as [|y xs]; [split; [intros _; repeat constructor|reflexivity]|].
  change (sortedb b (x :: y :: xs)) with (b x y && sortedb b (y :: xs)). rewrite andb_true_iff, IH, E. cbn [map]. split.
  - intros [H S]. constructor; [exact S|]. inversion S as [|? ? S' F]; subst. constructor; [exact H|].
    eapply Forall_impl; [|exact F]. intros z Hz. exact (T _ _ _ H Hz).
  - intros S. inversion S as [|? ? S' F]; subst. split; [exact (Forall_inv F)|exact S'].
Qed.
Definition tableb (lo hi : Q) (t : table) : bool :=
  Nat.eqb (List.length (t_strains t)) (List.length (t_values t)) && negb (Nat.eqb (List.length (t_strains t)) 0) &&
  forallb (Qltb 0) (t_strains t) && sortedb Qltb (t_strains t) && forallb (fun v => Qle_bool lo v && Qle_bool v hi) (t_values t).
Lemma tableb_real lo hi t : tableb lo hi t = true -> well_formed (Q2R lo) (Q2R hi) t.
Proof.
  unfold tableb. rewrite !andb_true_iff. intros ((((H1 & H2) & H3) & H4) & H5). split; [split; [|split; [|split]]|].
  - unfold strains_of, values_of. rewrite !map_length. now apply Nat.eqb_eq.
  - unfold strains_of. intros E. destruct (t_strains t); [discriminate|discriminate].
  - unfold strains_of. apply Forall_map. apply Forall_forall. intros x Hx. rewrite forallb_forall in H3. specialize (H3 x Hx).
    apply Qltb_real in H3. replace (Q2R 0) with 0 in H3 by (unfold Q2R; cbn; lra). exact H3.
  - apply (sortedb_real Qltb Rlt); [apply Qltb_real|apply Rlt_trans|exact H4].
  - unfold values_of. apply Forall_map. apply Forall_forall. intros x Hx. rewrite forallb_forall in H5. specialize (H5 x Hx).
    apply andb_true_iff in H5 as [L U]. apply Qle_real in L, U. auto.
Qed.
Lemma falling_b t : sortedb (fun x y => Qle_bool y x) (t_values t) = true <-> falling t.
Proof.
  apply (sortedb_real (fun x y => Qle_bool y x) Rge); [|intros x y z; apply Rge_trans].
  intros x y. rewrite Qle_real. split; [apply Rle_ge|apply Rge_le].
Qed.
Lemma rising_b t : sortedb Qle_bool (t_values t) = true <-> rising t.
Proof. apply (sortedb_real Qle_bool Rle); [apply Qle_real|apply Rle_trans]. Qed.

(** ** The database *)

Definition onb {A} (f : A -> bool) (o : option A) : bool := match o with Some x => f x | None => true end.
Lemma published_check : forallb (fun m => onb (tableb 0.001 1) (m_mod_reduc m) && onb (tableb 0 0.49) (m_damping m)) published = true.
Proof. vm_compute. reflexivity. Qed.
Theorem published_tables : Forall (fun m =>
  (forall t, m_mod_reduc m = Some t -> well_formed 0.001 1 t) /\ (forall t, m_damping m = Some t -> well_formed 0 0.49 t)) published.
Proof.
  apply Forall_forall. intros m Hm. pose proof (proj1 (forallb_forall _ _) published_check m Hm) as H.
  apply andb_true_iff in H as [H1 H2]. split; intros t E; [rewrite E in H1; apply tableb_real in H1|rewrite E in H2; apply tableb_real in H2].
  - replace (Q2R 0.001) with 0.001 in H1 by (unfold Q2R; cbn; lra). replace (Q2R 1) with 1 in H1 by (unfold Q2R; cbn; lra). exact H1.
  - replace (Q2R 0) with 0 in H2 by (unfold Q2R; cbn; lra). replace (Q2R 0.49) with 0.49 in H2 by (unfold Q2R; cbn; lra). exact H2.
Qed.
Fixpoint nodupb (xs : list string) : bool :=
  match xs with [] => true | x :: rest => negb (existsb (String.eqb x) rest) && nodupb rest end.
Lemma nodupb_spec xs : nodupb xs = true -> NoDup xs.
Proof.
  induction xs as [|x xs IH]; [constructor|]. cbn [nodupb]. rewrite andb_true_iff, negb_true_iff. intros [H1 H2]. constructor; [|auto].
  intros I. assert (E : existsb (String.eqb x) xs = true); [|congruence]. apply existsb_exists. exists x. split; [exact I|apply String.eqb_refl].
Qed.
Theorem published_names : NoDup (map m_name published).
Proof. apply nodupb_spec. vm_compute. reflexivity. Qed.

Lemma memb_spec x xs : existsb (String.eqb x) xs = true <-> In x xs.
Proof.
  rewrite existsb_exists. split; [intros (y & I & E); apply String.eqb_eq in E; now subst|]. intros I. exists x. split; [exact I|apply String.eqb_refl].
Qed.
Theorem published_modulus m t : In m published -> m_mod_reduc m = Some t -> falling t <-> ~ In (m_name m) rising_modulus.
Proof.
  intros Hm E. assert (C : forallb (fun m => onb (fun t => Bool.eqb (sortedb (fun x y => Qle_bool y x) (t_values t)) (negb (existsb (String.eqb (m_name m)) rising_modulus))) (m_mod_reduc m)) published = true) by (vm_compute; reflexivity).
  pose proof (proj1 (forallb_forall _ _) C m Hm) as H. cbv beta in H. rewrite E in H. cbn [onb] in H. apply eqb_prop in H.
  rewrite <- falling_b, H, negb_true_iff, <- memb_spec. split; [congruence|apply not_true_iff_false].
Qed.
Theorem published_damping m t : In m published -> m_damping m = Some t -> rising t <-> ~ In (m_name m) falling_damping.
Proof.
  intros Hm E. assert (C : forallb (fun m => onb (fun t => Bool.eqb (sortedb Qle_bool (t_values t)) (negb (existsb (String.eqb (m_name m)) falling_damping))) (m_damping m)) published = true) by (vm_compute; reflexivity).
  pose proof (proj1 (forallb_forall _ _) C m Hm) as H. cbv beta in H. rewrite E in H. cbn [onb] in H. apply eqb_prop in H.
  rewrite <- rising_b, H, negb_true_iff, <- memb_spec. split; [congruence|apply not_true_iff_false].
Qed.

(** ** Reading *)

Lemma find_unique (f : model -> bool) ms m : In m ms -> f m = true -> (forall m', In m' ms -> f m' = true -> m' = m) -> find f ms = Some m.
Proof.
  intros I F U. destruct (find f ms) as [m'|] eqn:E.
  - apply find_some in E as [I' F']. f_equal. now apply U.
  - exfalso. pose proof (find_none _ _ E m I). congruence.
Qed.
Lemma name_inj ms m m' : NoDup (map m_name ms) -> In m ms -> In m' ms -> m_name m' = m_name m -> m' = m.
Proof.
  induction ms as [|x ms IH]; intros N I I' E; [destruct I|]. cbn [map] in N. inversion N as [|? ? Nx N']; subst.
  destruct I as [->|I], I' as [->|I']; [reflexivity| | |now apply IH].
  - exfalso. apply Nx. rewrite <- E. now apply in_map.
  - exfalso. apply Nx. rewrite E. now apply in_map.
Qed.
Theorem published_lookup n : (forall m, In m published -> m_name m = n -> get_model published n = Ok m) /\
  (~ In n (map m_name published) -> get_model published n = Err KeyError).
Proof.
  unfold get_model. split.
  - intros m I <-. rewrite (find_unique _ (rev published) m); [reflexivity|now apply in_rev in I|apply String.eqb_refl|].
    intros m' I' E. apply String.eqb_eq in E. apply in_rev in I'. exact (name_inj published m m' published_names I I' E).
  - intros N. destruct (find _ _) as [m|] eqn:E; [|reflexivity]. exfalso. apply find_some in E as [I E]. apply String.eqb_eq in E.
    apply N. rewrite <- E. apply in_map. now apply in_rev in I.
Qed.
Theorem published_known : known_published_curves published = map m_name published.
Proof. vm_compute. reflexivity. Qed.
(** A soil type can be made from a model exactly if it has both curves. *)
Theorem published_soil m ids name uw : In m published ->
  (~ In (m_name m) one_curve -> exists s, soil_from_published published ids name uw (m_name m) None = Ok s) /\
  (In (m_name m) one_curve -> soil_from_published published ids name uw (m_name m) None = Err KeyError).
Proof.
  intros Hm. assert (C : forallb (fun m => Bool.eqb (match m_mod_reduc m, m_damping m with Some _, Some _ => true | _, _ => false end) (negb (existsb (String.eqb (m_name m)) one_curve))) published = true) by (vm_compute; reflexivity).
  pose proof (proj1 (forallb_forall _ _) C m Hm) as H. cbv beta in H. apply eqb_prop in H.
  unfold soil_from_published, curve_from_published. cbn [String.eqb Ascii.eqb Bool.eqb orb].
  rewrite (proj1 (published_lookup (m_name m)) m Hm eq_refl). cbn [bind].
  rewrite <- memb_spec. destruct (existsb _ one_curve); cbn [negb] in H; (split; intros X; try congruence);
    destruct (m_mod_reduc m), (m_damping m); try discriminate; cbn [bind]; eauto.
Qed.
(** With different models for the two curves. *)
Theorem published_soil_pair m m' g d ids name uw : In m published -> In m' published -> m_mod_reduc m = Some g -> m_damping m' = Some d ->
  soil_from_published published ids name uw (m_name m) (Some (m_name m')) =
  Ok (mkSoil 0 name uw (Some (modulus_curve (fst ids) (strains_of g) (values_of g))) (DCurve (damping_curve (snd ids) (strains_of d) (values_of d)))).
Proof.
  intros Hm Hm' G D. unfold soil_from_published, curve_from_published. cbn [String.eqb Ascii.eqb Bool.eqb orb].
  rewrite (proj1 (published_lookup (m_name m)) m Hm eq_refl), (proj1 (published_lookup (m_name m')) m' Hm' eq_refl). cbn [bind].
  rewrite G. cbn [bind]. rewrite D. reflexivity.
Qed.
Lemma limited_in lo hi v r : limited lo hi v r -> lo <= v <= hi -> r = v.
Proof. intros L H. destruct L; lra. Qed.
Lemma strains_floor m t : In m published -> m_mod_reduc m = Some t \/ m_damping m = Some t -> Forall (fun s => 1e-9 <= s) (strains_of t).
Proof.
  intros Hm E. assert (C : forallb (fun m => onb (fun t => forallb (Qle_bool 0.000000001) (t_strains t)) (m_mod_reduc m) && onb (fun t => forallb (Qle_bool 0.000000001) (t_strains t)) (m_damping m)) published = true) by (vm_compute; reflexivity).
  pose proof (proj1 (forallb_forall _ _) C m Hm) as H. cbv beta in H. apply andb_true_iff in H as [H1 H2].
  assert (F : forallb (Qle_bool 0.000000001) (t_strains t) = true) by (destruct E as [E|E]; [rewrite E in H1; exact H1|rewrite E in H2; exact H2]).
  unfold strains_of. apply Forall_map, Forall_forall. intros s Hs. pose proof (proj1 (forallb_forall _ _) F s Hs) as G. apply Qle_real in G.
  replace (Q2R 0.000000001) with 1e-9 in G by (unfold Q2R; cbn; lra). exact G.
Qed.
(** The curves give the published values at the published strains. *)
Theorem published_values m t i s v id : In m published -> point (strains_of t) (values_of t) i s v ->
  (m_mod_reduc m = Some t -> curve_call (modulus_curve id (strains_of t) (values_of t)) s = Ok v) /\
  (m_damping m = Some t -> curve_call (damping_curve id (strains_of t) (values_of t)) s = Ok v).
Proof.
  intros Hm P. pose proof (proj1 (Forall_forall _ _) published_tables m Hm) as [W1 W2].
  split; intros E; [pose proof (W1 t E) as [G L]|pose proof (W2 t E) as [G L]];
    (assert (S9 : 1e-9 <= s) by (apply (proj1 (Forall_forall _ _) (strains_floor m t Hm ltac:(auto))); eapply nth_error_In; apply P));
    (assert (Lv := proj1 (Forall_forall _ _) L v ltac:(eapply nth_error_In; apply P)));
    cbv beta in Lv.
  - destruct (curve_at_point (modulus_curve id (strains_of t) (values_of t)) i s v) as (r & Er & Lr); [cbn; lra|exact G|exact P|exact S9|].
    rewrite Er. f_equal. exact (limited_in _ _ _ _ Lr Lv).
  - destruct (curve_at_point (damping_curve id (strains_of t) (values_of t)) i s v) as (r & Er & Lr); [cbn; lra|exact G|exact P|exact S9|].
    rewrite Er. f_equal. exact (limited_in _ _ _ _ Lr Lv).
Qed.
(** At all strains, outside the exceptions. *)
Theorem published_monotone m t id s s' : In m published -> s <= s' ->
  (m_mod_reduc m = Some t -> ~ In (m_name m) rising_modulus -> let c := modulus_curve id (strains_of t) (values_of t) in
     exists a b, curve_call c s = Ok a /\ curve_call c s' = Ok b /\ b <= a) /\
  (m_damping m = Some t -> ~ In (m_name m) falling_damping -> let c := damping_curve id (strains_of t) (values_of t) in
     exists a b, curve_call c s = Ok a /\ curve_call c s' = Ok b /\ a <= b).
Proof.
  intros Hm L. pose proof (proj1 (Forall_forall _ _) published_tables m Hm) as [W1 W2]. split; intros E X; cbv zeta.
  - apply curve_antitone; [exact (proj1 (W1 t E))| |exact L]. pose proof (proj2 (published_modulus m t Hm E) X) as F. cbn. unfold falling in F.
    clear - F. induction F as [|x xs F IH G]; constructor; [exact IH|]. eapply Forall_impl; [|exact G]. cbv beta. intros y Hy. now apply Rge_le.
  - apply curve_monotone; [exact (proj1 (W2 t E))|exact (proj2 (published_damping m t Hm E) X)|exact L].
Qed.
(** What cannot be created. *)
Theorem published_missing id n param :
  (param <> "mod_reduc"%string -> param <> "damping"%string -> curve_from_published published id n param = Err AssertionError) /\
  (param = "mod_reduc"%string \/ param = "damping"%string -> ~ In n (map m_name published) ->
     curve_from_published published id n param = Err KeyError) /\
  (forall m, In m published -> m_name m = n ->
     (m_mod_reduc m = None -> curve_from_published published id n "mod_reduc" = Err KeyError) /\
     (m_damping m = None -> curve_from_published published id n "damping" = Err KeyError)).
Proof.
  unfold curve_from_published. split; [|split].
  - intros H1 H2. apply String.eqb_neq in H1, H2. rewrite H1, H2. reflexivity.
  - intros [->| ->] N; cbn [String.eqb Ascii.eqb Bool.eqb orb]; rewrite (proj2 (published_lookup n) N); reflexivity.
  - intros m I E. cbn [String.eqb Ascii.eqb Bool.eqb orb]. rewrite (proj1 (published_lookup n) m I E). cbn [bind].
    split; intros ->; reflexivity.
Qed.
