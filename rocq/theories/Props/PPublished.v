(** Property C61: the published curves. *)
From Coq Require Import String QArith Qreals Sorted.
From Verif Require Import Common Model.Curve Model.Layer Model.Published Spec.CurveSpec Spec.PublishedSpec Proof.PublishedProps.
Local Open Scope R_scope.
Local Open Scope R_scope.

(** The first model of the database has both curves. *)
Example C61_ex : exists m g d, In m published /\ m_mod_reduc m = Some g /\ m_damping m = Some d /\
  ~ In (m_name m) rising_modulus /\ ~ In (m_name m) falling_damping /\ ~ In (m_name m) one_curve.
Proof.
  destruct published as [|m ms] eqn:E; [discriminate|]. injection E as <- <-. do 3 eexists. split; [left; reflexivity|].
  split; [reflexivity|]. split; [reflexivity|]. cbn [m_name]. repeat split; intros H; repeat (destruct H as [H|H]; [discriminate|]); exact H.
Qed.

(** C61: every table has as many values as strains, positive strictly increasing
    strains, and values inside the limits of its curve. *)
Theorem C61_tables_partial : Forall (fun m =>
  (forall t, m_mod_reduc m = Some t -> well_formed 0.001 1 t) /\ (forall t, m_damping m = Some t -> well_formed 0 0.49 t)) published.
Proof. exact published_tables. Qed.
Print Assumptions C61_tables_partial.

(** C61: the names are unique. *)
Theorem C61_names_partial : NoDup (map m_name published).
Proof. exact published_names. Qed.
Print Assumptions C61_names_partial.

(** C61: the modulus reduction of every model never rises, except for the ones listed,
    for which it does. *)
Theorem C61_modulus_refuted : forall m t,
  In m published -> m_mod_reduc m = Some t -> falling t <-> ~ In (m_name m) rising_modulus.
Proof. exact published_modulus. Qed.
Print Assumptions C61_modulus_refuted.

(** C61: the damping of every model never falls, except for the ones listed, for which
    it does. *)
Theorem C61_damping_refuted : forall m t,
  In m published -> m_damping m = Some t -> rising t <-> ~ In (m_name m) falling_damping.
Proof. exact published_damping. Qed.
Print Assumptions C61_damping_refuted.

(** C61: a soil type can be made from every model except the ones listed, which have one
    curve only and raise KeyError. *)
Theorem C61_soil_refuted : forall m ids name uw,
  In m published ->
  (~ In (m_name m) one_curve -> exists s, soil_from_published published ids name uw (m_name m) None = Ok s) /\
  (In (m_name m) one_curve -> soil_from_published published ids name uw (m_name m) None = Err KeyError).
Proof. exact published_soil. Qed.
Print Assumptions C61_soil_refuted.

(** C61: a model is found by its name, and an unknown name raises KeyError. *)
Theorem C61_lookup : forall n,
  (forall m, In m published -> m_name m = n -> get_model published n = Ok m) /\
  (~ In n (map m_name published) -> get_model published n = Err KeyError).
Proof. exact published_lookup. Qed.
Print Assumptions C61_lookup.

(** C61: the list of known names is that of the database. *)
Theorem C61_known : known_published_curves published = map m_name published.
Proof. exact published_known. Qed.
Print Assumptions C61_known.

(** C61: the two curves of a soil type may come from different models. *)
Theorem C61_pair : forall m m' g d ids name uw,
  In m published -> In m' published -> m_mod_reduc m = Some g -> m_damping m' = Some d ->
  soil_from_published published ids name uw (m_name m) (Some (m_name m')) =
  Ok (mkSoil 0 name uw (Some (modulus_curve (fst ids) (strains_of g) (values_of g))) (DCurve (damping_curve (snd ids) (strains_of d) (values_of d)))).
Proof. exact published_soil_pair. Qed.
Print Assumptions C61_pair.

(** C61: an unknown parameter name raises AssertionError, an unknown model or a model
    without the curve raises KeyError. *)
Theorem C61_missing : forall id n param,
  (param <> "mod_reduc"%string -> param <> "damping"%string -> curve_from_published published id n param = Err AssertionError) /\
  (param = "mod_reduc"%string \/ param = "damping"%string -> ~ In n (map m_name published) ->
     curve_from_published published id n param = Err KeyError) /\
  (forall m, In m published -> m_name m = n ->
     (m_mod_reduc m = None -> curve_from_published published id n "mod_reduc" = Err KeyError) /\
     (m_damping m = None -> curve_from_published published id n "damping" = Err KeyError)).
Proof. exact published_missing. Qed.
Print Assumptions C61_missing.
Example C61_missing_ex : exists m, In m published /\ m_damping m = None.
Proof.
  destruct (find (fun m => match m_damping m with None => true | Some _ => false end) published) as [m|] eqn:E; [|vm_compute in E; discriminate].
  apply find_some in E as [I E]. exists m. split; [exact I|]. destruct (m_damping m); [discriminate|reflexivity].
Qed.

(** C61: the curves give the published values at the published strains. *)
Theorem C61_values : forall m t i s v id,
  In m published -> point (strains_of t) (values_of t) i s v ->
  (m_mod_reduc m = Some t -> curve_call (modulus_curve id (strains_of t) (values_of t)) s = Ok v) /\
  (m_damping m = Some t -> curve_call (damping_curve id (strains_of t) (values_of t)) s = Ok v).
Proof. exact published_values. Qed.
Print Assumptions C61_values.

(** C61: outside the exceptions the curves are monotone at all strains. *)
Theorem C61_monotone_partial : forall m t id s s',
  In m published -> s <= s' ->
  (m_mod_reduc m = Some t -> ~ In (m_name m) rising_modulus -> let c := modulus_curve id (strains_of t) (values_of t) in
     exists a b, curve_call c s = Ok a /\ curve_call c s' = Ok b /\ b <= a) /\
  (m_damping m = Some t -> ~ In (m_name m) falling_damping -> let c := damping_curve id (strains_of t) (values_of t) in
     exists a b, curve_call c s = Ok a /\ curve_call c s' = Ok b /\ a <= b).
Proof. exact published_monotone. Qed.
Print Assumptions C61_monotone_partial.
