(** Properties C101 to C103: the curves for highly organic soils. *)
From Coq Require Import String.
From Verif Require Import Common Model.Curve Model.Layer Model.SoilModels Model.Kishida Spec.SoilModelSpec Spec.KishidaSpec Proof.KishidaProps.
Local Open Scope R_scope.

(** C101: between 0.001 and 1000 kPa the soil type exists, its modulus reduction starts
    at one, stays positive and falls with strain, its damping is positive and rises with
    strain. *)
Theorem C101_shape : forall id name uw k ss,
  0.001 <= ki_stress k <= 1000 -> 0 <= ki_organic k -> 0 < ki_ratio k ->
  first_smallest ss ->
  exists s, kishida_soil id name uw k (Some ss) = Ok (Some s) /\ softens ss s /\
    s_unit_wt s = match uw with Some w => w | None => k_unit_wt (ln (ki_stress k)) (k_x3 (ki_organic k)) end.
Proof. exact kishida_shape. Qed.
Print Assumptions C101_shape.
Example C101_shape_ex : (0.001 <= ki_stress kishida_default <= 1000)%R /\ (0 <= ki_organic kishida_default)%R /\
  (0 < ki_ratio kishida_default)%R /\ first_smallest [0.0001; 0.001; 0.01]%R.
Proof. cbn. repeat split; try lra. do 2 eexists. split; [reflexivity|]. split; [lra|]. apply Forall_cons; [lra|]. apply Forall_cons; [lra|]. apply Forall_nil. Qed.

(** C101: the default strains meet the condition on the strains. *)
Theorem C101_defaults : exists s0 rest, default_strains = s0 :: rest /\ 0 <= s0 /\ List.Forall (fun s => s0 <= s) rest.
Proof. exact kishida_default_strains. Qed.
Print Assumptions C101_defaults.

(** C101: without strains the constructor raises IndexError. *)
Theorem C101_empty : forall id name uw k,
  kishida_soil id name uw k (Some []) = Err IndexError.
Proof. exact kishida_no_strains. Qed.
Print Assumptions C101_empty.

(** C102: the laboratory consolidation ratio has no effect on the soil type. *)
Theorem C102_ratio : forall id name uw st oc r r' ss,
  0 < st -> 0 < r -> 0 < r' -> List.Forall (fun s => 0 <= s) ss ->
  kishida_soil id name uw (mkKishida st oc r) (Some ss) = kishida_soil id name uw (mkKishida st oc r') (Some ss).
Proof. exact kishida_ratio. Qed.
Print Assumptions C102_ratio.
Example C102_ratio_ex : (0 < 101.3)%R /\ (0 < 1)%R /\ (0 < 2)%R /\ List.Forall (fun s => (0 <= s)%R) [0.0001; 0.001]%R.
Proof. repeat split; try lra. apply Forall_cons; [lra|]. apply Forall_cons; [lra|]. apply Forall_nil. Qed.

(** C102: the computed unit weight is positive, grows with the stress and falls with the
    organic content. *)
Theorem C102_weight : forall id name k k' ss s s',
  0 < ki_stress k -> 0 < ki_ratio k -> 0 < ki_stress k' -> 0 < ki_ratio k' ->
  List.Forall (fun x => 0 <= x) ss ->
  kishida_soil id name None k (Some ss) = Ok (Some s) -> kishida_soil id name None k' (Some ss) = Ok (Some s') ->
  0 < s_unit_wt s /\
  (ki_stress k < ki_stress k' -> ki_organic k' <= ki_organic k -> s_unit_wt s < s_unit_wt s') /\
  (ki_stress k <= ki_stress k' -> ki_organic k' < ki_organic k -> s_unit_wt s < s_unit_wt s').
Proof. exact kishida_weight. Qed.
Print Assumptions C102_weight.
Example C102_weight_ex : exists s s', kishida_soil 0 "" None (mkKishida 50 20 1) (Some [0.0001; 0.001]%R) = Ok (Some s) /\
  kishida_soil 0 "" None (mkKishida 100 10 1) (Some [0.0001; 0.001]%R) = Ok (Some s').
Proof.
  assert (F : first_smallest [0.0001; 0.001]%R).
  { do 2 eexists. split; [reflexivity|]. split; [lra|]. apply Forall_cons; [lra|]. apply Forall_nil. }
  destruct (kishida_shape 0 "" None (mkKishida 50 20 1) [0.0001; 0.001]%R) as (s & E & _); cbn; try lra; [exact F|].
  destruct (kishida_shape 0 "" None (mkKishida 100 10 1) [0.0001; 0.001]%R) as (s' & E' & _); cbn; try lra; [exact F|].
  now exists s, s'.
Qed.

(** C103: the default strains end at ten to the power -1.5, below the documented ten to
    the power 0.5. *)
Theorem C103_refuted : forall id name uw k s,
  kishida_soil id name uw k None = Ok (Some s) ->
  exists mc, s_mod s = Some mc /\ last_opt (c_strains mc) = Some (Rpower 10 (-1.5)) /\ Rpower 10 (-1.5) < Rpower 10 0.5.
Proof. exact kishida_default_end. Qed.
Print Assumptions C103_refuted.
Example C103_refuted_ex : exists s, kishida_soil 0 "" None kishida_default None = Ok (Some s).
Proof.
  destruct (kishida_shape 0 "" None kishida_default default_strains) as (s & E & _); cbn [ki_stress ki_organic ki_ratio kishida_default]; try lra.
  - exact kishida_default_strains.
  - exists s. exact E.
Qed.

(** C102: the density in Mg/m3 is exp(-0.112 + 0.038 ln stress + 0.36 x3) unless a unit
    weight is given, which is then used. *)
Theorem C102_density : forall id name uw k ss s,
  0 < ki_stress k -> 0 < ki_ratio k -> List.Forall (fun x => 0 <= x) ss ->
  kishida_soil id name uw k (Some ss) = Ok (Some s) ->
  density s = match uw with
              | Some w => w / GRAVITY
              | None => exp (-0.112 + 0.038 * ln (ki_stress k) + 0.36 * (2 / (1 + exp (ki_organic k / 23))))
              end.
Proof. exact kishida_density. Qed.
Print Assumptions C102_density.
Example C102_density_ex : exists s, kishida_soil 0 "" None (mkKishida 50 20 1) (Some [0.0001; 0.001]%R) = Ok (Some s).
Proof. destruct C102_weight_ex as (s & _ & E & _). now exists s. Qed.
