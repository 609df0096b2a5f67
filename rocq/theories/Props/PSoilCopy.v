(** Property C173: copies of soil types. *)
From Coq Require Import String List.
From Verif Require Import Common Model.Curve Model.Layer Model.Cplx Model.Waves Model.Eql Model.SoilCopy.
From Verif Require Import Spec.SoilCopySpec Spec.LayerSpec Spec.EqlSpec Proof.EqlRefute Proof.SoilCopy.
Local Open Scope R_scope.
Local Open Scope R_scope.

(** C173: a copy of a soil type is equal to it exactly if the original is a plain
    [SoilType] (class 0): a copy of an instance of a subclass is never equal to it. *)
Theorem C173_equal : forall s,
  soil_eqb s (soil_copy s) = true <-> s_class s = 0%nat.
Proof. exact copy_equal. Qed.
Print Assumptions C173_equal.
Example C173_equal_ex : soil_eqb (mkSoil 0 "sand"%string 18 None (DConst 0.02)) (soil_copy (mkSoil 0 "sand"%string 18 None (DConst 0.02))) = true /\
  soil_eqb (mkSoil 1 "sand"%string 18 None (DConst 0.02)) (soil_copy (mkSoil 1 "sand"%string 18 None (DConst 0.02))) <> true.
Proof. split; [now apply C173_equal|]. intros H. apply C173_equal in H. discriminate. Qed.

(** C173: the copy has the same name, unit weight and (shared) curves, and a copy of a
    copy is equal to the copy. *)
Theorem C173_stored : forall s,
  s_name (soil_copy s) = s_name s /\ s_unit_wt (soil_copy s) = s_unit_wt s /\
  s_mod (soil_copy s) = s_mod s /\ s_damp (soil_copy s) = s_damp s /\ soil_eqb (soil_copy (soil_copy s)) (soil_copy s) = true.
Proof. exact copy_stored. Qed.
Print Assumptions C173_stored.

(** C173: the same for layers made of the original and of the copy. *)
Theorem C173_layer_equal : forall s h v d,
  layer_eqb (layer_make s h v d) (layer_make (soil_copy s) h v d) = true <-> s_class s = 0%nat.
Proof. exact copy_layer_equal. Qed.
Print Assumptions C173_layer_equal.

(** C173: the quality is the inverse of twice the minimum damping; a zero constant
    raises, a zero in a curve gives infinity; the copy reports the same. *)
Theorem C173_quality : forall s d,
  soil_damping_min s = Ok d ->
  (d <> 0 -> exists q, soil_quality s = Ok (Some q) /\ q * (2 * d) = 1) /\
  (d = 0 -> soil_quality s = match s_damp s with DConst _ => Err ZeroDivisionError | DCurve _ => Ok None end) /\
  soil_quality (soil_copy s) = soil_quality s.
Proof. exact quality_value. Qed.
Print Assumptions C173_quality.
Example C173_quality_ex : exists q, soil_quality (mkSoil 0 "sand"%string 18 None (DConst 0.02)) = Ok (Some q) /\ q = 25.
Proof.
  destruct (C173_quality (mkSoil 0 "sand"%string 18 None (DConst 0.02)) 0.02 eq_refl) as [H _].
  destruct (H ltac:(lra)) as (q & E & V). exists q. split; [exact E|lra].
Qed.

(** C173: an equivalent-linear run on layers whose soil types were replaced by copies
    makes as many passes, ends the same way (or with the same error), stores the same
    waves and reports the same numbers. *)
Theorem C173_run : forall P m lin reset ls t r,
  eql_call P m lin reset ls = (t, r) ->
  exists t' r', eql_call P m lin reset (map (on_soil soil_copy) ls) = (t', r') /\ length t' = length t /\
  match r, r' with
  | Err e, Err e' => e' = e
  | Ok (stop, out, w), Ok (stop', out', w') => stop' = stop /\ w' = w /\ Forall2 same_numbers out out'
  | _, _ => False
  end.
Proof. exact copy_run. Qed.
Print Assumptions C173_run.
(** For a converged run on a nonlinear site. *)
Example C173_run_ex : exists t out w t' out', eql_call soft_params soft_motion soft_input true soft_site = (t, Ok (Converged, out, w)) /\
  eql_call soft_params soft_motion soft_input true (map (on_soil soil_copy) soft_site) = (t', Ok (Converged, out', w)) /\
  length t' = length t /\ Forall2 same_numbers out out'.
Proof.
  destruct soft_converged as (t & out & w & _ & _ & _ & E & _).
  destruct (C173_run _ _ _ _ _ _ _ E) as (t' & r' & E' & L & H). destruct r' as [[[s' o'] w']|]; [|destruct H].
  destruct H as (-> & -> & H). now exists t, out, w, t', o'.
Qed.

(** C173: the linear-elastic calculator computes the same waves. *)
Theorem C173_linear_run : forall m reset ls,
  le_call m reset (map (on_soil soil_copy) ls) = le_call m reset ls.
Proof. exact copy_linear_run. Qed.
Print Assumptions C173_linear_run.
