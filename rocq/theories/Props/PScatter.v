(** Property C90: scattering attenuation of a uniform profile. *)
From Verif Require Import Common Model.Curve Model.Layer Model.Profile Model.Tools Spec.ProfileSpec Spec.ToolsSpec Proof.CommonFacts Proof.ScatterProps.
Local Open Scope R_scope.

(** C90: the reported scattering of a profile of one material: the simulated attenuation
    uses the imaginary part of the complex velocity, the sum over the layers uses the
    damping. *)
Theorem C90_uniform : forall uw v D body hs,
  0 < uw -> 0 < v -> 0 <= D <= 0.49 ->
  List.Forall (of_material uw v D) (body ++ cons hs nil)%list -> l_thick hs = 0 -> 0 <= total_thick body ->
  calc_atten_scatter (body ++ cons hs nil)%list None =
  Ok (Some (2 * total_thick body / v * (sqrt ((1 - sqrt (1 - 4 * D ^ 2)) / 2) - D))).
Proof. exact scatter_uniform_default. Qed.
Print Assumptions C90_uniform.
Example C90_uniform_ex : let l := layer_make (mkSoil 0 String.EmptyString 18 None (DConst 0.02)) 10 200 0.02 in
  let hs := layer_make (mkSoil 0 String.EmptyString 18 None (DConst 0.02)) 0 200 0.02 in
  of_material 18 (shear_vel l) 0.02 l /\ l_thick hs = 0 /\ 0 <= total_thick [l].
Proof. cbn. unfold of_material. cbn. repeat split; lra. Qed.

(** C90: it is positive for every positive damping up to 0.49. *)
Theorem C90_refuted : forall D,
  0 < D <= 0.49 -> 0 < sqrt ((1 - sqrt (1 - 4 * D ^ 2)) / 2) - D.
Proof. exact scatter_uniform_positive. Qed.
Print Assumptions C90_refuted.
Example C90_refuted_ex : 0 < 0.02 <= 0.49.
Proof. lra. Qed.

(** C90: the same for any frequencies. *)
Theorem C90_frequencies : forall uw v D body hs fs x y,
  0 < uw -> 0 < v -> 0 <= D <= 0.49 ->
  List.Forall (of_material uw v D) (body ++ cons hs nil)%list -> l_thick hs = 0 -> 0 <= total_thick body ->
  List.Forall (fun f => 1e-8 < Rabs (2 * PI * f)) fs -> In x fs -> In y fs -> x <> y ->
  calc_atten_scatter (body ++ cons hs nil)%list (Some fs) =
  Ok (Some (2 * total_thick body / v * (sqrt ((1 - sqrt (1 - 4 * D ^ 2)) / 2) - D))).
Proof. exact scatter_uniform. Qed.
Print Assumptions C90_frequencies.
