(** Properties C53 and C86: the curves of soil types built from the two-parameter and the Alemu models. *)
From Coq Require Import String.
From Verif Require Import Common Model.Curve Model.Layer Model.SoilModels.
From Verif Require Import Spec.CurveSpec Spec.LayerSpec Spec.SoilModelSpec Proof.TwoParamProps Proof.ModelSoils.
From Coq Require Import List Sorted.
Local Open Scope R_scope.

(** C86: for increasing positive strains the soil type is built, has the unit weight
    given, is nonlinear, can be evaluated at every strain within the limits of the
    curves, and at each tabulated strain gives the values of the model, limited. *)
Theorem C86_soil : forall id name wt m ss,
  0 <= al_pi m -> 0 < al_ocr m -> 0 < al_stress m -> 0 <= al_fines m ->
  ss <> nil -> List.Forall (fun e => 0 < e) ss -> StronglySorted Rlt ss ->
  exists s ms ds, alemu_soil id name wt m (Some ss) = Some s /\ alemu_values m ss = Some (ms, ds) /\ s_unit_wt s = wt /\ is_nonlinear s = true /\
  exists cm cd, s_mod s = Some cm /\ s_damp s = DCurve cd /\
    (forall e, exists g d, curve_call cm e = Ok g /\ 0.001 <= g <= 1 /\ curve_call cd e = Ok d /\ 0 <= d <= 0.49) /\
    forall i e v d, nth_error ss i = Some e -> 1e-9 <= e -> nth_error ms i = Some v -> nth_error ds i = Some d ->
      exists g x, curve_call cm e = Ok g /\ limited 0.001 1 v g /\ curve_call cd e = Ok x /\ limited 0 0.49 d x.
Proof. exact alemu_soil_reads. Qed.
Print Assumptions C86_soil.

(** C53: the same for the two-parameter soil type. *)
Theorem C53_soil : forall id name wt p ss k,
  0 < tp_a k -> 0 < tp_g1 k -> 0 < tp_c k -> 0 < tp_gd1 k -> 0 < p ->
  0 < tp_b k (p * KPA_TO_ATM) -> ss <> nil -> List.Forall (fun e => 0 < e) ss -> StronglySorted Rlt ss ->
  exists s ms ds, two_param_soil id name wt p (Some ss) (Some k) = Some s /\ two_param_values k p ss = Some (ms, ds) /\ s_unit_wt s = wt /\ is_nonlinear s = true /\
  exists cm cd, s_mod s = Some cm /\ s_damp s = DCurve cd /\
    (forall e, exists g d, curve_call cm e = Ok g /\ 0.001 <= g <= 1 /\ curve_call cd e = Ok d /\ 0 <= d <= 0.49) /\
    forall i e v d, nth_error ss i = Some e -> 1e-9 <= e -> nth_error ms i = Some v -> nth_error ds i = Some d ->
      exists g x, curve_call cm e = Ok g /\ limited 0.001 1 v g /\ curve_call cd e = Ok x /\ limited 0 0.49 d x.
Proof. exact two_param_soil_reads. Qed.
Print Assumptions C53_soil.

Definition ms_strains : list R := cons 0.0001 (cons 0.001 (cons 0.01 nil)).
Lemma ms_pos : List.Forall (fun e => 0 < e) ms_strains.
Proof. repeat (apply List.Forall_cons; [lra|]). apply List.Forall_nil. Qed.
Lemma ms_sorted : StronglySorted Rlt ms_strains.
Proof. repeat (apply SSorted_cons; [|repeat (apply List.Forall_cons; [lra|]); apply List.Forall_nil]). apply SSorted_nil. Qed.
Example C86_soil_ex : exists s, alemu_soil 0 "clay"%string 18 (mkAlemu 20 2 100 60) (Some ms_strains) = Some s.
Proof.
  destruct (C86_soil 0%nat "clay"%string 18 (mkAlemu 20 2 100 60) ms_strains) as (s & ms & ds & E & _); cbn; try lra; [discriminate|exact ms_pos|exact ms_sorted|]. now exists s.
Qed.
Example C53_soil_ex : exists s, two_param_soil 0 "sand"%string 18 100 (Some ms_strains) (Some two_param_default) = Some s.
Proof.
  destruct (two_param_default_range 100) as (A & B & C & D & E); [lra|unfold KPA_TO_ATM; lra|].
  destruct (C53_soil 0%nat "sand"%string 18 100 ms_strains two_param_default A B C D) as (s & ms & ds & Q & _); [lra|exact E|discriminate|exact ms_pos|exact ms_sorted|]. now exists s.
Qed.
