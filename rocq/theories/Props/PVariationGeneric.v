(** Property C174: keyword arguments of the generic velocity variations. *)
From Coq Require Import String List.
From Verif Require Import Common Model.Curve Model.Layer Model.Variation Model.VariationGeneric.
From Verif Require Import Spec.VariationGenericSpec Proof.VariationGeneric.
Local Open Scope R_scope.
Local Open Scope R_scope.

(** C174: [ToroVelocityVariation.generic_model] succeeds when every keyword is a
    parameter of the class, and any other keyword raises [TypeError]. *)
Theorem C174_known : forall cls kwds,
  (exists m, toro_lookup cls = Ok m) ->
  ((forall n, given kwds n -> toro_name n) -> exists o, toro_generic cls kwds = Ok o) /\
  (forall n, given kwds n -> ~ toro_name n -> toro_generic cls kwds = Err TypeError).
Proof. exact toro_generic_known. Qed.
Print Assumptions C174_known.

(** C174: every keyword given is what the model stores, and every parameter not given is
    that of the site class. *)
Theorem C174_values : forall cls m kwds o,
  toro_lookup cls = Ok m -> once kwds -> toro_generic cls kwds = Ok o ->
  (forall n v, In (n, v) kwds -> kw_get o n = Some v) /\
  (forall n x, ~ given kwds n -> class_value m n x -> kw_get o n = Some (VNum x)).
Proof. exact toro_generic_values. Qed.
Print Assumptions C174_values.
Example C174_values_ex : exists o, toro_generic "USGS B"%string (cons ("b"%string, VNum 0.2) nil) = Ok o /\
  kw_get o "b"%string = Some (VNum 0.2) /\ kw_get o "delta"%string = Some (VNum 3.8).
Proof.
  destruct (C174_known "USGS B"%string (cons ("b"%string, VNum 0.2) nil)) as [H _]; [now eexists|].
  destruct H as [o Ho].
  { intros n [v [Hv|[]]]. injection Hv as <- _. apply TN_class. exists (mkToroVel 0 0 0 0 0 0), 0. exact (CV_b (mkToroVel 0 0 0 0 0 0)). }
  exists o. split; [exact Ho|].
  destruct (C174_values "USGS B"%string (mkToroVel 0.27 0.97 3.8 1 0 0.293) (cons ("b"%string, VNum 0.2) nil) o) as [A B]; [reflexivity| |exact Ho|].
  - constructor; [intros []|constructor].
  - split; [apply A; now left|]. apply (B "delta"%string 3.8); [|exact (CV_delta (mkToroVel 0.27 0.97 3.8 1 0 0.293))].
    intros [v [Hv|[]]]. discriminate Hv.
Qed.

(** C174: an unknown site class raises [KeyError] in both classes. *)
Theorem C174_unknown_class : forall cls mp kwds e,
  toro_lookup cls = Err e -> toro_generic cls kwds = Err KeyError /\ depth_generic cls mp kwds = Err KeyError.
Proof. exact generic_unknown_class. Qed.
Print Assumptions C174_unknown_class.
Example C174_unknown_class_ex : toro_generic "USGS E"%string nil = Err KeyError.
Proof. exact (proj1 (C174_unknown_class "USGS E"%string None nil KeyError eq_refl)). Qed.

(** C174: the depth-dependent class also accepts [depth]. *)
Theorem C174_depth_known : forall cls mp kwds,
  (exists m, toro_lookup cls = Ok m) ->
  (forall n, given kwds n -> toro_name n \/ n = "depth"%string) -> exists o, depth_generic cls mp kwds = Ok o.
Proof. exact depth_generic_known. Qed.
Print Assumptions C174_depth_known.

(** C174: and raises [TypeError] for any other keyword. *)
Theorem C174_depth_unknown : forall cls mp kwds n,
  (exists m, toro_lookup cls = Ok m) -> given kwds n ->
  ~ toro_name n -> n <> "depth"%string -> n <> "ln_std_map"%string -> depth_generic cls mp kwds = Err TypeError.
Proof. exact depth_generic_unknown. Qed.
Print Assumptions C174_depth_unknown.
Example C174_depth_unknown_ex : depth_generic "USGS B"%string None (cons ("rho"%string, VNum 1) nil) = Err TypeError.
Proof.
  apply (C174_depth_unknown "USGS B"%string None _ "rho"%string); [now eexists|exists (VNum 1); now left| |discriminate|discriminate].
  intros H. apply name_iff in H. cbn in H. repeat (destruct H as [H|H]; [discriminate H|]). exact H.
Qed.

(** C174: for the depth-dependent class the same holds of every parameter but [ln_std]:
    without [depth] a given [ln_std] is replaced by 0.25 and 0.15; with [depth] but
    without [ln_std] the number of the site class is stored, and computing the standard
    deviations raises [TypeError]. *)
Theorem C174_depth_values : forall cls m mp kwds o,
  toro_lookup cls = Ok m -> once kwds ->
  ~ given kwds "ln_std_map"%string -> depth_generic cls mp kwds = Ok o ->
  kw_get o "ln_std_map"%string = Some (VMap (match mp with Some d => d | None => nil end)) /\
  (forall n v, In (n, v) kwds -> n <> "ln_std"%string -> kw_get o n = Some v) /\
  (forall n x, ~ given kwds n -> n <> "ln_std"%string -> class_value m n x -> kw_get o n = Some (VNum x)) /\
  (given kwds "depth"%string ->
     (forall v, In ("ln_std"%string, v) kwds -> kw_get o "ln_std"%string = Some v) /\
     (~ given kwds "ln_std"%string -> kw_get o "ln_std"%string = Some (VNum (tv_ln_std m)) /\ depth_end_values o = Err TypeError)) /\
  (~ given kwds "depth"%string ->
     kw_get o "depth"%string = Some (VArr (cons 0 (cons 15 nil))) /\
     kw_get o "ln_std"%string = Some (VArr (cons 0.25 (cons 0.15 nil))) /\ depth_end_values o = Ok (0.25, 0.15)).
Proof. exact depth_generic_values. Qed.
Print Assumptions C174_depth_values.
(** Depths alone: the model is created, but cannot be used. *)
Example C174_depth_values_ex : exists o, depth_generic "USGS B"%string None (cons ("depth"%string, VArr (cons 0 (cons 30 nil))) nil) = Ok o /\
  depth_end_values o = Err TypeError.
Proof.
  set (kw := cons ("depth"%string, VArr (cons 0 (cons 30 nil))) nil).
  destruct (C174_depth_known "USGS B"%string None kw) as [o Ho]; [now eexists| |].
  { intros n [v [Hv|[]]]. injection Hv as <- _. now right. }
  exists o. split; [exact Ho|].
  destruct (C174_depth_values "USGS B"%string (mkToroVel 0.27 0.97 3.8 1 0 0.293) None kw o) as (_ & _ & _ & A & _); [reflexivity| | |exact Ho|].
  - constructor; [intros []|constructor].
  - intros [v [Hv|[]]]. discriminate Hv.
  - apply A; [now exists (VArr (cons 0 (cons 30 nil))); left|]. intros [v [Hv|[]]]. discriminate Hv.
Qed.
