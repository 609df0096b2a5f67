(** Property C155: what a quarter-wavelength calculator reports. *)
From Verif Require Import Common Model.Curve Model.Layer Model.Qwl Spec.StepSpec Spec.QwlSpec Spec.QwlCallSpec Proof.QwlProps Proof.QwlCall.
From Coq Require Import String List.
From Coquelicot Require Import Coquelicot.
Local Open Scope R_scope.

(** Ten metres at 200 m/s on a half-space at 500 m/s. *)
Definition qc_rock : layer := layer_make (stale_soil 22) 0 500 0.01.
Definition qc_site : list layer := cons (layer_make (stale_soil 18) 10 200 0.01) (cons qc_rock nil).

(** C155,C20: a call at positive frequencies keeps the profile and either returns, the
    amplifications being the square roots of the ratio of the impedance of the bottom
    layer to the one of the mean density and the mean velocity (depth over travel time)
    down to a quarter wavelength, and the site terms these times exp(-pi kappa f); or
    raises RuntimeError and keeps the amplifications of the call before. *)
Theorem C155_call : forall ls rock q fs q' r,
  List.Forall qwl_layer ls -> last_opt ls = Some rock ->
  q_method q = Standard -> List.Forall (fun f => 0 < f) fs -> qwl_call q fs ls = (q', r) ->
  q_layers q' = ls /\ q_method q' = q_method q /\ q_atten q' = q_atten q /\
  ((r = Ok tt /\ Forall2 (fun f o => exists a, o = Some a /\ qwl_amp ls rock f a) fs (q_amp q') /\
    Forall2 (fun f at_ => exists a, fst at_ = Some a /\ snd at_ = Some (a * exp (- PI * match q_atten q with Some k => k | None => 0 end * f))) fs
      (combine (q_amp q') (q_term q')) /\ length (q_term q') = length fs) \/
   (r = Err RuntimeError /\ q_amp q' = q_amp q /\ q_term q' = q_term q)).
Proof. exact call_reports. Qed.
Print Assumptions C155_call.
Example C155_call_ex : List.Forall qwl_layer qc_site /\ last_opt qc_site = Some qc_rock /\
  exists q' r, qwl_call (mkQwl Standard (Some 0.03) nil nil nil) (cons 1 (cons 5 nil)) qc_site = (q', r).
Proof. split; [unfold qc_site, qc_rock; repeat constructor; cbn; lra|]. split; [reflexivity|]. now destruct (qwl_call _ _ _) as [q' r]; exists q', r. Qed.

(** C155: a call that returns leaves the same calculator whatever was called before. *)
Theorem C155_returned : forall q1 q2 fs ls q',
  q_method q1 = q_method q2 -> q_atten q1 = q_atten q2 ->
  qwl_call q1 fs ls = (q', Ok tt) -> qwl_call q2 fs ls = (q', Ok tt).
Proof. exact call_forgets. Qed.
Print Assumptions C155_returned.
Example C155_returned_ex : exists q', qwl_call (mkQwl Standard None nil nil nil) (cons 1 nil) (cons qc_rock nil) = (q', Ok tt).
Proof.
  unfold qwl_call, calc_amp. cbn [q_method q_atten].
  pose proof (uniform_amp (thicknesses (cons qc_rock nil)) (slownesses (cons qc_rock nil)) (densities (cons qc_rock nil)) None (cons 1 nil) (1 / 500) (22 / GRAVITY)) as U.
  unfold calc_amp in U. rewrite U; [eexists; reflexivity| | | | |fa]; cbn; try fa;
    repeat split; try discriminate; try fa. unfold density, GRAVITY; cbn. fa.
Qed.

(** C155: after a call that raised, the calculator reports the profile of that call with
    the amplification of an earlier profile. *)
Theorem C155_refuted : exists q0 q1 q2 site1 site2 fs1 fs2,
  List.Forall qwl_layer site1 /\ List.Forall qwl_layer site2 /\ List.Forall (fun f => 0 <= f) fs2 /\
  qwl_call q0 fs1 site1 = (q1, Ok tt) /\ qwl_call q1 fs2 site2 = (q2, Err RuntimeError) /\
  q_layers q2 = site2 /\ length (q_amp q2) <> length fs2 /\ q_amp q2 = q_amp q1 /\ q_amp q1 <> nil /\ q_layers q1 <> q_layers q2.
Proof. exact stale_amp. Qed.
Print Assumptions C155_refuted.
