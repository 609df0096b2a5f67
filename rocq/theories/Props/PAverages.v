(** Properties C16, C17 and C70: depth averages. *)
From Coquelicot Require Import Coquelicot.
From Coq Require Import String.
From Verif Require Import Common Model.Curve Model.Layer Model.Averages Spec.StepSpec Spec.ProfileSpec Spec.AverageSpec
  Proof.CommonFacts Proof.StepFacts Proof.AveragesFacts Proof.AveragesProps Proof.ProfileRefute.
Local Open Scope R_scope.

(** Two layers over rock, for the examples. *)
Definition ex_site : list layer :=
  [set_pos (layer_make clay 10 200 0.05) 0 0 0; set_pos (layer_make clay 25 400 0.05) 0 10 180;
   set_pos (layer_make clay 0 1000 0.05) 0 35 630].
Lemma ex_site_ok : depths_cumulative ex_site /\ Forall (fun l => 0 < l_thick l) (removelast ex_site) /\
  Forall (fun l => 0 < l_vs l) ex_site.
Proof.
  split; [|split; [repeat constructor; cbn; lra|repeat constructor; cbn; lra]].
  intros above l below E. destruct above as [|a1 [|a2 [|a3 above]]].
  - injection E as <- _. cbn. lra.
  - injection E as <- <- _. cbn. lra.
  - injection E as <- <- <- _. cbn. lra.
  - injection E as _ _ _ E. destruct above; discriminate.
Qed.

(** C16: time_average_vel(d) is d divided by the integral of 1/Vs from the surface to d.
    *)
Theorem C16_time_average : forall ls d,
  ls <> [] -> depths_cumulative ls -> Forall (fun l => 0 < l_thick l) (removelast ls) ->
  (forall b, last_opt ls = Some b -> 0 <= l_thick b) -> 0 <= d ->
  time_average_vel ls d = Ok (d / RInt (step_fun (slowness ls)) 0 d).
Proof. exact time_average_integral. Qed.
Print Assumptions C16_time_average.
Example C16_ex : ex_site <> [] /\ depths_cumulative ex_site /\ Forall (fun l => 0 < l_thick l) (removelast ex_site).
Proof. split; [discriminate|]. split; apply ex_site_ok. Qed.

(** C16: it lies between the smallest and the largest velocity. *)
Theorem C16_bounds : forall ls d vlo vhi r,
  ls <> [] -> depths_cumulative ls -> Forall (fun l => 0 < l_thick l) (removelast ls) ->
  (forall b, last_opt ls = Some b -> 0 <= l_thick b) -> 0 < d ->
  0 < vlo -> Forall (fun l => vlo <= shear_vel l <= vhi) ls ->
  time_average_vel ls d = Ok r -> vlo <= r <= vhi.
Proof. exact time_average_bounds. Qed.
Print Assumptions C16_bounds.

(** C17: with the half-space at 30 m or deeper, vs30 is 30 divided by the integral of
    1/Vs over 30 m (initial velocities). *)
Theorem C17_deep : forall ls,
  ls <> [] -> depths_cumulative ls -> Forall (fun l => 0 < l_thick l) (removelast ls) ->
  (forall b, last_opt ls = Some b -> 0 <= l_thick b) -> 30 <= total_thick (removelast ls) ->
  vs30 ls = Ok (30 / RInt (step_fun (initial_slowness ls)) 0 30).
Proof. exact vs30_integral. Qed.
Print Assumptions C17_deep.
Example C17_deep_ex : 30 <= total_thick (removelast ex_site). Proof. cbn. lra. Qed.

(** C17: with the half-space shallower than 30 m, vs30 is strictly larger than 30
    divided by the travel time to 30 m: the part of the half-space is left out. *)
Theorem C17_refuted : forall ls r,
  ls <> [] -> depths_cumulative ls -> Forall (fun l => 0 < l_thick l) (removelast ls) ->
  Forall (fun l => 0 < l_vs l) ls -> 0 < total_thick (removelast ls) < 30 ->
  vs30 ls = Ok r -> 30 / step_int (initial_slowness ls) 30 < r.
Proof. exact vs30_overestimates. Qed.
Print Assumptions C17_refuted.
Example C17_refuted_ex : exists ls r, vs30 ls = Ok r /\ 0 < total_thick (removelast ls) < 30 /\
  depths_cumulative ls /\ Forall (fun l => 0 < l_vs l) ls.
Proof.
  exists [set_pos (layer_make clay 10 200 0.05) 0 0 0; set_pos (layer_make clay 0 1000 0.05) 0 10 180].
  eexists. split; [reflexivity|]. split; [cbn; lra|]. split; [|repeat constructor; cbn; lra].
  intros above l below E. destruct above as [|a1 [|a2 above]].
  - injection E as <- _. cbn. lra.
  - injection E as <- <- _. cbn. lra.
  - injection E as _ _ E. destruct above; discriminate.
Qed.

(** C70: the simplified Rayleigh velocity is 4 H divided by the period of the mode shape
    of Urzua et al. *)
Theorem C70_formula : forall ls,
  Forall (fun l => 0 < l_vs l) ls ->
  simplified_rayleigh_vel ls =
  4 * total_thick ls / (2 * PI / sqrt (4 * strain_energy ls / shape_energy ls)).
Proof. exact rayleigh_formula. Qed.
Print Assumptions C70_formula.

(** C70: multiplying every velocity by c multiplies the simplified Rayleigh velocity by
    c; it is positive. *)
Theorem C70_rayleigh_scales : forall c ls,
  0 < c -> Forall (fun l => 0 < l_vs l /\ 0 <= l_thick l /\ 0 <= l_depth l) ls ->
  0 < total_thick ls ->
  simplified_rayleigh_vel (map (scale_vs c) ls) = c * simplified_rayleigh_vel ls /\
  0 < simplified_rayleigh_vel ls.
Proof. exact rayleigh_scale. Qed.
Print Assumptions C70_rayleigh_scales.
Example C70_ex : Forall (fun l => 0 < l_vs l /\ 0 <= l_thick l /\ 0 <= l_depth l) ex_site /\ 0 < total_thick ex_site.
Proof. split; [repeat constructor; cbn; lra|cbn; lra]. Qed.

(** C70: the time-averaged velocity scales likewise. *)
Theorem C70_time_average_scales : forall c ls d,
  0 < c -> ls <> [] -> depths_cumulative ls -> Forall (fun l => 0 < l_thick l) (removelast ls) ->
  Forall (fun l => 0 < s_unit_wt (l_soil l) /\ 0 < l_vs l /\ shear_mod l = initial_shear_mod l) ls ->
  (forall b, last_opt ls = Some b -> 0 <= l_thick b) -> 0 < d ->
  exists r, time_average_vel ls d = Ok r /\ time_average_vel (map (scale_vs c) ls) d = Ok (c * r).
Proof. exact time_average_scale. Qed.
Print Assumptions C70_time_average_scales.
