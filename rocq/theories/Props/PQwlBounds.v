(** Property C141: bounds of the quarter-wavelength amplification. *)
From Verif Require Import Common Model.Curve Model.Layer Model.Qwl Spec.StepSpec Spec.QwlSpec Proof.QwlFacts Proof.QwlProps Proof.QwlBounds Props.PQwl.
From Coquelicot Require Import Coquelicot.
Local Open Scope R_scope.

(** C141: the amplification lies between the square roots of the impedance ratios formed
    with the largest and the smallest densities and slownesses of the site. *)
Theorem C141_bounds : forall thickness slowness density atten fs rho_n s_n amps terms s_lo s_hi r_lo r_hi,
  site_property thickness slowness -> site_property thickness density ->
  last_opt density = Some rho_n -> last_opt slowness = Some s_n -> List.Forall (fun f => 0 < f) fs ->
  0 < s_lo -> 0 < r_lo -> List.Forall (fun s => s_lo <= s <= s_hi) slowness -> List.Forall (fun r => r_lo <= r <= r_hi) density ->
  calc_amp Standard atten fs density thickness slowness = Ok (amps, terms) ->
  List.Forall (fun o => exists a, o = Some a /\
    sqrt (impedance_ratio rho_n s_n r_hi s_lo) <= a <= sqrt (impedance_ratio rho_n s_n r_lo s_hi)) amps.
Proof. exact amp_bounds. Qed.
Print Assumptions C141_bounds.
Example C141_bounds_ex : List.Forall (fun s => 1 / 800 <= s <= 1 / 200) ex_slow /\ List.Forall (fun r => 1.8 <= r <= 2.2) ex_dens.
Proof. unfold ex_slow, ex_dens. split; repeat (apply List.Forall_cons; [lra|]); apply List.Forall_nil. Qed.

(** C141: when slowness does not increase and density does not decrease with depth, the
    amplification is at least 1, at most the square root of the impedance ratio of
    bottom to top, and does not decrease with frequency. *)
Theorem C141_stiffening : forall thickness slowness density atten fs rho_n s_n rho_0 s_0 amps terms,
  site_property thickness slowness -> site_property thickness density -> falling slowness -> rising density ->
  last_opt density = Some rho_n -> last_opt slowness = Some s_n -> nth_error density 0 = Some rho_0 -> nth_error slowness 0 = Some s_0 ->
  List.Forall (fun f => 0 < f) fs ->
  calc_amp Standard atten fs density thickness slowness = Ok (amps, terms) ->
  List.Forall (fun o => exists a, o = Some a /\ 1 <= a <= sqrt ((rho_n / s_n) / (rho_0 / s_0))) amps /\
  (forall i j f f' a a', nth_error fs i = Some f -> nth_error fs j = Some f' -> f <= f' ->
     nth_error amps i = Some (Some a) -> nth_error amps j = Some (Some a') -> a <= a').
Proof. exact amp_stiffening. Qed.
Print Assumptions C141_stiffening.
Example C141_stiffening_ex : site_property ex_thick ex_slow /\ site_property ex_thick ex_dens /\ falling ex_slow /\ rising ex_dens.
Proof. split; [exact ex_slow_site|]. split; [exact ex_dens_site|]. unfold ex_slow, ex_dens. cbn. lra. Qed.
