(** Nearby sites with the same curves, and equivalent-linear runs away from the points where
    the comparison with the tolerance changes. *)
From Verif Require Import Common Model.Curve Model.Layer Model.Waves Model.Eql Model.Motion Model.Results.
From Verif Require Import Spec.MotionSpec Spec.EqlSpec Spec.ResultsSpec Spec.ContinuitySpec.
From Coq Require Import List.
Local Open Scope R_scope.

(** The same curves; unit weight, velocity, minimum damping and thickness differ by less than [d]. *)
Definition near_site (d : R) (a b : layer) : Prop :=
  s_mod (l_soil a) = s_mod (l_soil b) /\ s_damp (l_soil a) = s_damp (l_soil b) /\ near_description d a b.

(** Also modulus, damping and recorded maximum strain differ by less than [d]. *)
Definition near_result (d : R) (a b : layer) : Prop :=
  near_site d a b /\ Rabs (shear_mod a - shear_mod b) < d /\ Rabs (damping a - damping b) < d /\
  match l_smax a, l_smax b with
  | Some x, Some y => Rabs (x - y) < d
  | None, None => True
  | _, _ => False
  end.

(** After the pass all dampings are positive and the error is not exactly the tolerance. *)
Definition clear_cut (P : eql_params) (st : eql_step) : Prop :=
  List.Forall (fun l => 0 < damping l) (st_layers st) /\ st_error st <> EFin (e_tol P).

(** In the pass from the layers [ls] the strain asked for in a layer is not exactly the limit,
    if there is one. *)
Definition clear_limit (P : eql_params) (m : motion) (lin : wloc) (ls : list layer) : Prop :=
  forall wv j l mx x, calc_waves m ls = Ok wv -> nth_error (removelast ls) j = Some l ->
  calc_strain_max m (length ls) wv lin j l = Ok mx -> limit_on P x -> e_ratio P * mx <> x.

(** The same in all passes [t] that a run with reset makes. *)
Definition clear_limits (P : eql_params) (m : motion) (lin : wloc) (ls : list layer) (t : list eql_step) : Prop :=
  List.Forall (clear_limit P m lin) (removelast (history (estimate_strains m (map layer_reset ls)) t)).

(** Another tolerance. *)
Definition with_tol (P : eql_params) (x : R) : eql_params := mkEql (e_ratio P) x (e_max P) (e_limit P).

(** Another strain limit. *)
Definition with_limit (P : eql_params) (x : option R) : eql_params := mkEql (e_ratio P) (e_tol P) (e_max P) x.

(** [K] holds the equivalent-linear analysis of the site [ls] under the record [a], with the
    passes [t]; [v] is the peak velocity of the record. *)
Definition eql_run (dt : R) (a : list R) (fa : option Z) (n : Z) (v : R) (P : eql_params) (ls : list layer)
    (t : list eql_step) (K : calculator) : Prop :=
  0 < dt /\ new_motion dt a fa = Ok (k_motion K) /\ fft_length (length a) fa n /\ Z.even n = true /\
  IZR n * dt <= 6e8 /\ ls <> [] /\ List.Forall physical ls /\
  exists stop, eql_call P (as_motion (k_motion K) v) (k_input K) true ls = (t, Ok (stop, k_layers K, k_waves K)).
