(** Specifications for the outputs computed at a location. *)
From Verif Require Import Common Model.Layer Model.Waves Model.Eql Model.Motion Model.Results Spec.MotionSpec Spec.WaveSpec.
From Coquelicot Require Import Complex.
Local Open Scope R_scope.

(** The motion at a location is not zero at any frequency. *)
Definition moves (waves : list (list wrow)) (loc : wloc) : Prop :=
  List.Forall (fun rs => exists x, wave_at_location rs loc = Ok (Some x) /\ x <> RtoC 0) waves.

(** [c] is the combination [al a + be b], sample by sample. *)
Definition combines (al be : R) (a b c : list R) : Prop :=
  length a = length b /\ length c = length a /\
  forall i x y, nth_error a i = Some x -> nth_error b i = Some y -> nth_error c i = Some (al * x + be * y).

(** [y] is read off the points [(xs, ys)]: the value at a point, the chord between
    neighbours, the end value outside. *)
Definition read_off (xs ys : list R) (x y : R) : Prop :=
  (forall x0 y0, nth_error xs 0 = Some x0 -> nth_error ys 0 = Some y0 -> x <= x0 -> y = y0) /\
  (forall x1 y1, last_opt xs = Some x1 -> last_opt ys = Some y1 -> x1 <= x -> y = y1) /\
  (forall i x0 x1 y0 y1, nth_error xs i = Some x0 -> nth_error xs (S i) = Some x1 ->
     nth_error ys i = Some y0 -> nth_error ys (S i) = Some y1 -> x0 <= x <= x1 ->
     exists t, 0 <= t <= 1 /\ x = (1 - t) * x0 + t * x1 /\ y = (1 - t) * y0 + t * y1).

(** The same calculator state, with another record. *)
Definition with_motion (K : calculator) (m : ts_motion) : calculator :=
  mkCalc m (k_layers K) (k_wt K) (k_input K) (k_waves K).

(** [K] holds waves computed for sound layers [lsw] and the record [a], whose FFT length [n]
    is even; the frequencies are zero or not below the threshold of the kernels. *)
Definition ran (dt : R) (a : list R) (fa : option Z) (n : Z) (lsw : list layer) (K : calculator) : Prop :=
  0 < dt /\ new_motion dt a fa = Ok (k_motion K) /\ fft_length (length a) fa n /\ Z.even n = true /\
  IZR n * dt <= 6e8 /\ lsw <> [] /\ List.Forall sound lsw /\ length (k_layers K) = length lsw /\
  exists v, calc_waves (as_motion (k_motion K) v) lsw = Ok (k_waves K).

(** [K] holds the linear-elastic analysis of the site [ls] under the record [a]. *)
Definition linear_run (dt : R) (a : list R) (fa : option Z) (n : Z) (ls : list layer) (K : calculator) : Prop :=
  0 < dt /\ new_motion dt a fa = Ok (k_motion K) /\ fft_length (length a) fa n /\ Z.even n = true /\
  IZR n * dt <= 6e8 /\ ls <> [] /\ List.Forall (fun l => 0 < l_vs l /\ 0 < s_unit_wt (l_soil l) /\ 0 <= l_thick l) ls /\
  k_layers K = map layer_reset ls /\
  exists v, le_call (as_motion (k_motion K) v) true ls = Ok (k_waves K).
