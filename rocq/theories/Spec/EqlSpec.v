(** Specification of the equivalent-linear iteration, in terms of the passes it
    makes and the layers it leaves. *)
From Verif Require Import Common Model.Curve Model.Layer Model.Eql.
Local Open Scope R_scope.

(** The error of a pass is (finite and) below the tolerance. *)
Definition below (tol : R) (s : eql_step) : Prop :=
  exists x, st_error s = EFin x /\ x < tol.

(** A strain limit [x] is in force. *)
Definition limit_on (P : eql_params) (x : R) : Prop := e_limit P = Some x /\ x <> 0.

(** The strain used for a layer whose peak strain is [mx]. *)
Definition used_strain (P : eql_params) (mx s : R) : Prop :=
  (forall x, limit_on P x -> x < e_ratio P * mx -> s = x) /\
  ((forall x, limit_on P x -> e_ratio P * mx <= x) -> s = e_ratio P * mx).

(** The layer descriptions at the start and after each pass. *)
Definition history (ls1 : list layer) (t : list eql_step) : list (list layer) :=
  ls1 :: map st_layers t.

(** Relative change in percent from [a] to [b]. *)
Definition pct (a b : R) : R := 100 * ((a - b) / b).

(** A nonlinear layer holds its strain as an iterated value, as after [reset]. *)
Definition assignable (l : layer) : Prop :=
  is_nonlinear (l_soil l) = true -> exists i, l_strain l = SIter i.

(** Exceptions of the wave kernels. *)
Definition kernel_exn (e : exn) : Prop := e = ZeroDivisionError \/ e = IndexError.

(** A soil whose modulus-reduction curve, if any, is limited to positive values
    (the default limits are 0.001 and 1), and a layer with positive weight and
    velocity. *)
Definition positive_modulus (s : soil) : Prop :=
  match s_mod s with None => True | Some c => 0 < c_lo c /\ c_lo c <= c_hi c end.
Definition physical (l : layer) : Prop :=
  0 < s_unit_wt (l_soil l) /\ 0 < l_vs l /\ 0 <= l_thick l /\ positive_modulus (l_soil l).

(** Frequencies the kernels treat as zero or as non-zero without ambiguity. *)
Definition clear_freqs (m : motion) : Prop := Forall (fun w => w = 0 \/ 1e-8 < w) (m_freqs m).

(** The motion has a peak for every array with one value per frequency. *)
Definition answers (m : motion) : Prop :=
  forall tf, length tf = length (m_freqs m) -> exists p, m_peak m tf = Ok p.

(** What a run must not change in a layer. *)
Definition description (l : layer) : soil * R * R * R * R * R * option nat :=
  (l_soil l, l_thick l, l_depth l, l_svert l, l_vs l, l_dmin l, l_prof l).

(** Two layers, and two passes, alike in everything but the recorded maximum strain. *)
Definition alike (a b : layer) : Prop :=
  description a = description b /\ l_G a = l_G b /\ l_D a = l_D b /\ l_strain a = l_strain b.
Definition step_alike (s t : eql_step) : Prop :=
  Forall2 alike (st_layers s) (st_layers t) /\ st_limited s = st_limited t /\ st_error s = st_error t.

(** The same calculator with another number of iterations. *)
Definition with_max (P : eql_params) (n : Z) : eql_params := mkEql (e_ratio P) (e_tol P) n (e_limit P).
