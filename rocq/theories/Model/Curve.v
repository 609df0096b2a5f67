(** Model of [NonlinearCurve] (src/pystrata/site.py:72-276) with scalar values.
    Simplified: one-dimensional [values] only (the two-dimensional branch of
    site.py:173-175 and 214-224 is in CurveObject.v); exact reals. *)
From Verif Require Import Common.
Local Open Scope R_scope.

(** site.py:90-101. [c_id] stands for the object's identity: [NonlinearCurve]
    defines no [__eq__], so curves compare by identity. *)
Record curve := mkCurve {
  c_id : nat;
  c_strains : list R;
  c_values : list R;
  c_lo : R;
  c_hi : R
}.

(** site.py:249-251 and 274-276: [_default_limits]. *)
Definition mod_reduc_limits : R * R := (0.001, 1).
Definition damping_limits : R * R := (0, 0.49).

(** site.py:229-276, [ModulusReductionCurve(name, strains, values)] and
    [DampingCurve(...)] with [limits=None]. *)
Definition modulus_curve (id : nat) (ss vs : list R) : curve :=
  mkCurve id ss vs (fst mod_reduc_limits) (snd mod_reduc_limits).
Definition damping_curve (id : nat) (ss vs : list R) : curve :=
  mkCurve id ss vs (fst damping_limits) (snd damping_limits).

(** [interp1d] sorts its abscissae with a stable sort (scipy's default
    [assume_sorted=False]); insertion sort on the abscissa. *)
Fixpoint ins_pt (p : R * R) (l : list (R * R)) : list (R * R) :=
  match l with
  | [] => [p]
  | q :: rest => if Rleb (fst p) (fst q) then p :: q :: rest else q :: ins_pt p rest
  end.
Fixpoint sort_pts (l : list (R * R)) : list (R * R) :=
  match l with [] => [] | p :: rest => ins_pt p (sort_pts rest) end.

(** site.py:206-213: the table in (ln strain, value), in listed order. *)
Definition ln_table (c : curve) : list (R * R) :=
  combine (map ln (c_strains c)) (c_values c).

(** site.py:211-213, evaluation of
    [interp1d(x, y, "linear", bounds_error=False, fill_value=(y[0], y[-1]))]:
    linear interpolation on the sorted table, then the fill values (taken from
    the table in listed order) outside the sorted range.  [None] for an empty
    table. *)
Definition interp1d_call (tab : list (R * R)) (x : R) : option R :=
  match tab, last_opt tab with
  | (_, yfirst) :: _, Some (_, ylast) =>
      let srt := sort_pts tab in
      match srt, last_opt srt with
      | (xmin, _) :: _, Some (xmax, _) =>
          Some (if Rltb x xmin then yfirst
                else if Rltb xmax x then ylast
                else np_interp x srt)
      | _, _ => None
      end
  | _, _ => None
  end.

(** site.py:146-177, [NonlinearCurve.__call__], with [_update] (199-226): when
    the numbers of strains and values differ, or there are none, [_interpolater]
    is [None] and calling (or iterating over) it raises [TypeError]. *)
Definition curve_call (c : curve) (strain : R) : res R :=
  if Nat.eqb (length (c_strains c)) (length (c_values c))
  then match interp1d_call (ln_table c) (ln (Rmax 1e-9 strain)) with
       | Some v => Ok (clip v (c_lo c) (c_hi c))
       | None => Err TypeError
       end
  else Err TypeError.
