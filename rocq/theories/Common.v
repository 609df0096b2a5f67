(** Shared vocabulary: exceptions as values, boolean comparisons on the reals,
    Python list indexing, and the numpy helpers used everywhere. *)
From Coq Require Export Reals List ZArith Lia Lra Bool Arith.
Export ListNotations.
Local Open Scope R_scope.

(** Python exceptions raised by the modelled code. *)
Inductive exn : Set :=
| IndexError | KeyError | ValueError | TypeError | AttributeError
| AssertionError | LookupError | RuntimeError | NotImplementedError
| ZeroDivisionError | NameError | UnboundLocalError
| StopIteration | RuntimeWarning.

(** Outcome of a Python call. *)
Inductive res (A : Type) : Type :=
| Ok (a : A)
| Err (e : exn).
Arguments Ok {A} a.
Arguments Err {A} e.

Definition bind {A B} (m : res A) (f : A -> res B) : res B :=
  match m with Ok a => f a | Err e => Err e end.

(** Comparison operators on floats, idealised to reals. *)
Definition Rltb (x y : R) : bool := if Rlt_dec x y then true else false.
Definition Rleb (x y : R) : bool := if Rle_dec x y then true else false.
Definition Reqb (x y : R) : bool := if Req_EM_T x y then true else false.

(** [np.clip(v, lo, hi)] is [minimum(maximum(v, lo), hi)]. *)
Definition clip (v lo hi : R) : R := Rmin (Rmax v lo) hi.

(** [np.isclose(a, b)] with the default tolerances. *)
Definition isclose (a b : R) : bool := Rleb (Rabs (a - b)) (1e-8 + 1e-5 * Rabs b).

(** [sum(xs)] *)
Definition Rsum (xs : list R) : R := fold_right Rplus 0 xs.

(** [np.cumsum], accumulator form. *)
Fixpoint cumsum_from (acc : R) (xs : list R) : list R :=
  match xs with
  | [] => []
  | x :: rest => (acc + x) :: cumsum_from (acc + x) rest
  end.
Definition cumsum (xs : list R) : list R := cumsum_from 0 xs.

(** [np.interp(x, xp, fp)] for increasing [xp], as segments; constant outside. *)
Fixpoint np_interp (x : R) (pts : list (R * R)) : R :=
  match pts with
  | [] => 0
  | (x0, y0) :: rest =>
      match rest with
      | [] => y0
      | (x1, y1) :: _ =>
          if Rltb x x1
          then if Rleb x x0 then y0
               else (y1 - y0) / (x1 - x0) * (x - x0) + y0
          else np_interp x rest
      end
  end.

(** [seq[i]] with Python's negative indices. *)
Definition py_index (i : Z) (n : nat) : option nat :=
  let j := if (i <? 0)%Z then (i + Z.of_nat n)%Z else i in
  if (j <? 0)%Z then None
  else if (j <? Z.of_nat n)%Z then Some (Z.to_nat j) else None.

(** The start position that [seq[i:]] or [seq.insert(i, _)] uses on a sequence
    of length [n]: negative indices count from the end, the rest is clamped. *)
Definition py_slice_start (i : Z) (n : nat) : nat :=
  let j := if (i <? 0)%Z then (i + Z.of_nat n)%Z else i in
  if (j <? 0)%Z then 0%nat
  else if (Z.of_nat n <? j)%Z then n else Z.to_nat j.

(** The last element of a non-empty list, without a default. *)
Fixpoint last_opt {A} (xs : list A) : option A :=
  match xs with
  | [] => None
  | [x] => Some x
  | _ :: rest => last_opt rest
  end.

Definition opt_bind {A B} (m : option A) (f : A -> option B) : option B :=
  match m with Some a => f a | None => None end.

(** Division and power of floats; [None] stands for a result that is not finite. *)
Definition div_opt (x y : R) : option R := if Reqb y 0 then None else Some (x / y).

(** [x ** y]; a negative base gives nan (an integral exponent is not expected). *)
Definition pow_opt (x y : R) : option R :=
  if Rltb 0 x then Some (Rpower x y)
  else if Reqb x 0 then (if Rltb 0 y then Some 0 else if Reqb y 0 then Some 1 else None)
  else None.

(** [np.log] *)
Definition ln_opt (x : R) : option R := if Rltb 0 x then Some (ln x) else None.

Fixpoint map_opt {A B} (f : A -> option B) (xs : list A) : option (list B) :=
  match xs with
  | [] => Some []
  | x :: rest => opt_bind (f x) (fun y => opt_bind (map_opt f rest) (fun ys => Some (y :: ys)))
  end.
