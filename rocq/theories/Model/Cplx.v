(** Complex numbers as numpy computes them: exponential, principal square root
    and division with non-finite results visible. *)
From Verif Require Import Common.
From Coquelicot Require Import Complex.
Local Open Scope R_scope.

(** [np.exp] of a complex number. *)
Definition Cexp (z : C) : C := (exp (Re z) * cos (Im z), exp (Re z) * sin (Im z)).

(** [np.sqrt] of a complex number: the root with non-negative real part, and,
    on the negative real axis, non-negative imaginary part. *)
Definition Csqrt (z : C) : C :=
  let m := Cmod z in
  let re := sqrt ((m + Re z) / 2) in
  let im := sqrt ((m - Re z) / 2) in
  (re, if Rltb (Im z) 0 then - im else im).

(** numpy division: [None] stands for a result containing inf or nan, which is
    what division by complex zero gives. *)
Definition cdivx (x y : C) : option C :=
  if Ceq_dec y (RtoC 0) then None else Some (Cdiv x y).
