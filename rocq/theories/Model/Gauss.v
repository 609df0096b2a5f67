(** The truncated normal distribution of scipy and the scale that
    [TruncatedNorm] (variation.py:38-148) derives from it. *)
From Verif Require Import Common.
From Coquelicot Require Import Coquelicot.
Local Open Scope R_scope.

(** Standard normal density without its constant factor, and the variance of the
    normal restricted to [[-a, a]]: scipy's [truncnorm.stats(-a, a, moments="v")]. *)
Definition gauss (x : R) : R := exp (- x ^ 2 / 2).
Definition truncnorm_var (a : R) : R :=
  RInt (fun x => x ^ 2 * gauss x) (- a) a / RInt gauss (- a) a.

(** variation.py:55-65 *)
Definition tn_scale (limit : R) : R := 1 / sqrt (truncnorm_var limit).
