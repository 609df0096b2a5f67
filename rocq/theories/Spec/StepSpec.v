(** Piecewise-constant functions of depth and their integral. *)
From Verif Require Import Common.
Local Open Scope R_scope.

(** Value at depth [z] of a stack of (thickness, value); the last one extends
    downwards without end. *)
Fixpoint step_fun (l : list (R * R)) (z : R) : R :=
  match l with
  | [] => 0
  | (t, v) :: rest =>
      match rest with
      | [] => v
      | _ => if Rlt_dec z t then v else step_fun rest (z - t)
      end
  end.

(** Its integral from the top to depth [d], by adding up whole layers. *)
Fixpoint step_int (l : list (R * R)) (d : R) : R :=
  match l with
  | [] => 0
  | (t, v) :: rest =>
      match rest with
      | [] => d * v
      | _ => if Rle_dec d t then d * v else t * v + step_int rest (d - t)
      end
  end.
