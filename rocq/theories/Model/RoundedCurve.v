(** Evaluation of a nonlinear curve in binary64 arithmetic (site.py:146-213).  [lg] is
    [np.log], whose results are not correctly rounded; the theorems say what they need of it.
    [interp1d] with a linear kind and fill values hands one-dimensional tables to
    [np.interp], which computes the slope, the distance from the point to the left, their
    product and its sum with the value to the left; whether the product is rounded before
    the sum depends on the build ([fused]).  With [rnd x = x] and [lg = ln] this is
    Model.Curve (Proof.RoundCurve). *)
From Verif Require Import Common Model.Curve Model.Rounded.
Local Open Scope R_scope.

Section RoundedCurve.
Variable rnd : R -> R.
Variable lg : R -> R.
Variable fused : bool.

(** One segment of [np.interp]. *)
Definition segment_r (x0 y0 x1 y1 x : R) : R :=
  let slope := rnd (rnd (y1 - y0) / rnd (x1 - x0)) in
  let d := rnd (x - x0) in
  if fused then rnd (slope * d + y0) else rnd (rnd (slope * d) + y0).

(** [np.interp(x, xp, fp)] for increasing [xp]: the tabulated value at a tabulated point. *)
Fixpoint np_interp_r (x : R) (pts : list (R * R)) : R :=
  match pts with
  | [] => 0
  | (x0, y0) :: rest =>
      match rest with
      | [] => y0
      | (x1, y1) :: _ =>
          if Rltb x x1
          then if Rleb x x0 then y0 else segment_r x0 y0 x1 y1 x
          else np_interp_r x rest
      end
  end.

(** site.py:206-213 *)
Definition ln_table_r (c : curve) : list (R * R) := combine (map lg (c_strains c)) (c_values c).
Definition interp1d_call_r (tab : list (R * R)) (x : R) : option R :=
  match tab, last_opt tab with
  | (_, yfirst) :: _, Some (_, ylast) =>
      let srt := sort_pts tab in
      match srt, last_opt srt with
      | (xmin, _) :: _, Some (xmax, _) =>
          Some (if Rltb x xmin then yfirst
                else if Rltb xmax x then ylast
                else np_interp_r x srt)
      | _, _ => None
      end
  | _, _ => None
  end.

(** site.py:146-177 *)
Definition curve_call_r (c : curve) (strain : R) : res R :=
  if Nat.eqb (length (c_strains c)) (length (c_values c))
  then match interp1d_call_r (ln_table_r c) (lg (Rmax (rnd 1e-9) strain)) with
       | Some v => Ok (clip v (c_lo c) (c_hi c))
       | None => Err TypeError
       end
  else Err TypeError.
End RoundedCurve.
