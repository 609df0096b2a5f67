(** Model of the depth averages of a profile: [time_average_vel],
    [vs30], [simplified_rayliegh_vel] (site.py:2281-2347), on the layers by value. *)
From Verif Require Import Common Model.Curve Model.Layer.
Local Open Scope R_scope.

(** site.py:2281-2307.  [np.r_[0, travel_time[:-1]]], the half-space extended to
    [depth] if needed, cumulated and interpolated. *)
Definition time_average_vel (ls : list layer) (depth : R) : res R :=
  match last_opt ls with
  | None => Err IndexError
  | Some bottom =>
      let depths := map l_depth ls in
      let times := 0 :: map travel_time (removelast ls) in
      let deeper := Rltb (l_depth bottom) depth in
      let depths' := if deeper then depths ++ [depth] else depths in
      let times' := if deeper
                    then times ++ [(depth - l_depth bottom) / shear_vel bottom]
                    else times in
      Ok (depth / np_interp depth (combine depths' (cumsum times')))
  end.

(** site.py:2309-2313 *)
Definition vs30 (ls : list layer) : res R :=
  match ls with
  | [] => Err ValueError
  | _ =>
      let tot := 0 :: removelast (cumsum (map (fun l => l_thick l / l_vs l) ls)) in
      Ok (30 / np_interp 30 (combine (map l_depth ls) tot))
  end.

(** [np.cumsum(x[::-1])[::-1]] of site.py:2334 *)
Definition cumsum_rev (xs : list R) : list R := rev (cumsum (rev xs)).

(** Sum of each element and the next one (the roll of site.py:2342, whose last,
    wrapped, entry is dropped by [:-1]). *)
Fixpoint pair_sums (xs : list R) : list R :=
  match xs with
  | a :: rest =>
      match rest with
      | b :: _ => (a + b) :: pair_sums rest
      | [] => []
      end
  | [] => []
  end.

Definition map2 {A B C} (f : A -> B -> C) (xs : list A) (ys : list B) : list C :=
  map (fun xy => f (fst xy) (snd xy)) (combine xs ys).

(** site.py:2315-2347 *)
Definition simplified_rayleigh_vel (ls : list layer) : R :=
  let thicks := map l_thick ls in
  let mode_incr := map (fun l => depth_mid l * l_thick l / l_vs l ^ 2) ls in
  let shape := cumsum_rev mode_incr ++ [0] in
  let num := 4 * Rsum (map (fun l => l_thick l * depth_mid l ^ 2 / l_vs l ^ 2) ls) in
  let den := Rsum (map2 (fun t s => t * s ^ 2) thicks (pair_sums shape)) in
  let freq_fund := sqrt (num / den) in
  let period_fun := 2 * PI / freq_fund in
  4 * Rsum thicks / period_fun.
