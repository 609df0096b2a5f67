(** What random profiles are supposed to look like. *)
From Verif Require Import Common Model.Curve Model.Layer Model.Profile Model.Gauss Model.Variation Spec.ProfileSpec.
From Coquelicot Require Import Coquelicot.
Local Open Scope R_scope.

(** Toro's layering rate at depth [t]. *)
Definition rate (c1 c2 c3 t : R) : R := c3 * Rpower (t + c1) c2.

(** [mid] is the centre of layer number [k] of a stack of layers. *)
Definition centre (thicks : list R) (k : nat) (mid : R) : Prop :=
  exists t, nth_error thicks k = Some t /\ mid = Rsum (firstn k thicks) + t / 2.

(** Depth [d] lies in layer [l] of the profile, its base included. *)
Definition hosts (ls : list layer) (d : R) (l : layer) : Prop :=
  exists above below, ls = above ++ l :: below /\
    total_thick above < d <= total_thick above + l_thick l.

(** Quadratic form of a matrix given by its rows. *)
Definition dot (xs ys : list R) : R := Rsum (map (fun p => fst p * snd p) (combine xs ys)).
Definition quad (rows : list (list R)) (xs : list R) : R :=
  dot xs (map (fun row => dot row xs) rows).
Definition entry (rows : list (list R)) (i j : nat) : option R :=
  match nth_error rows i with Some row => nth_error row j | None => None end.
Definition symmetric (rows : list (list R)) : Prop := forall i j, entry rows i j = entry rows j i.
Definition semidefinite (rows : list (list R)) : Prop :=
  forall xs, length xs = length rows -> 0 <= quad rows xs.

(** [q] is the quantile [p] of the standard normal restricted to [a, b]. *)
Definition quantile (p a b q : R) : Prop :=
  a <= q <= b /\ RInt gauss a q = p * RInt gauss a b.
Definition is_ppf (ppf : R -> R -> R -> R) : Prop :=
  forall p a b, 0 < p < 1 -> a < b -> quantile p a b (ppf p a b).

(** Both coordinates within the limit. *)
Definition inside (limit : R) (z : R * R) : Prop :=
  - limit < fst z < limit /\ - limit < snd z < limit.
Definition inside_closed (limit : R) (z : R * R) : Prop :=
  - limit <= fst z <= limit /\ - limit <= snd z <= limit.

(** The values of a curve lie within limits. *)
Definition within (lim : R * R) (vs : list R) : Prop := List.Forall (fun v => fst lim <= v <= snd lim) vs.
Definition damping_values (d : damping_spec) : list R :=
  match d with DConst x => cons x nil | DCurve c => c_values c end.
Definition damping_strains (d : damping_spec) : list R :=
  match d with DConst _ => nil | DCurve c => c_strains c end.
Definition mod_values (s : soil) : list R := match s_mod s with Some c => c_values c | None => nil end.
Definition mod_strains (s : soil) : list R := match s_mod s with Some c => c_strains c | None => nil end.

(** Coefficients for which the rate is positive and integrates to a growing depth. *)
Definition toro_ok (m : toro_thick) : Prop := 0 < tt_c1 m /\ -1 < tt_c2 m /\ 0 < tt_c3 m.

(** The layers of the profile exist. *)
Definition allocated (w : world) (p : nat) : Prop := forall a, In a (layers_of w p) -> (a < w_next w)%nat.

(** Layer [l'] has the soil type, velocity and minimum damping of a copy of [l]. *)
Definition taken (l l' : layer) : Prop :=
  l_soil l' = l_soil l /\ l_vs l' = shear_vel l /\ l_dmin l' = l_dmin l.

(** Toro's correlation model: parameter range, and the correlation of two layers at
    average depth [depth] for the distance [thick]. *)
Definition toro_vel_ok (m : toro_vel) : Prop :=
  0 <= tv_rho_0 m <= 1 /\ 0 <= tv_rho_200 m <= 1 /\ 0 < tv_delta m /\ 0 <= tv_h_0 m /\ 0 <= tv_b m.

Definition depth_corr (m : toro_vel) (depth : R) : R :=
  if Rltb 200 depth then tv_rho_200 m
  else tv_rho_200 m * (if Rltb 0 (depth + tv_h_0 m) then Rpower ((depth + tv_h_0 m) / (200 + tv_h_0 m)) (tv_b m)
                       else if Rltb 0 (tv_b m) then 0 else 1).
Definition toro_value (m : toro_vel) (depth thick : R) : R :=
  (1 - depth_corr m depth) * (tv_rho_0 m * exp (- Rmin thick 100 / tv_delta m)) + depth_corr m depth.

(** Depths in order. *)
Definition rising (xs : list R) : Prop :=
  forall i x y, nth_error xs i = Some x -> nth_error xs (S i) = Some y -> x <= y.

(** Standard deviations that are not negative. *)
Definition spread_ok (k : var_kind) : Prop :=
  match k with Darendeli => True | Spid sm sd => 0 <= sm /\ 0 <= sd end.

(** The factor between the two deviations of a fixed percentile in the documentation of
    [TruncatedNorm.correlated_at_percentile] (variation.py:111-136). *)
Definition second_factor (correl : R) : R := correl + sqrt (Rmax (1 - correl ^ 2) 0).
