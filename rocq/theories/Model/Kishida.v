(** Model of [KishidaSoilType] (src/pystrata/site.py:1515-1680).  A result that is not a
    finite number is [None] (numpy gives nan or inf and carries on); the formatted name
    of the curves is an argument. *)
From Coq Require Import String.
From Verif Require Import Common Model.Curve Model.Layer Model.SoilModels.
Local Open Scope R_scope.

(** [(b * x).sum(axis=1)], one row. *)
Definition row_sum (b x : list R) : R := Rsum (map (fun p => fst p * snd p) (combine b x)).

(** site.py:1564-1567, mean values of the predictors *)
Definition k_x1_mean : R := -2.5.
Definition k_x2_mean : R := 4.0.
Definition k_x3_mean : R := 0.5.

(** site.py:1569 *)
Definition k_x3 (organic_content : R) : R := 2.0 / (1 + exp (organic_content / 23)).

(** site.py:1605-1610, Equation (6) *)
Definition k_strain_ref (x3 x3_mean : R) : R := exp (-1.41 + -0.950 * (x3 - x3_mean)) / 100.

(** site.py:1612-1650, one strain: the exponent [ln_shear_mod].  [x1] and [x4] are
    logarithms and may fail before this point. *)
Definition k_ln_shear_mod (strain strain_ref x1 x2 x3 x4 : R) : option R :=
  let x := [1; x1; x2; x3; x4;
            (x1 - k_x1_mean) * (x2 - k_x2_mean);
            (x1 - k_x1_mean) * (x3 - k_x3_mean);
            (x2 - k_x2_mean) * (x3 - k_x3_mean);
            (x1 - k_x1_mean) * (x2 - k_x2_mean) * (x3 - k_x3_mean)] in
  opt_bind (div_opt 1 strain_ref) (fun q0 =>
  opt_bind (div_opt strain strain_ref) (fun q1 =>
  opt_bind (ln_opt (q0 + q1)) (fun denom =>
  opt_bind (ln_opt strain_ref) (fun lr =>
  opt_bind (div_opt (lr - k_x1_mean) denom) (fun ratio =>
  opt_bind (div_opt (0.37 * k_x3_mean) denom) (fun b5 =>
  opt_bind (div_opt 0.37 denom) (fun b8 =>
  let b := [5.11; -0.729;
            1 - 0.37 * k_x3_mean * (1 + ratio);
            -0.693;
            0.8 - 0.4 * x3;
            b5;
            0.0;
            -0.37 * (1 + ratio);
            b8] in
  Some (row_sum b x)))))))).

(** site.py:1572, 1581-1596, 1617: one strain in percent; the modulus itself. *)
Definition k_shear_mod (stress ratio x3 ref_percent sp : R) : option R :=
  opt_bind (ln_opt (sp + ref_percent)) (fun x1 =>
  opt_bind (ln_opt stress) (fun x2 =>
  opt_bind (ln_opt ratio) (fun x4 =>
  opt_bind (k_ln_shear_mod sp ref_percent x1 x2 x3 x4) (fun lg =>
  Some (exp lg))))).

(** site.py:1646-1650: normalised by the first modulus; [IndexError] without strains. *)
Definition k_normalise (gs : list R) : res (list R) :=
  match gs with
  | [] => Err IndexError
  | g0 :: _ => Ok (map (fun g => g / g0) gs)
  end.

(** site.py:1652-1671, Equation (16) *)
Definition k_damping (x2 x3 mod_reduc : R) : option R :=
  let x1_mean := -1.0 in
  opt_bind (div_opt 1 mod_reduc) (fun inv =>
  opt_bind (ln_opt inv) (fun l =>
  opt_bind (ln_opt (l + 0.103)) (fun x1 =>
  let x := [1; x1; x2; x3;
            (x1 - x1_mean) * (x2 - k_x2_mean);
            (x2 - k_x2_mean) * (x3 - k_x3_mean)] in
  let c := [2.86; 0.571; -0.103; -0.141; 0.0419; -0.240] in
  Some (exp (row_sum c x) / 100.0)))).

(** site.py:1673-1680; [d.T @ x] with [x = (1, x_2, x_3)]. *)
Definition k_unit_wt (x2 x3 : R) : R :=
  exp (row_sum [-0.112; 0.038; 0.360] [1; x2; x3]) * GRAVITY.

(** The parameters of the constructor (site.py:1539-1547) with their defaults. *)
Record kishida := mkKishida { ki_stress : R; ki_organic : R; ki_ratio : R }.
Definition kishida_default : kishida := mkKishida 101.3 10 1.

(** site.py:1554-1603.  [Ok None]: some number involved is not finite. *)
Definition kishida_soil (id : nat) (name : string) (unit_wt : option R) (k : kishida)
    (strains : option (list R)) : res (option soil) :=
  let ss := strains_or_default strains in
  let x3 := k_x3 (ki_organic k) in
  let ref_percent := k_strain_ref x3 k_x3_mean * 100 in
  match map_opt (fun s => k_shear_mod (ki_stress k) (ki_ratio k) x3 ref_percent (s * 100)) ss with
  | None => Ok None
  | Some gs =>
      bind (k_normalise gs) (fun ms =>
        Ok (opt_bind (ln_opt (ki_stress k)) (fun x2 =>
            opt_bind (map_opt (k_damping x2 x3) ms) (fun ds =>
            Some (soil_curves id 7 name
                    (match unit_wt with Some w => w | None => k_unit_wt x2 x3 end) ss ms ds)))))
  end.
