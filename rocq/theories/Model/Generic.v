(** Model of src/pystrata/generic.py: the Kamai et al. profile, and the profiles of the
    National Crustal Model.  Not modelled: [fetch_ncm_profile] (the download), the decoding of
    the JSON file, and the warnings. *)
From Coq Require Import String.
From Verif Require Import Common Model.Tools.
Local Open Scope R_scope.

(** ** [kea16_profile] (generic.py:15-103) *)

Record kea16 := mkKea { k1 : R; k2 : R; k3 : R; k4 : R; k5 : R; k6 : R; k7 : R; k8 : R }.
(** generic.py:55-75 *)
Definition kea16_coefficients (region : string) : res kea16 :=
  if String.eqb region "california" then Ok (mkKea 0.25 104 0.22 166 53 (-0.00388) 0.0002 0.195)
  else if String.eqb region "japan" then Ok (mkKea 0.2 40 0.25 260 28 (-0.00296) 0 0.4)
  else Err ValueError.
(** generic.py:85-103: a row for every depth, with the median and the standard deviation. *)
Definition kea16_row (c : kea16) (vs30 depth : R) : R * R * R :=
  let a0 := k1 c * vs30 + k2 c in
  let a1 := k3 c * vs30 + k4 c in
  let a2 := k5 c * exp (k6 c * vs30) in
  let log_arg := (depth + a2) / a2 in
  (depth, a0 + a1 * ln (Rmax log_arg 1e-9), k7 c * vs30 + k8 c).
Definition kea16_profile (depths : list R) (vs30 : R) (region : string) : res (list (R * R * R)) :=
  bind (kea16_coefficients region) (fun c => Ok (map (kea16_row c vs30) depths)).

(** ** [_simplify_profile] (generic.py:234-291) *)

(** A row of the table, and a row with its thickness. *)
Record nrow := mkRow { n_depth : R; n_vs : R; n_wt : R }.
Notation trow := (nrow * R)%type.

(** generic.py:262-269: groups of consecutive rows.  [cur] is the current group in reverse,
    [ref] its first velocity.  A zero reference velocity gives an infinite or undefined
    quotient, which is not within the tolerance. *)
Definition close_vs (tol ref v : R) : bool := negb (Reqb ref 0) && Rleb (Rabs (v - ref) / ref) tol.
Fixpoint group_rows (tol ref : R) (cur : list trow) (rows : list trow) : list (list trow) :=
  match rows with
  | nil => cons (rev cur) nil
  | cons r rest =>
      if close_vs tol ref (n_vs (fst r)) then group_rows tol ref (cons r cur) rest
      else cons (rev cur) (group_rows tol (n_vs (fst r)) (cons r nil) rest)
  end.
Definition groups (tol : R) (rows : list trow) : list (list trow) :=
  match rows with
  | nil => nil
  | cons r rest => group_rows tol (n_vs (fst r)) (cons r nil) rest
  end.

(** generic.py:272-289: the row of a group; [None] where the velocity is not finite or comes
    from a quotient that is not. *)
Definition merge_group (g : list trow) : option nrow :=
  match g with
  | nil => None
  | cons (r0, _) _ =>
      let total := Rsum (map snd g) in
      let weights := map (fun rt => Rmax (snd rt) 1e-10) g in
      let wt := Rsum (map (fun rt => n_wt (fst rt) * Rmax (snd rt) 1e-10) g) / Rsum weights in
      opt_bind (if Rltb 0 total
                then opt_bind (map_opt (fun rt => div_opt (snd rt) (n_vs (fst rt))) g) (fun ts => div_opt total (Rsum ts))
                else Some (n_vs r0))
        (fun v => Some (mkRow (n_depth r0) v wt))
  end.
(** generic.py:234-291 *)
Definition simplify_profile (rows : list nrow) (tol : R) : res (option (list nrow)) :=
  match rows with
  | nil => Err IndexError
  | cons _ _ => Ok (map_opt merge_group (groups tol (combine rows (diff_zero (map n_depth rows)))))
  end.

(** ** [load_ncm_profile] (generic.py:206-231), after the file has been decoded *)

(** generic.py:213-219: the table; arrays of different lengths make the constructor fail. *)
Definition ncm_rows (depths vs density : list R) : res (list nrow) :=
  if Nat.eqb (length depths) (length vs) && Nat.eqb (length depths) (length density)
  then Ok (map (fun dvr => mkRow (fst (fst dvr)) (snd (fst dvr)) (snd dvr * 9.81 / 1000)) (combine (combine depths vs) density))
  else Err ValueError.
(** generic.py:221-231: rows, mean effective stresses and thicknesses. *)
Definition load_ncm (depths vs density : list R) (wt : R) (simplify : option R)
    : res (option (list nrow * list R * list R)) :=
  bind (ncm_rows depths vs density) (fun rows =>
  bind (match simplify with None => Ok (Some rows) | Some tol => simplify_profile rows tol end) (fun o =>
  match o with
  | None => Ok None
  | Some rows' =>
      bind (calc_mean_eff_stress (map n_depth rows') (map n_wt rows') wt 0.5) (fun ms =>
      Ok (Some (rows', ms, diff_zero (map n_depth rows'))))
  end)).
