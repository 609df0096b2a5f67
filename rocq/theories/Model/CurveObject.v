(** [NonlinearCurve] as an object (site.py:90-101, 146-226): the stored arrays, the
    interpolators built from them, the setters, and tables with several columns of values.
    Simplified: strains are one-dimensional and finite; exact reals. *)
From Verif Require Import Common Model.Curve.
Local Open Scope R_scope.

(** What can be passed as [values]: a list of numbers or a list of rows. *)
Inductive given := GList (vs : list R) | GRows (rows : list (list R)).
(** The array stored: one- or two-dimensional, the latter with its number of columns. *)
Inductive array := Vec (vs : list R) | Mat (m : nat) (rows : list (list R)).
(** [np.asarray(values).astype(float)], site.py:93 and 196: rows of different lengths raise
    ValueError; an empty list of rows is an empty one-dimensional array. *)
Definition asarray (g : given) : res array :=
  match g with
  | GList vs => Ok (Vec vs)
  | GRows rows =>
      match rows with
      | [] => Ok (Vec [])
      | r :: rs => if forallb (fun x => Nat.eqb (length x) (length r)) rs
                   then Ok (Mat (length r) rows) else Err ValueError
      end
  end.

(** [self._interpolater]: none, one, or one per column; each given by its table. *)
Inductive interpolater := INone | IOne (tab : list (R * R)) | IMany (tabs : list (list (R * R))).

(** [y[:, i]] *)
Definition column (i : nat) (rows : list (list R)) : list R := map (fun r => nth i r 0) rows.

(** site.py:199-226, [_update]. *)
Definition build (ss : list R) (v : array) : interpolater :=
  match ss with
  | [] => INone
  | _ :: _ =>
      match v with
      | Vec vs => if Nat.eqb (length ss) (length vs) then IOne (combine (map ln ss) vs) else INone
      | Mat m rows =>
          if Nat.eqb (length ss) (length rows)
          then IMany (map (fun i => combine (map ln ss) (column i rows)) (seq 0 m))
          else INone
      end
  end.

Record curve_obj := mkObj {
  ob_strains : list R; ob_values : array; ob_interp : interpolater; ob_lo : R; ob_hi : R }.

(** site.py:90-101 *)
Definition obj_new (ss : list R) (g : given) (lo hi : R) : res curve_obj :=
  bind (asarray g) (fun v => Ok (mkObj ss v (build ss v) lo hi)).

(** site.py:184-187 and 194-197, the setters; a rejected array leaves the object as it was. *)
Inductive edit := SetStrains (ss : list R) | SetValues (g : given).
Definition obj_edit (o : curve_obj) (e : edit) : curve_obj * option exn :=
  match e with
  | SetStrains ss => (mkObj ss (ob_values o) (build ss (ob_values o)) (ob_lo o) (ob_hi o), None)
  | SetValues g =>
      match asarray g with
      | Ok v => (mkObj (ob_strains o) v (build (ob_strains o) v) (ob_lo o) (ob_hi o), None)
      | Err e => (o, Some e)
      end
  end.
Definition obj_edits (o : curve_obj) (es : list edit) : curve_obj :=
  fold_left (fun o e => fst (obj_edit o e)) es o.

(** The argument and the result of a call: a number or an array. *)
Inductive arg := One (s : R) | Many (ss : list R).
Inductive answer := ANum (v : R) | AArr (vs : list R).

(** site.py:146-177, [__call__]. *)
Definition same_shape (ss : list R) (v : array) : bool :=
  match v with Vec vs => Nat.eqb (length ss) (length vs) | Mat _ _ => false end.
Fixpoint all_some {A} (xs : list (option A)) : option (list A) :=
  match xs with
  | [] => Some []
  | x :: rest => opt_bind x (fun y => option_map (cons y) (all_some rest))
  end.
Definition ln_arg (s : R) : R := ln (Rmax 1e-9 s).
Definition obj_call (o : curve_obj) (a : arg) : res answer :=
  let cl v := clip v (ob_lo o) (ob_hi o) in
  if same_shape (ob_strains o) (ob_values o)
  then match ob_interp o with
       | IOne tab =>
           match a with
           | One s => match interp1d_call tab (ln_arg s) with
                      | Some v => Ok (ANum (cl v))
                      | None => Err TypeError
                      end
           | Many ss =>
               match all_some (map (fun s => interp1d_call tab (ln_arg s)) ss) with
               | Some vs => Ok (AArr (map cl vs))
               | None => Err TypeError
               end
           end
       | _ => Err TypeError  (* None is not callable *)
       end
  else match ob_interp o with
       | IMany tabs =>
           let first := match a with One s => Some s | Many ss => hd_error ss end in
           match tabs, first with
           | [], _ => Ok (AArr [])
           | _ :: _, None => Err IndexError
           | _ :: _, Some s =>
               match all_some (map (fun t => interp1d_call t (ln_arg s)) tabs) with
               | Some vs => Ok (AArr (map cl vs))
               | None => Err TypeError
               end
           end
       | _ => Err TypeError  (* None is not iterable *)
       end.
