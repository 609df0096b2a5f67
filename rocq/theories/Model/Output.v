(** Model of src/pystrata/output.py: accumulation of results in [Output], the
    subclasses' [__call__], [iter_results], [calc_stats] and the interpolation of
    profile outputs.
    Simplified: array entries are reals or missing (NaN); integer arrays, for
    which numpy cannot store NaN, are not modelled.  Names are strings.
    Not modelled: plotting, pandas, Konno-Ohmachi smoothing. *)
From Coq Require Import String DecimalString.
From Verif Require Import Common Model.Curve Model.Layer Model.Profile Model.Averages.
Local Open Scope R_scope.

(** An entry; [None] is [np.nan]. *)
Notation cell := (option R).

(** A 1-D array, or a 2-D array of the given width stored row by row. *)
Inductive arr := A1 (xs : list cell) | A2 (width : nat) (rows : list (list cell)).

(** [a.shape[0]], which is also [len(a)]. *)
Definition nrows (a : arr) : nat :=
  match a with A1 xs => length xs | A2 _ rs => length rs end.

(** [np.c_[many, single]] with a 1-D second argument. *)
Definition np_c (many : arr) (single : list cell) : res arr :=
  if Nat.eqb (nrows many) (length single)
  then Ok (match many with
           | A1 xs => A2 2 (map2 (fun x y => [x; y]) xs single)
           | A2 w rs => A2 (S w) (map2 (fun r y => r ++ [y]) rs single)
           end)
  else Err ValueError.

(** [np.pad] with NaN at the end of the first axis. *)
Definition pad1 (xs : list cell) (n : nat) : list cell := xs ++ repeat None n.
Definition pad_arr (a : arr) (n : nat) : arr :=
  match a with
  | A1 xs => A1 (pad1 xs n)
  | A2 w rs => A2 w (rs ++ repeat (repeat None w) n)
  end.

(** output.py:142-172 *)
Definition append_arrays (many : arr) (single : list cell) : res arr :=
  let diff := (Z.of_nat (length single) - Z.of_nat (nrows many))%Z in
  if (diff <? 0)%Z then np_c many (pad1 single (Z.to_nat (- diff)))
  else if (0 <? diff)%Z then np_c (pad_arr many (Z.to_nat diff)) single
  else np_c many single.

(** output.py:182-185.  [_refs], [_values], [_names]. *)
Record output := mkOut { o_refs : arr; o_values : option arr; o_names : list string }.

(** The groups of subclasses, by the shape of [__call__]:
    [KSeries] 372-384 (acceleration, Arias, strain, stress time series);
    [KFixed] 483-502, 531-536, 576-591, 623-633 (spectra and ratios at fixed
    frequencies, [_const_ref = True]);
    [KMid] 646-649 with 730-733, 807-815 (maximum strain, cyclic stress ratio);
    [KTop] 739-747, 753-761, 770-777, 786-793 (damping, modulus reduction,
    velocities);
    [KAccel] 821-827 (maximum acceleration). *)
Inductive okind := KSeries | KFixed | KMid | KTop | KAccel.

Definition const_ref (k : okind) : bool := match k with KFixed => true | _ => false end.

(** output.py:182-185 and the constructors 365-366, 471-473, 542-545, 643-644:
    only the fixed-frequency classes pass references. *)
Definition out_new (k : okind) (refs : list R) : output :=
  mkOut (A1 (if const_ref k then map Some refs else [])) None [].

(** ["r%d" % i] *)
Definition rname (i : nat) : string := String.append "r" (NilEmpty.string_of_uint (Nat.to_uint i)).

(** output.py:187-196 *)
Definition default_index (o : output) : nat :=
  match o_values o with
  | None => 1
  | Some (A1 _) => 2
  | Some (A2 w _) => w + 1
  end.
Definition base_call (o : output) (name : option string) : output :=
  let n := match name with Some n => n | None => rname (default_index o) end in
  mkOut (o_refs o) (o_values o) (o_names o ++ [n]).

(** output.py:210-214 *)
Definition out_reset (k : okind) (o : output) : output :=
  mkOut (if const_ref k then o_refs o else A1 []) None [].

(** output.py:223-228 *)
Definition add_refs (o : output) (refs : list cell) : res output :=
  bind (if Nat.eqb (nrows (o_refs o)) 0 then Ok (A1 refs) else append_arrays (o_refs o) refs)
    (fun r => Ok (mkOut r (o_values o) (o_names o))).

(** output.py:230-235 *)
Definition add_values (o : output) (values : list cell) : res output :=
  bind (match o_values o with None => Ok (A1 values) | Some a => append_arrays a values end)
    (fun v => Ok (mkOut (o_refs o) (Some v) (o_names o))).

(** What a call gets from its calculator: whether the motion is a time series,
    its time step, the depths, and the computed values (which may fail). *)
Record call := mkCall {
  ca_name : option string;
  ca_series : bool;
  ca_dt : R;
  ca_refs : list cell;
  ca_values : res (list cell)
}.

(** [time_step * np.arange(n)] *)
Definition times (dt : R) (n : nat) : list cell := map (fun i => Some (dt * INR i)) (seq 0 n).

(** Sequencing of statements that may raise: the object keeps what was done. *)
Definition then_ (o : output) (m : res output) (f : output -> output * res unit) : output * res unit :=
  match m with Ok o' => f o' | Err e => (o, Err e) end.

(** The [__call__] of each group, statement by statement. *)
Definition out_call (k : okind) (c : call) (o : output) : output * res unit :=
  match k with
  | KSeries =>
      if ca_series c
      then let o1 := base_call o (ca_name c) in
           match ca_values c with
           | Err e => (o1, Err e)
           | Ok vs => then_ o1 (add_values o1 vs) (fun o2 =>
                      then_ o2 (add_refs o2 (times (ca_dt c) (length vs))) (fun o3 => (o3, Ok tt)))
           end
      else (o, Err NotImplementedError)
  | KFixed =>
      let o1 := base_call o (ca_name c) in
      match ca_values c with
      | Err e => (o1, Err e)
      | Ok vs => then_ o1 (add_values o1 vs) (fun o2 => (o2, Ok tt))
      end
  | KMid | KTop =>
      let o1 := base_call o (ca_name c) in
      then_ o1 (add_refs o1 (ca_refs c)) (fun o2 =>
      match ca_values c with
      | Err e => (o2, Err e)
      | Ok vs => then_ o2 (add_values o2 vs) (fun o3 => (o3, Ok tt))
      end)
  | KAccel =>
      let o1 := base_call o (ca_name c) in
      match ca_values c with
      | Err e => (o1, Err e)
      | Ok vs => then_ o1 (add_refs o1 (ca_refs c)) (fun o2 =>
                 then_ o2 (add_values o2 vs) (fun o3 => (o3, Ok tt)))
      end
  end.

(** A program's use of one output. *)
Inductive out_op := OCall (c : call) | OReset.
Definition out_step (k : okind) (o : output) (p : out_op) : output :=
  match p with OCall c => fst (out_call k c o) | OReset => out_reset k o end.
Definition out_run (k : okind) (o : output) (ps : list out_op) : output := fold_left (out_step k) ps o.

(** output.py:132-139: every output in turn; an exception ends the loop. *)
Fixpoint coll_call (os : list (okind * output * call)) : list (okind * output) * res unit :=
  match os with
  | [] => ([], Ok tt)
  | (k, o, c) :: rest =>
      match out_call k c o with
      | (o', Err e) => ((k, o') :: map fst rest, Err e)
      | (o', Ok _) => let (r, x) := coll_call rest in ((k, o') :: r, x)
      end
  end.

(** [a if len(a.shape) == 1 else a[:, i]] *)
Definition column (a : arr) (i : nat) : res (list cell) :=
  match a with
  | A1 xs => Ok xs
  | A2 w rs => if Nat.ltb i w then Ok (map (fun r => nth i r None) rs) else Err IndexError
  end.

(** output.py:216-221: what the generator yields, and the exception that ends it. *)
Fixpoint iter_from (o : output) (i : nat) (names : list string)
    : list (string * list cell * list cell) * res unit :=
  match names with
  | [] => ([], Ok tt)
  | n :: rest =>
      match column (o_refs o) i with
      | Err e => ([], Err e)
      | Ok refs =>
          match o_values o with
          | None => ([], Err AttributeError)
          | Some a =>
              match column a i with
              | Err e => ([], Err e)
              | Ok vs => let (ys, r) := iter_from o (S i) rest in ((n, refs, vs) :: ys, r)
              end
          end
      end
  end.
Definition iter_results (o : output) := iter_from o 0 (o_names o).

(** * Values of the profile outputs *)

(** output.py:648 *)
Definition mid_refs (ls : list layer) : list R := 0 :: removelast (map depth_mid ls).
(** [calc.profile.depth] *)
Definition top_refs (ls : list layer) : list R := map l_depth ls.

(** output.py:732.  A maximum strain that was never set ([None] in Python) is a
    missing entry. *)
Definition max_strain_values (ls : list layer) : list cell :=
  Some 0 :: map l_smax (removelast ls).

(** output.py:744-746, 758-760, 775-776, 791-792: [values.insert(0, values[0])]. *)
Definition top_values (f : layer -> R) (ls : list layer) : res (list cell) :=
  match map f (removelast ls) with
  | [] => Err IndexError
  | v :: vs => Ok (map Some (v :: v :: vs))
  end.

(** output.py:809-814.  [sv] is [stress_vert(thickness / 2, True)] of each layer;
    a missing maximum strain gives [TypeError]; a zero stress gives a missing
    entry (inf or nan). *)
Definition csr_entry (l : layer) (sv : res R) : res cell :=
  match stress_shear_max l with
  | None => Err TypeError
  | Some t => bind sv (fun s => Ok (if Reqb s 0 then None else Some (t / s)))
  end.
Fixpoint csr_entries (ls : list (layer * res R)) : res (list cell) :=
  match ls with
  | [] => Ok []
  | (l, s) :: rest => bind (csr_entry l s) (fun c => bind (csr_entries rest) (fun cs => Ok (c :: cs)))
  end.
Definition csr_values (ls : list (layer * res R)) : res (list cell) :=
  bind (csr_entries (removelast ls)) (fun vs =>
  match vs with
  | [] => Err IndexError
  | v :: _ => Ok (map (option_map (Rmult 0.65)) (v :: vs))
  end).

(** output.py:825, 829-834: one peak per depth; [acc] computes it or fails. *)
Fixpoint accel_values (acc : R -> res cell) (ds : list R) : res (list cell) :=
  match ds with
  | [] => Ok []
  | d :: rest => bind (acc d) (fun a => bind (accel_values acc rest) (fun r => Ok (a :: r)))
  end.

(** * Interpolation of a stored profile, output.py:678-701 *)

(** scipy [interp1d(kind="next")] on sorted points: the value at the first point
    not below [x]; the last value beyond the last point. *)
Fixpoint next_value (pts : list (R * R)) (x : R) : option R :=
  match pts with
  | [] => None
  | [(_, y)] => Some y
  | (x0, y) :: rest => if Rltb x0 x then next_value rest x else Some y
  end.

(** Only meaningful where the stored value read is positive: [np.log] of 0 is -inf,
    [ln] of 0 is 0; the theorems assume it.

    [np.isfinite(_ref)] and the selected (reference, value) pairs; a missing
    value at a selected row is a missing result. *)
Fixpoint finite_pairs (refs vals : list cell) : option (list (R * R)) :=
  match refs, vals with
  | Some r :: rs, Some v :: vs => option_map (cons (r, v)) (finite_pairs rs vs)
  | Some _ :: _, None :: _ => None
  | None :: rs, _ :: vs => finite_pairs rs vs
  | _, _ => Some []
  end.

(** The logarithm of the value at depth [x], for column [i] of references and
    values; the fill values are those of the first and last selected rows. *)
Definition ln_interp (refs vals : list cell) (x : R) : option R :=
  match finite_pairs refs vals with
  | None => None
  | Some pts =>
      let lp := map (fun p => (fst p, ln (snd p))) pts in
      match lp, last_opt lp, sort_pts lp, last_opt (sort_pts lp) with
      | (_, yf) :: _, Some (_, yl), (xmin, _) :: _, Some (xmax, _) =>
          if Rltb x xmin then Some yf
          else if Rltb xmax x then Some yl
          else next_value (sort_pts lp) x
      | _, _, _, _ => None
      end
  end.

(** output.py:717: one entry of the data frame. *)
Definition profile_at (refs vals : list cell) (x : R) : option R :=
  option_map exp (ln_interp refs vals x).

(** * Statistics of one row, output.py:237-242 *)

(** [np.nanmean] and [np.nanstd] over the available entries. *)
Fixpoint present (row : list cell) : list R :=
  match row with
  | [] => []
  | Some x :: r => x :: present r
  | None :: r => present r
  end.
Definition mean (xs : list R) : R := Rsum xs / INR (length xs).
Definition row_stats (row : list cell) : option (R * R) :=
  match map ln (present row) with
  | [] => None
  | xs => Some (exp (mean xs), sqrt (mean (map (fun x => (x - mean xs) ^ 2) xs)))
  end.

(** output.py:237-242: [np.log(None)] is a TypeError; a 1-D array has no axis 1
    (numpy's AxisError, an IndexError). *)
Definition calc_stats (o : output) : res (list (option (R * R))) :=
  match o_values o with
  | None => Err TypeError
  | Some (A1 _) => Err IndexError
  | Some (A2 _ rows) => Ok (map row_stats rows)
  end.

(** * Arias intensity *)

(** scipy [cumulative_trapezoid(y, dx=dx)] without [initial]: running sums of
    [dx * (y_i + y_(i+1)) / 2]. *)
Fixpoint trapezoids (dx : R) (ys : list R) : list R :=
  match ys with
  | a :: ((b :: _) as rest) => dx * (a + b) / 2 :: trapezoids dx rest
  | _ => []
  end.
Definition cumulative_trapezoid (dx : R) (ys : list R) : list R := cumsum (trapezoids dx ys).
(** numpy's [trapezoid(y, dx=dx)]. *)
Definition trapezoid (dx : R) (ys : list R) : R := Rsum (trapezoids dx ys).

(** output.py:406-410, and the times of output.py:383. *)
Definition arias_series (dt : R) (accels : list R) : list R :=
  map (fun v => v * (GRAVITY * PI / 2)) (cumulative_trapezoid dt (map (fun a => a ^ 2) accels)).

(** motion.py:186-189, 191-194, on the response [ts]. *)
Definition calc_arias_intensity (dt : R) (ts : list R) : R :=
  PI * GRAVITY / 2 * trapezoid dt (map (fun a => a ^ 2) ts).
Definition calc_cav (dt : R) (ts : list R) : R := GRAVITY * trapezoid dt (map Rabs ts).
