(** Model of the tables made of stored results: [to_dataframe] (src/pystrata/output.py:249-260
    and 703-721) and [ProfileBasedOutput.calc_stats] (output.py:651-667).
    pandas is modelled as far as it is used: [DataFrame(values, index=, columns=)] checks
    that the index is one-dimensional and that the shapes agree.  Names are strings, so
    the branch for tuples (256-257, 712-713) is not modelled; pandas is installed. *)
From Coq Require Import String.
From Verif Require Import Common Model.Curve Model.Layer Model.Averages Model.Output Model.Cplx Model.Waves Model.Eql.
Local Open Scope R_scope.

(** A data frame: row labels, column labels, rows. *)
Record frame := mkFrame { fr_index : list cell; fr_columns : list string; fr_rows : list (list cell) }.

(** [pd.DataFrame(values, index=index, columns=columns)]; without values every cell is
    missing. *)
Definition pd_frame (values : option arr) (index : arr) (columns : list string) : res frame :=
  match index with
  | A2 _ _ => Err ValueError
  | A1 idx =>
      match values with
      | None => Ok (mkFrame idx columns (map (fun _ => map (fun _ => None) columns) idx))
      | Some a =>
          let width := match a with A1 _ => 1%nat | A2 w _ => w end in
          let rows := match a with A1 xs => map (fun x => [x]) xs | A2 _ rs => rs end in
          if (Nat.eqb (length rows) (length idx) && Nat.eqb width (length columns))%bool
          then Ok (mkFrame idx columns rows) else Err ValueError
      end
  end.

(** output.py:249-260; [self.names[0]] of no names raises. *)
Definition to_dataframe (o : output) : res frame :=
  match o_names o with
  | [] => Err IndexError
  | _ => pd_frame (o_values o) (o_refs o) (o_names o)
  end.

(** All entries of an array. *)
Definition entries (a : arr) : list cell := match a with A1 xs => xs | A2 _ rs => concat rs end.
(** [np.nanmax]: an empty array raises; only missing entries give nan. *)
Definition nanmax (xs : list cell) : res cell :=
  match xs, present xs with
  | [], _ => Err ValueError
  | _, [] => Ok None
  | _, x :: r => Ok (Some (fold_left Rmax r x))
  end.
(** [np.linspace(0, stop, num)] for at least two points. *)
Definition linspace0 (stop : cell) (num : nat) : list cell :=
  map (fun i => option_map (fun s => INR i * (s / INR (num - 1))) stop) (seq 0 num).
(** output.py:652-653 ([factor] 1.05, 512 depths) and 708-709 (factor 1, 50 depths). *)
Definition default_depths (factor : R) (num : nat) (o : output) : res (list cell) :=
  bind (nanmax (entries (o_refs o))) (fun m => Ok (linspace0 (option_map (fun s => s * factor) m) num)).

(** output.py:678-701 for column [i]: [self.refs[:, i]] needs a 2-D array that has this
    column, the mask must have as many entries as the values have rows; a depth that is
    nan gives nan. *)
Definition ln_column (o : output) (a : arr) (ref : list cell) (i : nat) : res (list cell) :=
  match o_refs o with
  | A1 _ => Err IndexError
  | A2 w rs =>
      if Nat.ltb i w then
        if Nat.eqb (length rs) (nrows a) then
          bind (column a i) (fun vs =>
          Ok (map (fun x => opt_bind x (ln_interp (map (fun r => nth i r None) rs) vs)) ref))
        else Err IndexError
      else Err IndexError
  end.
(** output.py:655-658, 716-717: [self.values.shape[1]], the columns, and the transposed
    array. *)
Definition ln_table (o : output) (ref : list cell) : res (list (list cell)) :=
  match o_values o with
  | None => Err AttributeError
  | Some (A1 _) => Err IndexError
  | Some (A2 n rows) =>
      bind (mapM (ln_column o (A2 n rows) ref) (seq 0 n)) (fun cols =>
      Ok (map (fun j => map (fun c => nth j c None) cols) (seq 0 (length ref))))
  end.

(** output.py:703-721 *)
Definition profile_dataframe (o : output) (ref : option (list cell)) : res frame :=
  bind (match ref with Some r => Ok r | None => default_depths 1 50 o end) (fun r =>
  match o_names o with
  | [] => Err IndexError
  | _ =>
      bind (ln_table o r) (fun t =>
      pd_frame (Some (A2 (match o_values o with Some (A2 n _) => n | _ => 0%nat end) (map (map (option_map exp)) t)))
        (A1 r) (o_names o))
  end).

(** One row of output.py:659-660. *)
Definition ln_stats (row : list cell) : option (R * R) :=
  match present row with
  | [] => None
  | xs => Some (exp (mean xs), sqrt (mean (map (fun x => (x - mean xs) ^ 2) xs)))
  end.
(** output.py:651-667; the depths and the statistics at each. *)
Definition profile_stats (o : output) (ref : option (list cell)) : res (list cell * list (option (R * R))) :=
  bind (match ref with Some r => Ok r | None => default_depths 1.05 512 o end) (fun r =>
  bind (ln_table o r) (fun t => Ok (r, map ln_stats t))).
