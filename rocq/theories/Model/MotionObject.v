(** Model of a [TimeSeriesMotion] as an object: the cached measures (motion.py:47-86) and
    the array of accelerations, which [np.asarray] (motion.py:122) shares with a caller who
    passes an array of floats and [accels] (motion.py:126-128) hands out.  Simplified: a
    write has an index from the start of the array (no negative indices, no slices). *)
From Verif Require Import Common Model.Layer Model.Averages Model.Output Model.Motion.
Local Open Scope R_scope.

Record motion_obj := mkMO { o_motion : ts_motion; o_pga : option R; o_pgv : option R; o_arias : option R; o_cav : option R }.

(** motion.py:43-50, 95-124 *)
Definition new_object (dt : R) (accels : list R) (fa_length : option Z) : res motion_obj :=
  bind (new_motion dt accels fa_length) (fun m => Ok (mkMO m None None None None)).

(** motion.py:60-86: each property computes its value once. *)
Definition read_pgv (o : motion_obj) : res R * motion_obj :=
  match o_pgv o with
  | Some v => (Ok v, o)
  | None => match calc_pgv (o_motion o) None with
            | Ok v => (Ok v, mkMO (o_motion o) (o_pga o) (Some v) (o_arias o) (o_cav o))
            | Err e => (Err e, o)
            end
  end.
Definition read_pga (o : motion_obj) : res R * motion_obj :=
  match o_pga o with
  | Some v => (Ok v, o)
  | None => match calc_peak (o_motion o) None with
            | Ok v => (Ok v, mkMO (o_motion o) (Some v) (o_pgv o) (o_arias o) (o_cav o))
            | Err e => (Err e, o)
            end
  end.
Definition read_arias (o : motion_obj) : res R * motion_obj :=
  match o_arias o with
  | Some v => (Ok v, o)
  | None => match motion_arias (o_motion o) None with
            | Ok v => (Ok v, mkMO (o_motion o) (o_pga o) (o_pgv o) (Some v) (o_cav o))
            | Err e => (Err e, o)
            end
  end.
Definition read_cav (o : motion_obj) : res R * motion_obj :=
  match o_cav o with
  | Some v => (Ok v, o)
  | None => match motion_cav (o_motion o) None with
            | Ok v => (Ok v, mkMO (o_motion o) (o_pga o) (o_pgv o) (o_arias o) (Some v))
            | Err e => (Err e, o)
            end
  end.

(** A write to an entry of the array of accelerations, by its owner or through [accels]. *)
Definition write_entry (i : nat) (x : R) (o : motion_obj) : res R * motion_obj :=
  let m := o_motion o in
  if (i <? length (t_accels m))%nat
  then (Ok x, mkMO (mkTS (t_dt m) (firstn i (t_accels m) ++ x :: skipn (S i) (t_accels m)) (t_amps m) (t_freqs m))
                   (o_pga o) (o_pgv o) (o_arias o) (o_cav o))
  else (Err IndexError, o).

Inductive measure := Pga | Pgv | Arias | Cav.
Inductive motion_call := Read (q : measure) | Write (i : nat) (x : R).
Definition do_call (c : motion_call) (o : motion_obj) : res R * motion_obj :=
  match c with
  | Read Pga => read_pga o
  | Read Pgv => read_pgv o
  | Read Arias => read_arias o
  | Read Cav => read_cav o
  | Write i x => write_entry i x o
  end.
Fixpoint do_calls (cs : list motion_call) (o : motion_obj) : list (res R) * motion_obj :=
  match cs with
  | [] => ([], o)
  | c :: rest => let '(r, o1) := do_call c o in let '(rs, o2) := do_calls rest o1 in (r :: rs, o2)
  end.
