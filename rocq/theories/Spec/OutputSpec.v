(** What an output should contain: a list of named results, and the table that
    shows them column by column. *)
From Coq Require Import String.
From Verif Require Import Common Model.Output.

(** The entry in row [i] and column [j]. *)
Definition cell_at (a : arr) (i j : nat) : option cell :=
  match a with
  | A1 xs => if Nat.eqb j 0 then nth_error xs i else None
  | A2 _ rows => opt_bind (nth_error rows i) (fun row => nth_error row j)
  end.

Definition longest (rs : list (list cell)) : nat := fold_right (fun r n => Nat.max (length r) n) 0%nat rs.

(** [a] shows the results [rs]: a single result as a 1-D array; several as a
    table with one column each, as many rows as the longest, and missing entries
    after the end of the shorter ones. *)
Definition shows (rs : list (list cell)) (a : arr) : Prop :=
  match rs with
  | [] => False
  | [r] => a = A1 r
  | _ => (exists rows, a = A2 (length rs) rows /\ length rows = longest rs /\
            Forall (fun row => length row = length rs) rows) /\
         forall i j r, nth_error rs j = Some r -> (i < longest rs)%nat ->
           cell_at a i j = Some (match nth_error r i with Some c => c | None => None end)
  end.

(** A stored result: its name, references and values. *)
Record entry := mkEntry { en_name : string; en_refs : list cell; en_vals : list cell }.

(** The output holds exactly these results. *)
Definition holds (o : output) (es : list entry) : Prop :=
  o_names o = map en_name es /\
  match es with
  | [] => o_values o = None /\ o_refs o = A1 []
  | _ => (exists a, o_values o = Some a /\ shows (map en_vals es) a) /\ shows (map en_refs es) (o_refs o)
  end.

(** The same for outputs with fixed references. *)
Definition holds_fixed (fixed : list R) (o : output) (es : list entry) : Prop :=
  o_names o = map en_name es /\ o_refs o = A1 (map Some fixed) /\
  match es with
  | [] => o_values o = None
  | _ => exists a, o_values o = Some a /\ shows (map en_vals es) a
  end.

(** References and values of a call that succeeds. *)
Definition call_refs (k : okind) (c : call) (vs : list cell) : list cell :=
  match k with KSeries => map (fun i => Some (ca_dt c * INR i)%R) (seq 0 (length vs)) | _ => ca_refs c end.

(** [es] are the results of the calls [cs], in order: given names, or r1, r2, ...
    by position. *)
Definition named (i : nat) (n : option string) (s : string) : Prop :=
  match n with Some x => s = x | None => s = rname (S i) end.
Definition results_of (k : okind) (cs : list call) (es : list entry) : Prop :=
  length es = length cs /\
  forall i c e, nth_error cs i = Some c -> nth_error es i = Some e ->
    ca_values c = Ok (en_vals e) /\ en_refs e = call_refs k c (en_vals e) /\ named i (ca_name c) (en_name e).

(** Padded to [n] entries with missing ones. *)
Definition padded (n : nat) (r : list cell) : list cell := r ++ repeat None (n - length r).

(** Every call of the sequence returns normally. *)
Fixpoint all_ok (k : okind) (o : output) (cs : list call) : Prop :=
  match cs with
  | [] => True
  | c :: rest => snd (out_call k c o) = Ok tt /\ all_ok k (fst (out_call k c o)) rest
  end.

(** A call the calculator can answer, with at least one reference. *)
Definition answered (k : okind) (c : call) : Prop :=
  (k = KSeries -> ca_series c = true) /\
  exists vs, ca_values c = Ok vs /\ (k <> KFixed -> call_refs k c vs <> []).

(** Number of stored results. *)
Definition stored (o : output) : nat :=
  match o_values o with None => 0 | Some (A1 _) => 1 | Some (A2 w _) => w end.

(** Calls that raised after the motion was accepted, since the last reset. *)
Fixpoint raised (k : okind) (o : output) (n : nat) (ps : list out_op) : nat :=
  match ps with
  | [] => n
  | OReset :: rest => raised k (out_reset k o) 0 rest
  | OCall c :: rest =>
      raised k (fst (out_call k c o))
        (match snd (out_call k c o) with
         | Ok _ => n
         | Err _ => if match k with KSeries => ca_series c | _ => true end then S n else n
         end) rest
  end.

(** * Profile outputs *)
From Verif Require Import Model.Layer Spec.ProfileSpec.

(** The depth [z] lies in layer [l] (its top excluded, its base included), above
    the half-space. *)
Definition inside (ls : list layer) (z : R) (l : layer) : Prop :=
  exists above below, ls = above ++ l :: below /\ below <> [] /\
    (total_thick above < z <= total_thick above + l_thick l)%R.

Definition product (xs : list R) : R := fold_right Rmult 1%R xs.

(** Area under the polygon through the samples, [dt] apart. *)
Fixpoint area (dt : R) (ys : list R) : R :=
  match ys with
  | a :: rest => match rest with b :: _ => (dt * (a + b) / 2 + area dt rest)%R | [] => 0%R end
  | [] => 0%R
  end.
