(** Text handling: Python strings as lists of characters (ASCII only), number parsing,
    the helpers of src/pystrata/tools.py:35-66 and the readers built on them. *)
From Coq Require Import Ascii.
From Verif Require Import Common Model.Tools.
Local Open Scope R_scope.

Definition text := list ascii.
Definition newline : ascii := "010"%char.

(** [c.isspace()], which is also [\s]: tab to carriage return, 0x1c-0x1f and space. *)
Definition is_space (c : ascii) : bool :=
  let n := nat_of_ascii c in ((9 <=? n) && (n <=? 13) || (28 <=? n) && (n <=? 32))%nat.
(** The value of a decimal digit; only ASCII digits are modelled. *)
Definition digit_of (c : ascii) : option Z :=
  let n := nat_of_ascii c in
  if ((48 <=? n) && (n <=? 57))%nat then Some (Z.of_nat (n - 48)) else None.

(** [fp.readlines()]: every line keeps its newline. *)
Fixpoint readlines (s : text) : list text :=
  match s with
  | [] => []
  | c :: r =>
      if Ascii.eqb c newline then [c] :: readlines r
      else match readlines r with [] => [[c]] | l :: ls => (c :: l) :: ls end
  end.

(** [s.replace("\n", "")] *)
Definition drop_newlines (s : text) : text := filter (fun c => negb (Ascii.eqb c newline)) s.

(** [s.strip()] *)
Fixpoint lstrip (s : text) : text :=
  match s with [] => [] | c :: r => if is_space c then lstrip r else s end.
Definition strip (s : text) : text := rev (lstrip (rev (lstrip s))).

(** Maximal pieces of characters that do not satisfy [sep]: [s.split()] for white space,
    and the non-empty parts of [s.split(" ")] for a space. *)
Fixpoint pieces (sep : ascii -> bool) (s : text) : list text :=
  match s with
  | [] => []
  | c :: r =>
      if sep c then pieces sep r
      else match r with
           | [] => [[c]]
           | c' :: _ => if sep c' then [c] :: pieces sep r
                        else match pieces sep r with [] => [[c]] | p :: ps => (c :: p) :: ps end
           end
  end.
Definition split_ws (s : text) : list text := pieces is_space s.
Definition split_on (sep : ascii) (s : text) : list text := pieces (Ascii.eqb sep) s.

(** ** Numbers *)

(** The value of a run of digits, continuing from [acc]. *)
Fixpoint digits_val (acc : Z) (s : text) : option Z :=
  match s with
  | [] => Some acc
  | c :: r => match digit_of c with Some d => digits_val (10 * acc + d) r | None => None end
  end.
Definition nat_text (s : text) : option Z := match s with [] => None | _ => digits_val 0 s end.
Definition signed (s : text) : bool * text :=
  match s with
  | c :: r => if Ascii.eqb c "-" then (true, r) else if Ascii.eqb c "+" then (false, r) else (false, s)
  | [] => (false, s)
  end.
(** [int(s)]; underscores between digits are not modelled. *)
Definition py_int (s : text) : res Z :=
  let (neg, r) := signed (strip s) in
  match nat_text r with
  | Some n => Ok (if neg then (- n)%Z else n)
  | None => Err ValueError
  end.

(** The leading digits of a text, and the rest. *)
Fixpoint span_digits (s : text) : text * text :=
  match s with
  | [] => ([], [])
  | c :: r => match digit_of c with
              | Some _ => let (a, b) := span_digits r in (c :: a, b)
              | None => ([], s)
              end
  end.
Definition exponent (s : text) : option Z :=
  match s with
  | [] => Some 0%Z
  | c :: r => if Ascii.eqb c "e" || Ascii.eqb c "E" then
                let (neg, r') := signed r in
                match nat_text r' with Some n => Some (if neg then (- n)%Z else n) | None => None end
              else None
  end.
(** [float(s)] of a decimal number; infinities, nan and underscores are not modelled, and
    the result is exact. *)
Definition py_float (s : text) : res R :=
  let (neg, r) := signed (strip s) in
  let (whole, r1) := span_digits r in
  let (frac, r2) := match r1 with
                    | c :: r' => if Ascii.eqb c "." then span_digits r' else ([], r1)
                    | [] => ([], [])
                    end in
  match nat_text (whole ++ frac), exponent r2 with
  | Some m, Some e => let x := IZR m * powerRZ 10 (e - Z.of_nat (length frac)) in Ok (if neg then - x else x)
  | _, _ => Err ValueError
  end.
(** tools.py:40-45; [None] is nan. *)
Definition to_float (s : text) : option R := match py_float s with Ok x => Some x | Err _ => None end.

(** ** [parse_fixed_width] (tools.py:48-59) *)

(** The lines that remain are returned: the list is consumed from the front.  The lines
    removed before an error are not modelled.  Widths are not negative. *)
Fixpoint fixed_width {A} (types : list (nat * (text -> res A))) (line : text) (lines : list text)
    : res (list A * list text) :=
  match types with
  | [] => Ok ([], lines)
  | (width, parser) :: rest =>
      bind (match line with
            | [] => match lines with [] => Err IndexError | l :: ls => Ok (drop_newlines l, ls) end
            | _ :: _ => Ok (line, lines)
            end) (fun ll =>
      bind (parser (firstn width (fst ll))) (fun v =>
      bind (fixed_width rest (skipn width (fst ll)) (snd ll)) (fun vr =>
      Ok (v :: fst vr, snd vr))))
  end.
Definition parse_fixed_width {A} (types : list (nat * (text -> res A))) (lines : list text) :=
  fixed_width types [] lines.

(** ** [split_line] (tools.py:62-66), all the values; [values[0]] fails without any. *)
Fixpoint zip_parse {A} (parsers : list (text -> res A)) (parts : list text) : res (list A) :=
  match parsers, parts with
  | p :: ps, s :: ss => bind (p s) (fun v => bind (zip_parse ps ss) (fun vs => Ok (v :: vs)))
  | _, _ => Ok []
  end.
Definition split_line {A} (line : text) (parsers : list (text -> res A)) : res (list A) :=
  bind (zip_parse parsers (split_on " " line)) (fun vs =>
  match vs with [] => Err IndexError | _ :: _ => Ok vs end).

(** ** [load_at2_file] (motion.py:269-290): time step and accelerations *)
Definition load_at2 (content : text) (scale : R) : res (R * list R) :=
  match readlines content with
  | _ :: _ :: _ :: l4 :: body =>
      match split_ws l4 with
      | _ :: dt :: _ =>
          bind (py_float dt) (fun time_step =>
          bind (map_res py_float (concat (map split_ws body))) (fun accels =>
          Ok (time_step, map (fun a => a * scale) accels)))
      | _ => Err IndexError
      end
  | _ => Err StopIteration
  end.

(** ** [load_smc_file] (motion.py:292-347): time step and accelerations *)

(** [[lines.pop(0) for _ in range(n)]] *)
Fixpoint pop_lines (n : nat) (lines : list text) : res (list text * list text) :=
  match n with
  | O => Ok ([], lines)
  | S n' => match lines with
            | [] => Err IndexError
            | l :: ls => bind (pop_lines n' ls) (fun hr => Ok (l :: fst hr, snd hr))
            end
  end.
Definition text_eqb (a b : text) : bool := if list_eq_dec Ascii.ascii_dec a b then true else false.
(** ["2 CORRECTED ACCELEROGRAM"] *)
Definition smc_title : text :=
  ["2"; " "; "C"; "O"; "R"; "R"; "E"; "C"; "T"; "E"; "D"; " ";
   "A"; "C"; "C"; "E"; "L"; "E"; "R"; "O"; "G"; "R"; "A"; "M"]%char.
(** [lines[n:]] *)
Definition slice_from {A} (n : Z) (xs : list A) : list A :=
  skipn (if (n <? 0)%Z then Z.to_nat (Z.max 0 (n + Z.of_nat (length xs))) else Z.to_nat n) xs.
(** The search for station and component (316-317) is an argument: whether the sixth line
    matches.  Without a match [m.groups()] fails.  [1 / 0.0] raises. *)
Definition load_smc (has_station : text -> bool) (content : text) (scale : R) : res (R * list R) :=
  bind (pop_lines 11 (readlines content)) (fun hl =>
  if negb (text_eqb (strip (hd [] (fst hl))) smc_title) then Err RuntimeWarning
  else if negb (has_station (nth 5 (fst hl) [])) then Err AttributeError
  else
  bind (pop_lines 6 (snd hl)) (fun il =>
  bind (parse_fixed_width (repeat (10%nat, py_int) 48) (fst il)) (fun vi =>
  let count_comment := nth 15 (fst vi) 0%Z in
  let count := nth 16 (fst vi) 0%Z in
  bind (pop_lines 10 (snd il)) (fun fl =>
  bind (parse_fixed_width (repeat (15%nat, py_float) 50) (fst fl)) (fun vf =>
  match div_opt 1 (nth 1 (fst vf) 0) with
  | None => Err ZeroDivisionError
  | Some time_step =>
      bind (parse_fixed_width (repeat (10%nat, py_float) (Z.to_nat count)) (slice_from count_comment (snd fl))) (fun va =>
      Ok (time_step, map (fun a => a * scale) (fst va)))
  end))))).

(** ** [read_nrattle_ctl] (tools.py:258-282): layers, half-space velocity and density *)

(** A number of a record. *)
Definition rec_int (s : text) : res R := bind (py_int s) (fun n => Ok (IZR n)).
(** tools.py:270-275: the records up to the first line that is not one, and that line.
    [lines] is the file from the fifth line that is not a comment. *)
Fixpoint nr_records (lines : list text) : res (list (list R) * text * list text) :=
  match lines with
  | [] => Err IndexError
  | line :: rest =>
      match split_line line [rec_int; py_float; py_float; py_float; py_float] with
      | Ok r => bind (nr_records rest) (fun out => Ok (r :: fst (fst out), snd (fst out), snd out))
      | Err ValueError => Ok ([], line, rest)
      | Err e => Err e
      end
  end.
(** tools.py:277-279: [np.rec.fromrecords] with five names; records of another length fail. *)
Definition nr_of_record (r : list R) : res (R * R * R * R * R) :=
  match r with
  | [n; t; v; d; q] => Ok (n, t, v, d, q)
  | _ => Err ValueError
  end.
Definition read_nrattle_ctl (content : text) : res (list (R * R * R * R * R) * (R * R)) :=
  let lines := filter (fun l => negb (Ascii.eqb (hd newline l) "!")) (readlines content) in
  match lines with
  | _ :: _ :: freq :: depth :: body =>
      bind (split_line freq [rec_int; py_float]) (fun fs =>
      if negb (Nat.eqb (length fs) 2) then Err TypeError else
      bind (split_line depth [py_float]) (fun _ =>
      bind (nr_records body) (fun out =>
      bind (map_res nr_of_record (fst (fst out))) (fun rs =>
      match rs with
      | [] => Err IndexError
      | _ :: _ =>
      bind (split_line (snd (fst out)) [py_float; py_float]) (fun hs =>
      match hs with
      | [v; d] =>
          match snd out with
          | [] => Err IndexError
          | last :: _ =>
              bind (split_line last [rec_int; py_float]) (fun hl =>
              if negb (Nat.eqb (length hl) 2) then Err TypeError else Ok (rs, (v, d)))
          end
      | _ => Err TypeError
      end)
      end))))
  | _ => Err IndexError
  end.
