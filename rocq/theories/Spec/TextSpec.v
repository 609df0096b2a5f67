(** Files as they are written. *)
From Coq Require Import Ascii.
From Verif Require Import Common.
Local Open Scope R_scope.

Definition nl : ascii := "010"%char.
Definition no_nl (s : list ascii) : Prop := ~ In nl s.

(** A field of a fixed-width line: its width, the reader, and the text. *)
Record wfield (A : Type) := mkF { f_width : nat; f_read : list ascii -> res A; f_text : list ascii }.
Arguments mkF {A}. Arguments f_width {A}. Arguments f_read {A}. Arguments f_text {A}.
(** Fields of one line: all padded to their width, except that the last may be shorter
    but not empty. *)
Fixpoint line_of {A} (fs : list (wfield A)) : Prop :=
  match fs with
  | [] => False
  | [f] => f_text f <> [] /\ (length (f_text f) <= f_width f)%nat /\ no_nl (f_text f)
  | f :: rest => f_text f <> [] /\ length (f_text f) = f_width f /\ no_nl (f_text f) /\ line_of rest
  end.
(** The line as written. *)
Definition line_text {A} (fs : list (wfield A)) : list ascii := (concat (map f_text fs) ++ [nl])%list.

(** Reading every field by itself. *)
Fixpoint read_all {A} (fs : list (wfield A)) : res (list A) :=
  match fs with
  | [] => Ok []
  | f :: rest => match f_read f (f_text f) with
                 | Err e => Err e
                 | Ok v => match read_all rest with Err e => Err e | Ok vs => Ok (v :: vs) end
                 end
  end.

(** Decimal numerals. *)
Inductive numeral : list ascii -> Z -> Prop :=
| num_digit d : (d < 10)%nat -> numeral [ascii_of_nat (48 + d)] (Z.of_nat d)
| num_more s n d : numeral s n -> (d < 10)%nat -> numeral (s ++ [ascii_of_nat (48 + d)]) (10 * n + Z.of_nat d)%Z.
Definition blanks (s : list ascii) : Prop := Forall (fun c => c = " "%char) s.

(** A line of words: each word with the separators in front of it, and what follows the
    last word. *)
Definition spaced (ws : list (list ascii * list ascii)) (trail : list ascii) : list ascii :=
  (concat (map (fun sw => fst sw ++ snd sw) ws) ++ trail)%list.
(** Separators between the words, none inside; the first word may start the line. *)
Fixpoint words_ok (sep : ascii -> bool) (first : bool) (ws : list (list ascii * list ascii)) : Prop :=
  match ws with
  | [] => True
  | (s, w) :: rest =>
      (first = false -> s <> []) /\ Forall (fun c => sep c = true) s /\
      w <> [] /\ Forall (fun c => sep c = false) w /\ words_ok sep false rest
  end.

(** White space of a line. *)
Definition white (c : ascii) : Prop :=
  (9 <= nat_of_ascii c <= 13)%nat \/ (28 <= nat_of_ascii c <= 32)%nat.
(** A line that starts option [n] of a SHAKE file: white space and a number. *)
Definition option_header (l : list ascii) (n : Z) : Prop :=
  exists a s e, a <> [] /\ Forall white a /\ numeral s n /\ (e = [] \/ e = [nl]) /\ l = (a ++ s ++ e)%list.
(** An option block: the number, its line, and the lines that follow.  The first of them may
    look like an option line, the others may not. *)
Record block := mkBlock { bl_option : Z; bl_header : list ascii; bl_first : list ascii; bl_rest : list (list ascii) }.
Definition block_ok (b : block) : Prop :=
  option_header (bl_header b) (bl_option b) /\ bl_option b <> 0%Z /\
  Forall (fun l => forall n, ~ option_header l n) (bl_rest b).
(** A block with the option number zero, none of whose lines looks like an option line. *)
Definition zero_block (b : block) : Prop :=
  option_header (bl_header b) (bl_option b) /\ bl_option b = 0%Z /\
  Forall (fun l => forall n, ~ option_header l n) (bl_first b :: bl_rest b).
Definition block_lines (b : block) : list (list ascii) := bl_header b :: bl_first b :: bl_rest b.
Definition block_entry (b : block) : Z * list (list ascii) := (bl_option b, bl_first b :: bl_rest b).

(** A number padded to the right end of a field. *)
Definition right_number (s : list ascii) (n : Z) : Prop := exists a d, blanks a /\ numeral d n /\ s = (a ++ d)%list.
(** A name [nm] padded with blanks. *)
Definition starts_solid (s : list ascii) : Prop := match s with [] => False | c :: _ => ~ white c end.
Definition padded_name (s nm : list ascii) : Prop :=
  exists a b, blanks a /\ blanks b /\ starts_solid nm /\ starts_solid (rev nm) /\ s = (a ++ nm ++ b)%list.
(** A curve of a SHAKE file as written: the number of points (five characters) and the name
    on one line, then the strains and the values in fields of ten characters. *)
Record wcurve := mkWC {
  wc_count : list ascii; wc_name : list ascii; wc_title : list ascii;
  wc_strains : list (list (wfield R)); wc_values : list (list (wfield R));
  wc_strain_values : list R; wc_data_values : list R }.
Definition wcurve_lines (c : wcurve) : list (list ascii) :=
  (((wc_count c ++ wc_name c) ++ [nl]) :: map line_text (wc_strains c) ++ map line_text (wc_values c))%list.
(** [rd] reads one number. *)
Definition wcurve_ok (rd : list ascii -> res R) (c : wcurve) : Prop :=
  length (wc_count c) = 5%nat /\ right_number (wc_count c) (Z.of_nat (length (wc_strain_values c))) /\
  (length (wc_name c) <= 65)%nat /\ no_nl (wc_name c) /\ padded_name (wc_name c) (wc_title c) /\
  Forall line_of (wc_strains c) /\ Forall (fun f => f_width f = 10%nat /\ f_read f = rd) (concat (wc_strains c)) /\
  read_all (concat (wc_strains c)) = Ok (wc_strain_values c) /\
  Forall line_of (wc_values c) /\ Forall (fun f => f_width f = 10%nat /\ f_read f = rd) (concat (wc_values c)) /\
  read_all (concat (wc_values c)) = Ok (wc_data_values c) /\
  length (wc_data_values c) = length (wc_strain_values c).
