(** Decimal numbers as they are written, and the numbers they denote. *)
From Coq Require Import Ascii.
From Verif Require Import Common Spec.TextSpec.
Local Open Scope R_scope.

(** A sign may be left out. *)
Inductive sign := NoSign | Plus | Minus.
Definition sign_text (s : sign) : list ascii :=
  match s with NoSign => [] | Plus => ["+"%char] | Minus => ["-"%char] end.
(** Digits as numbers below ten. *)
Definition digits (ds : list nat) : Prop := Forall (fun d => (d < 10)%nat) ds.
Definition digits_text (ds : list nat) : list ascii := map (fun d => ascii_of_nat (48 + d)) ds.
(** Digits before and after the point. *)
Fixpoint whole_value (ds : list nat) : Z :=
  match ds with [] => 0%Z | d :: r => (Z.of_nat d * 10 ^ Z.of_nat (length r) + whole_value r)%Z end.
Fixpoint frac_value (ds : list nat) : R :=
  match ds with [] => 0 | d :: r => (INR d + frac_value r) / 10 end.

(** Exponent: the letter, the sign and the digits. *)
Inductive letter := SmallE | BigE.
Definition letter_text (l : letter) : ascii := match l with SmallE => "e"%char | BigE => "E"%char end.
(** A number: sign, digits before the point, the point with the digits after it, exponent. *)
Record number := mkNumber {
  nu_sign : sign; nu_whole : list nat; nu_frac : option (list nat); nu_exp : option (letter * sign * list nat) }.
Definition frac_digits (n : number) : list nat := match nu_frac n with Some ds => ds | None => [] end.
Definition number_ok (n : number) : Prop :=
  digits (nu_whole n) /\ digits (frac_digits n) /\ (nu_whole n <> [] \/ frac_digits n <> []) /\
  match nu_exp n with None => True | Some (_, _, ds) => digits ds /\ ds <> [] end.
Definition number_text (n : number) : list ascii :=
  (sign_text (nu_sign n) ++ digits_text (nu_whole n) ++
   match nu_frac n with None => [] | Some ds => "."%char :: digits_text ds end ++
   match nu_exp n with None => [] | Some (l, s, ds) => letter_text l :: sign_text s ++ digits_text ds end)%list.
Definition sign_value (s : sign) : Z := match s with Minus => (-1)%Z | _ => 1%Z end.
Definition exp_value (n : number) : Z :=
  match nu_exp n with None => 0%Z | Some (_, s, ds) => (sign_value s * whole_value ds)%Z end.
Definition number_value (n : number) : R :=
  IZR (sign_value (nu_sign n)) * (IZR (whole_value (nu_whole n)) + frac_value (frac_digits n)) * powerRZ 10 (exp_value n).

(** A word that writes the number [x]. *)
Definition writes (w : list ascii) (x : R) : Prop := exists n, number_ok n /\ w = number_text n /\ x = number_value n.

(** White space as a test: space, tab, newline, vertical tab, form feed, carriage return and
    the four separators. *)
Definition whiteb (c : ascii) : bool :=
  existsb (Ascii.eqb c) [" "; "009"; "010"; "011"; "012"; "013"; "028"; "029"; "030"; "031"]%char.
