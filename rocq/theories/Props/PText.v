(** Properties C54 and C91 to C94: fixed-width lines and the readers of motion and nrattle files. *)
From Coq Require Import Ascii.
From Verif Require Import Common Model.Tools Model.Text Model.Shake Spec.TextSpec Spec.FileSpec Proof.CommonFacts Proof.TextProps.
Local Open Scope R_scope.

(** [1] and [22] in fields of three characters, on two lines. *)
Definition ex_fields : list (list (wfield Z)) :=
  [[mkF 3 py_int [" "; " "; "1"]%char]; [mkF 3 py_int [" "; "2"; "2"]%char]].
Lemma ex_fields_lines : List.Forall line_of ex_fields.
Proof. repeat apply Forall_cons; try apply Forall_nil; cbn; repeat split; try discriminate; try lia; intros H; repeat (destruct H as [H|H]; [discriminate|]); exact H. Qed.

(** C54: for every division of the fields into lines, exactly these lines are consumed
    and every field is read from its own text. *)
Theorem C54_read_back : forall {A} (groups : list (list (wfield A))) rest,
  Forall line_of groups ->
  parse_fixed_width (map to_type (concat groups)) (map line_text groups ++ rest) =
  bind (read_all (concat groups)) (fun vs => Ok (vs, rest)).
Proof. exact @fixed_width_read. Qed.
Print Assumptions C54_read_back.
Example C54_ex : List.Forall line_of ex_fields /\ parse_fixed_width (map to_type (concat ex_fields)) (map line_text ex_fields ++ [[nl]]) = Ok ([1; 22]%Z, [[nl]]).
Proof. split; [exact ex_fields_lines|]. reflexivity. Qed.

(** C54: more fields than were written: IndexError. *)
Theorem C54_short : forall {A} (groups : list (list (wfield A))) f more,
  Forall line_of groups -> (exists vs, read_all (concat groups) = Ok vs) ->
  parse_fixed_width (map to_type (concat groups ++ f :: more)) (map line_text groups) = Err IndexError.
Proof. exact @fixed_width_short. Qed.
Print Assumptions C54_short.

(** C54: a numeral with white space around it is read back as its number, with and
    without a sign. *)
Theorem C54_integers : forall a s b n,
  Forall (fun c => is_space c = true) a -> Forall (fun c => is_space c = true) b -> numeral s n ->
  py_int (a ++ s ++ b) = Ok n /\ py_int (a ++ ("-"%char :: s) ++ b) = Ok (- n)%Z.
Proof. exact int_read. Qed.
Print Assumptions C54_integers.
Example C54_integers_ex : numeral ["2"; "7"]%char 27.
Proof. apply (num_more ["2"%char] 2 7); [apply (num_digit 2); lia|lia]. Qed.

(** C91: a field missing at the end of a line is read from the start of the next line.
    *)
Theorem C91_refuted : forall {A} (g : list (wfield A)) f next rest,
  line_of g -> drop_newlines next <> [] ->
  parse_fixed_width (map to_type (g ++ [f])) (line_text g :: next :: rest) =
  bind (read_all g) (fun vs => bind (f_read f (firstn (f_width f) (drop_newlines next))) (fun v => Ok (vs ++ [v], rest))).
Proof. exact @fixed_width_missing. Qed.
Print Assumptions C91_refuted.
Example C91_refuted_ex : line_of [mkF 3 py_int [" "; " "; "1"]%char] /\ drop_newlines [" "; "2"; "2"; nl]%char <> [].
Proof. split; [cbn; repeat split; try discriminate; try lia; intros H; repeat (destruct H as [H|H]; [discriminate|]); exact H|discriminate]. Qed.

(** C92: an AT2 file gives the time step of its fourth line and all numbers of the later
    lines in order, times the scale, however they are divided into lines. *)
Theorem C92_values : forall h1 h2 h3 w1 w2 more trail (body : list (list (text * text) * text)) dt scale vs,
  no_nl h1 -> no_nl h2 -> no_nl h3 -> words_ok is_space true (w1 :: w2 :: more) -> Forall (fun c => is_space c = true) trail ->
  no_nl (spaced (w1 :: w2 :: more) trail) -> py_float (snd w2) = Ok dt ->
  Forall (fun l => words_ok is_space true (fst l) /\ Forall (fun c => is_space c = true) (snd l) /\ no_nl (spaced (fst l) (snd l))) body ->
  map_res py_float (concat (map (fun l => map snd (fst l)) body)) = Ok vs ->
  load_at2 (concat (map (fun l => l ++ [nl]) ([h1; h2; h3; spaced (w1 :: w2 :: more) trail] ++ map (fun l => spaced (fst l) (snd l)) body))) scale =
  Ok (dt, map (fun a => a * scale) vs).
Proof. exact at2_read. Qed.
Print Assumptions C92_values.

(** C92: with fewer than four lines StopIteration is raised. *)
Theorem C92_short : forall ls scale,
  Forall no_nl ls -> (length ls < 4)%nat -> load_at2 (concat (map (fun l => l ++ [nl]) ls)) scale = Err StopIteration.
Proof. exact at2_short. Qed.
Print Assumptions C92_short.
Example C92_short_ex : List.Forall no_nl [["A"%char]] /\ (length [["A"%char]] < 4)%nat.
Proof. split; [repeat constructor; intros [H|[]]; discriminate|cbn; lia]. Qed.

(** C93: an SMC file of corrected accelerations: time step, comments skipped, and
    exactly the stated number of values in order. *)
Theorem C93_values : forall has_station heads gi gf comments gd tail scale vi vf va,
  length heads = 11%nat -> Forall no_nl (heads ++ comments) -> strip (hd [] heads ++ [nl]) = smc_title -> has_station (nth 5 heads [] ++ [nl]) = true ->
  length gi = 6%nat -> Forall line_of gi -> Forall (fun f => f_width f = 10%nat /\ f_read f = py_int) (concat gi) -> length (concat gi) = 48%nat ->
  length gf = 10%nat -> Forall line_of gf -> Forall (fun f => f_width f = 15%nat /\ f_read f = py_float) (concat gf) -> length (concat gf) = 50%nat ->
  Forall line_of gd -> Forall (fun f => f_width f = 10%nat /\ f_read f = py_float) (concat gd) ->
  read_all (concat gi) = Ok vi -> read_all (concat gf) = Ok vf -> read_all (concat gd) = Ok va ->
  nth 15 vi 0%Z = Z.of_nat (length comments) -> nth 16 vi 0%Z = Z.of_nat (length va) -> nth 1 vf 0 <> 0 ->
  load_smc has_station
    (concat (map (fun l => l ++ [nl]) heads ++ map line_text gi ++ map line_text gf ++ map (fun l => l ++ [nl]) comments ++ map line_text gd) ++ tail) scale =
  Ok (1 / nth 1 vf 0, map (fun a => a * scale) va).
Proof. exact smc_read. Qed.
Print Assumptions C93_values.

(** C93: any other first line raises RuntimeWarning. *)
Theorem C93_other : forall has_station heads tail scale,
  length heads = 11%nat -> Forall no_nl heads -> strip (hd [] heads ++ [nl]) <> smc_title ->
  load_smc has_station (concat (map (fun l => l ++ [nl]) heads) ++ tail) scale = Err RuntimeWarning.
Proof. exact smc_uncorrected. Qed.
Print Assumptions C93_other.

(** C94: a control file with a half-space velocity that is not a whole number: all
    layers and the half-space are read. *)
Theorem C94_values_partial : forall all rest a b freq depth (ls : list text) rs hs last f1 f2 f3 g1 g2 hv hd m1 m2 m3 z1 z2 v d,
  Forall no_nl all -> filter (fun l => negb (Ascii.eqb (List.hd nl (l ++ [nl])) "!")) all = [a; b; freq; depth] ++ ls ++ hs :: last :: rest ->
  line_words (freq ++ [nl]) (f1 :: f2 :: m1) -> (exists k, py_int f1 = Ok k) -> (exists x, py_float f2 = Ok x) ->
  line_words (depth ++ [nl]) (f3 :: m2) -> (exists x, py_float f3 = Ok x) ->
  Forall2 (fun l r => exists ws, line_words (l ++ [nl]) ws /\ record_words ws r) ls rs -> rs <> [] ->
  line_words (hs ++ [nl]) (hv :: hd :: m3) -> py_int hv = Err ValueError -> py_float hv = Ok v -> py_float hd = Ok d ->
  line_words (last ++ [nl]) (g1 :: g2 :: z1) -> (exists k, py_int g1 = Ok k) -> py_float g2 = Ok z2 ->
  read_nrattle_ctl (concat (map (fun l => l ++ [nl]) all)) = Ok (rs, (v, d)).
Proof. exact nrattle_read. Qed.
Print Assumptions C94_values_partial.

(** C94: a half-space velocity written as a whole number is taken for a layer and the
    file cannot be read. *)
Theorem C94_refuted : forall all rest a b freq depth (ls : list text) rs hs h1 h2 k x,
  Forall no_nl all -> filter (fun l => negb (Ascii.eqb (List.hd nl (l ++ [nl])) "!")) all = [a; b; freq; depth] ++ ls ++ hs :: rest ->
  Forall2 (fun l r => exists ws, line_words (l ++ [nl]) ws /\ record_words ws r) ls rs ->
  line_words (hs ++ [nl]) [h1; h2] -> py_int h1 = Ok k -> py_float h2 = Ok x ->
  exists e, read_nrattle_ctl (concat (map (fun l => l ++ [nl]) all)) = Err e.
Proof. exact nrattle_integer_velocity. Qed.
Print Assumptions C94_refuted.
