(** Properties C126 and C127: numbers of files, and curves of ordered tables. *)
From Coq Require Import Ascii.
From Verif Require Import Common Model.Curve Model.Tools Model.Text Spec.TextSpec Spec.NumberSpec Proof.CommonFacts Proof.CurveOrder Proof.NumberText.
Local Open Scope R_scope.

Local Open Scope R_scope.
(** "-12.50e-1" *)
Definition ex_number : number := mkNumber Minus [1; 2]%nat (Some [5; 0]%nat) (Some (SmallE, Minus, [1]%nat)).
Lemma ex_number_ok : number_ok ex_number.
Proof.
  unfold number_ok, digits; cbn. split; [repeat constructor|]. split; [repeat constructor|]. split; [left; discriminate|].
  split; [repeat constructor|discriminate].
Qed.
Lemma ex_number_value : -1.25 = number_value ex_number.
Proof. unfold number_value, exp_value, ex_number; cbn. change (Pos.to_nat 1) with 1%nat. lra. Qed.

(** C126: a decimal number with optional sign, point and exponent, with white space
    around it, is read as the number it denotes. *)
Theorem C126_float : forall a b n,
  Forall white a -> Forall white b -> number_ok n ->
  py_float (a ++ number_text n ++ b) = Ok (number_value n).
Proof. exact float_read. Qed.
Print Assumptions C126_float.
Example C126_float_ex : number_ok ex_number /\ number_text ex_number = ["-"; "1"; "2"; "."; "5"; "0"; "e"; "-"; "1"]%char /\ -1.25 = number_value ex_number.
Proof. split; [exact ex_number_ok|]. split; [reflexivity|]. exact ex_number_value. Qed.

(** C126: a whole number with an optional sign is read as the integer it denotes. *)
Theorem C126_int : forall a b s ds,
  Forall white a -> Forall white b -> digits ds -> ds <> [] ->
  py_int (a ++ (sign_text s ++ digits_text ds) ++ b) = Ok (sign_value s * whole_value ds)%Z.
Proof. exact signed_int_read. Qed.
Print Assumptions C126_int.
Example C126_int_ex : digits [4; 2]%nat /\ (sign_value Minus * whole_value [4; 2]%nat)%Z = (-42)%Z.
Proof. split; [repeat constructor; lia|reflexivity]. Qed.

(** C126: a number with a point or an exponent is rejected by the integer reader with
    ValueError. *)
Theorem C126_int_rejects : forall a b n,
  Forall white a -> Forall white b -> number_ok n ->
  (nu_frac n <> None \/ nu_exp n <> None) -> py_int (a ++ number_text n ++ b) = Err ValueError.
Proof. exact int_rejects. Qed.
Print Assumptions C126_int_rejects.
Example C126_int_rejects_ex : number_ok ex_number /\ nu_frac ex_number <> None.
Proof. split; [exact ex_number_ok|discriminate]. Qed.

(** C126: the only exception of the number reader is ValueError. *)
Theorem C126_float_error : forall t e,
  py_float t = Err e -> e = ValueError.
Proof. exact float_error. Qed.
Print Assumptions C126_float_error.
Example C126_float_error_ex : py_float ["x"%char] = Err ValueError.
Proof. reflexivity. Qed.

(** C126: the only exception of the integer reader is ValueError. *)
Theorem C126_int_error : forall t e,
  py_int t = Err e -> e = ValueError.
Proof. exact int_error. Qed.
Print Assumptions C126_int_error.
Example C126_int_error_ex : py_int ["1"; "."; "5"]%char = Err ValueError.
Proof. reflexivity. Qed.

(** C126,C92: an AT2 file that writes the numbers vs gives exactly these numbers times
    the scale. *)
Theorem C126_at2 : forall h1 h2 h3 w1 w2 more trail (body : list (list (text * text) * text)) dt scale vs,
  no_nl h1 -> no_nl h2 -> no_nl h3 -> words_ok whiteb true (w1 :: w2 :: more) -> Forall (fun c => whiteb c = true) trail ->
  no_nl (spaced (w1 :: w2 :: more) trail) -> writes (snd w2) dt ->
  Forall (fun l => words_ok whiteb true (fst l) /\ Forall (fun c => whiteb c = true) (snd l) /\ no_nl (spaced (fst l) (snd l))) body ->
  Forall2 writes (concat (map (fun l => map snd (fst l)) body)) vs ->
  load_at2 (concat (map (fun l => l ++ [nl]) ([h1; h2; h3; spaced (w1 :: w2 :: more) trail] ++ map (fun l => spaced (fst l) (snd l)) body))) scale =
  Ok (dt, map (fun a => a * scale) vs).
Proof. exact at2_numbers. Qed.
Print Assumptions C126_at2.
Example C126_at2_ex : words_ok whiteb true [([], ["4"]%char); ([" "]%char, ["."; "0"; "1"]%char)] /\ writes ["."; "0"; "1"]%char 0.01 /\
  List.Forall2 writes [number_text ex_number] [-1.25].
Proof.
  split; [cbn; repeat split; repeat constructor; try discriminate; congruence|]. split.
  - exists (mkNumber NoSign [] (Some [0; 1]%nat) None). split.
    { unfold number_ok, digits; cbn. split; [constructor|]. split; [repeat constructor|]. split; [right; discriminate|exact I]. }
    split; [reflexivity|]. unfold number_value, exp_value; cbn. lra.
  - constructor; [|constructor]. exists ex_number. split; [exact ex_number_ok|]. split; [reflexivity|]. exact ex_number_value.
Qed.

(** C126,C93: fields of numbers padded with blanks on either side give exactly these
    numbers; with C93_values and C97 these are the values of SMC and SHAKE files. *)
Theorem C126_fields : forall (fs : list (wfield R)) xs,
  Forall2 (fun f x => f_read f = py_float /\ exists a w b, blanks a /\ blanks b /\ writes w x /\ f_text f = a ++ w ++ b) fs xs -> read_all fs = Ok xs.
Proof. exact fields_read. Qed.
Print Assumptions C126_fields.
Example C126_fields_ex : List.Forall2 (fun (f : wfield R) x => f_read f = py_float /\ exists a w b, blanks a /\ blanks b /\ writes w x /\ f_text f = (a ++ w ++ b)%list)
  [mkF 10 py_float (" "%char :: number_text ex_number)] [-1.25].
Proof.
  constructor; [|constructor]. split; [reflexivity|]. exists [" "%char], (number_text ex_number), [].
  split; [repeat constructor|]. split; [constructor|]. split; [|reflexivity].
  exists ex_number. split; [exact ex_number_ok|]. split; [reflexivity|]. exact ex_number_value.
Qed.

Definition ex_low : curve := modulus_curve 0 [0.0001; 0.01] [0.9; 0.2].
Definition ex_high : curve := modulus_curve 1 [0.0001; 0.01] [0.95; 0.2].

(** C127: if every value of one table is at most the value of the other at the same
    strain, so is the curve at every strain, between and outside the tabulated ones,
    whatever the order of the strains. *)
Theorem C127_order : forall c c' s v,
  c_strains c = c_strains c' -> c_lo c = c_lo c' -> c_hi c = c_hi c' ->
  Forall2 Rle (c_values c) (c_values c') -> curve_call c s = Ok v ->
  exists v', curve_call c' s = Ok v' /\ v <= v'.
Proof. exact curve_ordered. Qed.
Print Assumptions C127_order.
Example C127_order_ex : c_strains ex_low = c_strains ex_high /\ List.Forall2 Rle (c_values ex_low) (c_values ex_high) /\ exists v, curve_call ex_low 0.001 = Ok v.
Proof.
  split; [reflexivity|]. split; [repeat (constructor; [lra|]); constructor|].
  unfold curve_call, ln_table, interp1d_call. cbn [ex_low modulus_curve c_strains c_values length Nat.eqb map combine sort_pts ins_pt].
  destruct (Rleb _ _); cbn; eexists; reflexivity.
Qed.

(** C127: if the values of two tables differ by at most e, so do the curves at every
    strain. *)
Theorem C127_close : forall e c c' s v,
  c_strains c = c_strains c' -> c_lo c = c_lo c' -> c_hi c = c_hi c' ->
  Forall2 (fun x y => Rabs (x - y) <= e) (c_values c) (c_values c') -> curve_call c s = Ok v ->
  exists v', curve_call c' s = Ok v' /\ Rabs (v - v') <= e.
Proof. exact curve_close. Qed.
Print Assumptions C127_close.
Example C127_close_ex : List.Forall2 (fun x y => Rabs (x - y) <= 0.05) (c_values ex_low) (c_values ex_high).
Proof. cbn. constructor; [|constructor; [|constructor]]; unfold Rabs; destruct (Rcase_abs _); lra. Qed.
