(** Properties of the reader of SHAKE input files: C55 and the blocks of curves. *)
From Coq Require Import Ascii.
From Verif Require Import Common Model.Tools Model.Text Model.Shake Spec.TextSpec Spec.FileSpec Proof.CommonFacts Proof.TextProps.
Local Open Scope R_scope.

(** ** Option lines *)

Lemma space_white c : is_space c = true <-> white c.
Proof.
  unfold is_space, white. rewrite orb_true_iff, !andb_true_iff, !Nat.leb_le. reflexivity.
Qed.
Lemma digit_char c d : digit_of c = Some d -> exists k, (k < 10)%nat /\ c = ascii_of_nat (48 + k) /\ d = Z.of_nat k.
Proof.
  unfold digit_of. intros H. destruct ((48 <=? nat_of_ascii c) && (nat_of_ascii c <=? 57))%nat eqn:E; [|discriminate].
  apply andb_true_iff in E as [E1 E2]. apply Nat.leb_le in E1, E2. injection H as <-. exists (nat_of_ascii c - 48)%nat.
  split; [lia|]. split; [|reflexivity]. replace (48 + (nat_of_ascii c - 48))%nat with (nat_of_ascii c) by lia. symmetry. apply ascii_nat_embedding.
Qed.
Lemma val_numeral s : forall n, digits_val 0 s = Some n -> s <> [] -> numeral s n.
Proof.
  induction s as [|c s IH] using rev_ind; intros n H N; [congruence|]. rewrite digits_val_app in H.
  destruct (digits_val 0 s) as [m|] eqn:E; [|discriminate]. cbn [digits_val] in H. destruct (digit_of c) as [d|] eqn:D; [|discriminate].
  injection H as <-. apply digit_char in D as (k & Hk & -> & ->). destruct s as [|x s].
  - cbn [digits_val] in E. injection E as <-. cbn [app]. replace (10 * 0 + Z.of_nat k)%Z with (Z.of_nat k) by lia. now constructor.
  - apply num_more; [|exact Hk]. apply IH; [reflexivity|discriminate].
Qed.
Lemma lstrip_split s : exists a, Forall (fun c => is_space c = true) a /\ s = a ++ lstrip s.
Proof.
  induction s as [|c s (a & F & E)]; [exists []; auto|]. cbn [lstrip]. destruct (is_space c) eqn:Q; [|exists []; auto].
  exists (c :: a). split; [now constructor|]. cbn [app]. now f_equal.
Qed.
Lemma chomp_split s : (chomp s = s) \/ (s = chomp s ++ [nl]).
Proof.
  unfold chomp. destruct (rev s) as [|c r] eqn:E; [now left|]. destruct (Ascii.eqb_spec c newline) as [->|N]; [|now left].
  right. rewrite <- (rev_involutive s), E. reflexivity.
Qed.
Lemma chomp_end s : chomp (s ++ [nl]) = s.
Proof. unfold chomp. rewrite rev_app_distr. cbn [rev app]. rewrite Ascii.eqb_refl. apply rev_involutive. Qed.
Lemma chomp_digit s d : (d < 10)%nat -> chomp (s ++ [ascii_of_nat (48 + d)]) = s ++ [ascii_of_nat (48 + d)].
Proof.
  intros H. unfold chomp. rewrite rev_app_distr. cbn [rev app].
  replace (Ascii.eqb (ascii_of_nat (48 + d)) newline) with false; [reflexivity|]. do 10 (destruct d as [|d]; [reflexivity|]). lia.
Qed.
Lemma option_line_header l n : option_line l = Some n <-> option_header l n.
Proof.
  split.
  - intros H. destruct l as [|c r]; [discriminate|]. unfold option_line in H. destruct (is_space c) eqn:Sc; [|discriminate].
    set (l := c :: r) in *. destruct (lstrip_split (chomp l)) as (a & Fa & Ea). set (s := lstrip (chomp l)) in *.
    unfold nat_text in H. destruct s as [|x s'] eqn:Es; [discriminate|]. rewrite <- Es in *.
    assert (Ns : numeral s n) by (apply val_numeral; [rewrite Es in *; exact H|rewrite Es; discriminate]).
    exists a, s, (if Nat.eqb (length (chomp l)) (length l) then [] else [nl]).
    assert (Na : a <> []).
    { intros ->. cbn [app] in Ea. destruct (numeral_first s n Ns) as (d & t & Hd & Et).
      assert (Hc : exists t', chomp l = c :: t').
      { destruct (chomp_split l) as [E|E]; [rewrite E; now exists r|]. destruct (chomp l) as [|y t']; [|unfold l in E; cbn in E; injection E as <- _; now exists t'].
        rewrite Et in Ea. discriminate. }
      destruct Hc as (t' & Hc). rewrite Hc, Et in Ea. injection Ea as Ea _. rewrite Ea in Sc. pose proof (digit_not_space d Hd) as Q. cbn [Nat.add] in *. congruence. }
    split; [exact Na|]. split; [eapply Forall_impl; [|exact Fa]; intros y; apply space_white|]. split; [exact Ns|].
    destruct (chomp_split l) as [E|E].
    + rewrite E, Nat.eqb_refl. split; [now left|]. rewrite app_nil_r. rewrite <- E at 1. exact Ea.
    + replace (Nat.eqb (length (chomp l)) (length l)) with false.
      * split; [now right|]. rewrite app_assoc, <- Ea. exact E.
      * symmetry. apply Nat.eqb_neq. rewrite E at 2. rewrite app_length. cbn. lia.
  - intros (a & s & e & Na & Fa & Ns & He & ->). destruct a as [|c a]; [congruence|].
    pose proof (Forall_inv Fa) as Wc. apply space_white in Wc. unfold option_line. cbn [app]. rewrite Wc.
    change (c :: a ++ s ++ e) with ((c :: a) ++ s ++ e). destruct (numeral_last s n Ns) as (d & r & Hd & Es), (numeral_val s n Ns) as [V N0], (numeral_first s n Ns) as (d1 & r1 & Hd1 & Es1).
    assert (C : chomp ((c :: a) ++ s ++ e) = (c :: a) ++ s).
    { destruct He as [->| ->]; [|rewrite app_assoc; apply chomp_end]. rewrite app_nil_r, Es, app_assoc. now apply chomp_digit. }
    rewrite C, lstrip_blank by (eapply Forall_impl; [|exact Fa]; intros y; apply space_white).
    rewrite lstrip_solid by (rewrite Es1; now apply digit_not_space). unfold nat_text. destruct s; [congruence|]. exact V.
Qed.

(** ** C55: the last block is lost *)

Lemma truthy_some n : n <> 0%Z -> truthy (Some n) = Some n.
Proof. intros H. unfold truthy. destruct (Z.eqb_spec n 0); [contradiction|reflexivity]. Qed.
Lemma body_steps rest : Forall (fun l => forall n, ~ option_header l n) rest -> forall o blk sv,
  fold_left block_step rest (mkB o blk sv) = mkB o (blk ++ rest) sv.
Proof.
  induction 1 as [|l rest H _ IH]; intros o blk sv; cbn [fold_left]; [now rewrite app_nil_r|].
  unfold block_step at 2. destruct (option_line l) as [n|] eqn:E; [apply option_line_header in E; now destruct (H n)|].
  cbn [b_option b_block b_saved]. rewrite IH, <- app_assoc. reflexivity.
Qed.
Lemma block_steps b : block_ok b -> forall o blk sv, (truthy o = None \/ blk <> []) ->
  fold_left block_step (block_lines b) (mkB o blk sv) =
  mkB (Some (bl_option b)) (bl_first b :: bl_rest b) (match truthy o with Some m => sv ++ [(m, blk)] | None => sv end).
Proof.
  intros (H & N & F) o blk sv C. unfold block_lines. cbn [fold_left]. apply option_line_header in H.
  assert (S1 : block_step (mkB o blk sv) (bl_header b) = mkB (Some (bl_option b)) [] (match truthy o with Some m => sv ++ [(m, blk)] | None => sv end)).
  { unfold block_step. rewrite H. cbn [b_option b_block b_saved]. destruct (truthy o) as [m|] eqn:T; [|reflexivity].
    destruct blk; [destruct C; congruence|reflexivity]. }
  rewrite S1.
  assert (S2 : forall sv', block_step (mkB (Some (bl_option b)) [] sv') (bl_first b) = mkB (Some (bl_option b)) [bl_first b] sv').
  { intros sv'. unfold block_step. cbn [b_option b_block b_saved]. rewrite truthy_some by exact N. destruct (option_line (bl_first b)); reflexivity. }
  rewrite S2, body_steps by exact F. reflexivity.
Qed.
Lemma blocks_steps bs : Forall block_ok bs -> forall b sv, bl_option b <> 0%Z ->
  fold_left block_step (concat (map block_lines bs)) (mkB (Some (bl_option b)) (bl_first b :: bl_rest b) sv) =
  (let l := last bs b in mkB (Some (bl_option l)) (bl_first l :: bl_rest l) (sv ++ map block_entry (removelast (b :: bs)))).
Proof.
  induction 1 as [|b' bs Hb _ IH]; intros b sv N; [cbn; now rewrite app_nil_r|].
  cbn [map concat]. rewrite fold_left_app, block_steps by (try exact Hb; right; discriminate).
  rewrite truthy_some by exact N. destruct Hb as (_ & N' & _). rewrite (IH b' _ N').
  replace (last (b' :: bs) b) with (last bs b').
  - cbv zeta. f_equal. change (removelast (b :: b' :: bs)) with (b :: removelast (b' :: bs)). cbn [map]. rewrite <- app_assoc. reflexivity.
  - destruct bs as [|x bs]; [reflexivity|]. change (last (b' :: x :: bs) b) with (last (x :: bs) b). generalize (x :: bs) as l, (@nil_cons _ x bs). clear.
    intros l. induction l as [|y l IH]; intros N; [congruence|]. destruct l as [|z l]; [reflexivity|]. exact (IH ltac:(discriminate)).
Qed.
(** Every block is found with its lines, except the last one. *)
Theorem options_all_but_last bs : Forall block_ok bs -> split_options (concat (map block_lines bs)) = map block_entry (removelast bs).
Proof.
  intros F. destruct bs as [|b bs]; [reflexivity|]. pose proof (Forall_inv F) as Hb. apply Forall_inv_tail in F.
  unfold split_options. cbn [map concat]. rewrite fold_left_app, block_steps by (try exact Hb; now left). cbn [truthy].
  destruct Hb as (_ & N & _). pose proof (f_equal b_saved (blocks_steps bs F b [] N)) as E. exact E.
Qed.

(** Files. *)
Lemma readlines_lined ls : lined ls -> readlines (concat ls) = ls.
Proof.
  induction 1 as [|l ls (s & N & ->) _ IH]; [reflexivity|]. cbn [concat]. rewrite readlines_line by exact N. now rewrite IH.
Qed.
Theorem load_all_but_last read_motion title units bs : lined (title :: units :: concat (map block_lines bs)) -> Forall block_ok bs ->
  load_shake_inp read_motion (concat (title :: units :: concat (map block_lines bs))) =
  parse_options read_motion units (mkIn None None None) (map block_entry (removelast bs)).
Proof.
  intros L F. unfold load_shake_inp. rewrite readlines_lined by exact L. now rewrite options_all_but_last.
Qed.
(** Whatever the last block says. *)
Theorem last_block_ignored read_motion title units bs b b' :
  lined (title :: units :: concat (map block_lines (bs ++ [b]))) -> lined (title :: units :: concat (map block_lines (bs ++ [b']))) ->
  Forall block_ok bs -> block_ok b -> block_ok b' ->
  load_shake_inp read_motion (concat (title :: units :: concat (map block_lines (bs ++ [b])))) =
  load_shake_inp read_motion (concat (title :: units :: concat (map block_lines (bs ++ [b'])))).
Proof.
  intros L L' F B B'. rewrite !load_all_but_last; [now rewrite !removelast_last|exact L'| |exact L|]; apply Forall_app; split; auto.
Qed.

(** ** Only three options can be read *)
Theorem options_supported read_motion units obs : forall i i', parse_options read_motion units i obs = Ok i' ->
  Forall (fun ob => fst ob = 1%Z \/ fst ob = 2%Z \/ fst ob = 3%Z) obs.
Proof.
  induction obs as [|[n b] obs IH]; intros i i' H; [constructor|]. cbn [parse_options] in H.
  destruct (parse_option read_motion units i (n, b)) as [j|] eqn:E; [|discriminate]. cbn [bind] in H. constructor; [|exact (IH _ _ H)].
  cbn [fst]. unfold parse_option in E. cbn [fst snd] in E.
  destruct (Z.eq_dec n 1); [auto|]. destruct (Z.eq_dec n 2); [auto|]. destruct (Z.eq_dec n 3); [auto|]. exfalso.
  assert (X : match n with 4%Z => True | _ => True end) by (destruct n as [|[[[]|[]|]|[[]|[]|]|]|]; exact I).
  destruct (Z.eq_dec n 4) as [->|N4].
  - destruct (in_profile i); [|discriminate]. destruct (parse_fixed_width _ b); discriminate.
  - destruct n as [|p|p]; try discriminate. destruct p as [[[p|p|]|[p|p|]|]|[[p|p|]|[p|p|]|]|]; try discriminate; try (destruct p; discriminate); congruence.
Qed.
Theorem load_needs read_motion title units bs i : lined (title :: units :: concat (map block_lines bs)) -> Forall block_ok bs ->
  load_shake_inp read_motion (concat (title :: units :: concat (map block_lines bs))) = Ok i ->
  Forall (fun b => bl_option b = 1%Z \/ bl_option b = 2%Z \/ bl_option b = 3%Z) (removelast bs).
Proof.
  intros L F H. rewrite load_all_but_last in H by assumption. apply options_supported in H. rewrite Forall_map in H. exact H.
Qed.

(** ** The line with the units has no effect *)
Lemma english_no_nl s : text_eqb (s ++ [nl]) english = false.
Proof.
  unfold text_eqb. destruct (list_eq_dec _ _ _) as [E|]; [|reflexivity]. exfalso.
  apply (f_equal (@rev ascii)) in E. rewrite rev_app_distr in E. discriminate.
Qed.
Lemma parse_profile_units s s' curves block : parse_profile (s ++ [nl]) curves block = parse_profile (s' ++ [nl]) curves block.
Proof. unfold parse_profile. now rewrite !english_no_nl. Qed.
Lemma parse_options_units read_motion s s' obs : forall i,
  parse_options read_motion (s ++ [nl]) i obs = parse_options read_motion (s' ++ [nl]) i obs.
Proof.
  induction obs as [|[n b] obs IH]; intros i; [reflexivity|]. cbn [parse_options].
  assert (E : parse_option read_motion (s ++ [nl]) i (n, b) = parse_option read_motion (s' ++ [nl]) i (n, b)).
  { unfold parse_option. cbn [fst snd]. destruct (in_curves i) as [c|]; [rewrite (parse_profile_units s s')|]; reflexivity. }
  rewrite E. destruct (parse_option read_motion (s' ++ [nl]) i (n, b)); cbn [bind]; [apply IH|reflexivity].
Qed.
(** A file in English units is read as a file in any other units. *)
Theorem units_ignored read_motion title u u' rest : no_nl title -> no_nl u -> no_nl u' ->
  load_shake_inp read_motion (title ++ nl :: u ++ nl :: rest) = load_shake_inp read_motion (title ++ nl :: u' ++ nl :: rest).
Proof.
  intros T U U'. unfold load_shake_inp.
  assert (E : forall a b : text, no_nl a -> readlines (a ++ nl :: b) = (a ++ [nl]) :: readlines b).
  { intros a b H. rewrite <- (readlines_line a b H), <- app_assoc. reflexivity. }
  rewrite !E by assumption. apply parse_options_units.
Qed.

(** ** Curves *)

Lemma blank_space a : blanks a -> Forall (fun c => is_space c = true) a.
Proof. intros H. eapply Forall_impl; [|exact H]. intros c ->. reflexivity. Qed.
Lemma blank_no_nl a : blanks a -> no_nl a.
Proof. intros H I. unfold blanks in H. rewrite Forall_forall in H. specialize (H _ I). discriminate. Qed.
Lemma numeral_no_nl d n : numeral d n -> no_nl d.
Proof.
  assert (D : forall k, (k < 10)%nat -> nl <> ascii_of_nat (48 + k)) by (intros k H; do 10 (destruct k as [|k]; [discriminate|]); lia).
  induction 1 as [k H|s n k _ IH H]; intros I.
  - destruct I as [I|[]]. exact (D k H (eq_sym I)).
  - apply in_app_or in I as [I|[I|[]]]; [now apply IH|exact (D k H (eq_sym I))].
Qed.
Lemma right_number_read s n e : right_number s n -> Forall (fun c => is_space c = true) e -> py_int (s ++ e) = Ok n.
Proof.
  intros (a & d & B & D & ->) E. rewrite <- app_assoc. apply int_read; [now apply blank_space|exact E|exact D].
Qed.
Lemma right_number_int s n : right_number s n -> py_int s = Ok n.
Proof. intros H. rewrite <- (app_nil_r s). now apply right_number_read. Qed.
Lemma right_number_no_nl s n : right_number s n -> no_nl s.
Proof.
  intros (a & d & B & D & ->) I. apply in_app_or in I as [I|I]; [exact (blank_no_nl _ B I)|exact (numeral_no_nl _ _ D I)].
Qed.
Lemma solid_of s : starts_solid s -> solid s.
Proof.
  destruct s as [|c s]; [intros []|]. cbn. intros H. destruct (is_space c) eqn:E; [|reflexivity]. apply space_white in E. contradiction.
Qed.
Lemma name_read s nm : padded_name s nm -> strip s = nm.
Proof.
  intros (a & b & A & B & S1 & S2 & ->). apply strip_padded; [now apply blank_space|now apply blank_space|now apply solid_of|now apply solid_of].
Qed.
Lemma name_ne s nm : padded_name s nm -> s <> [].
Proof.
  intros (a & b & _ & _ & S1 & _ & ->) E. apply app_eq_nil in E as [_ E]. apply app_eq_nil in E as [-> _]. exact S1.
Qed.
Lemma read_fields rd w groups vs rest : Forall line_of groups -> Forall (fun f => f_width f = w /\ f_read f = rd) (concat groups) ->
  read_all (concat groups) = Ok vs ->
  parse_fixed_width (repeat (w, rd : text -> res R) (length vs)) (map line_text groups ++ rest) = Ok (vs, rest).
Proof.
  intros G F H. rewrite (read_all_length _ _ H), <- (types_repeat _ _ _ F), fixed_width_read, H by exact G. reflexivity.
Qed.
Lemma read_fields_z rd w groups vs rest : Forall line_of groups -> Forall (fun f => f_width f = w /\ f_read f = rd) (concat groups) ->
  read_all (concat groups) = Ok vs ->
  parse_fixed_width (repeat (w, rd : text -> res Z) (length vs)) (map line_text groups ++ rest) = Ok (vs, rest).
Proof.
  intros G F H. rewrite (read_all_length _ _ H), <- (types_repeat _ _ _ F), fixed_width_read, H by exact G. reflexivity.
Qed.
Lemma read_curve_written dmp c rest : wcurve_ok py_float c -> read_curve dmp (wcurve_lines c ++ rest) = Ok (curve_of dmp c, rest).
Proof.
  intros (L5 & N5 & Lm & Nm & Pm & Gs & Fs & Rs & Gv & Fv & Rv & Lv). unfold read_curve, wcurve_lines.
  pose proof (fixed_width_read [[mkF 5 p_int (wc_count c); mkF 65 p_str (wc_name c)]] (map line_text (wc_strains c) ++ map line_text (wc_values c) ++ rest)) as H.
  assert (E : parse_fixed_width [(5%nat, p_int); (65%nat, p_str)] ((((wc_count c ++ wc_name c) ++ [nl]) :: map line_text (wc_strains c) ++ map line_text (wc_values c)) ++ rest) =
    Ok ([FInt (Z.of_nat (length (wc_strain_values c))); FText (wc_title c)], map line_text (wc_strains c) ++ map line_text (wc_values c) ++ rest)).
  { etransitivity; [|etransitivity; [apply H|]].
    - cbn [app concat map]. f_equal. unfold line_text at 3. cbn [map concat f_text app]. rewrite app_nil_r, <- !app_assoc. reflexivity.
    - constructor; [|constructor]. cbn. repeat split; [destruct (wc_count c); discriminate|exact L5|exact (right_number_no_nl _ _ N5)|exact (name_ne _ _ Pm)|exact Lm|exact Nm].
    - cbn [concat app read_all f_read f_text]. unfold p_int, p_str. rewrite (right_number_int _ _ N5), (name_read _ _ Pm). reflexivity. }
  rewrite E. cbn [bind fst snd]. rewrite Nat2Z.id, (read_fields _ _ _ _ _ Gs Fs Rs). cbn [bind fst snd].
  rewrite <- Lv, (read_fields _ _ _ _ _ Gv Fv Rv). reflexivity.
Qed.
Lemma read_curves_written ps rest : Forall (fun p => wcurve_ok py_float (fst p) /\ wcurve_ok py_float (snd p)) ps ->
  read_curves (length ps) (concat (map pair_lines ps) ++ rest) = Ok (concat (map pair_curves ps), rest).
Proof.
  induction 1 as [|p ps [H1 H2] _ IH]; [reflexivity|]. cbn [length map concat read_curves]. unfold pair_lines at 1.
  rewrite <- !app_assoc, read_curve_written by exact H1. cbn [bind fst snd]. rewrite read_curve_written by exact H2. cbn [bind fst snd].
  rewrite IH. reflexivity.
Qed.
Lemma label_written ps : forall ts done, length ts = length ps ->
  label_curves (2 * length done) (concat (map pair_curves ps)) (done ++ ts) = Ok (concat (map pair_entries (combine ts ps))).
Proof.
  induction ps as [|p ps IH]; intros ts dn L; destruct ts as [|t ts]; try discriminate; [reflexivity|].
  cbn [map concat pair_curves app label_curves combine]. unfold pair_curves at 1. cbn [app label_curves].
  assert (D1 : (2 * length dn / 2 = length dn)%nat) by (rewrite Nat.mul_comm; apply Nat.div_mul; lia).
  assert (D2 : (S (2 * length dn) / 2 = length dn)%nat).
  { replace (S (2 * length dn)) with (1 + length dn * 2)%nat by lia. rewrite Nat.div_add by lia. reflexivity. }
  rewrite D1, nth_error_app2, Nat.sub_diag by lia. cbn [nth_error]. rewrite D2, nth_error_app2, Nat.sub_diag by lia. cbn [nth_error].
  specialize (IH ts (dn ++ [t]) ltac:(cbn in L; lia)). rewrite app_length, <- app_assoc in IH. cbn [length app] in IH.
  replace (S (S (2 * length dn))) with (2 * (length dn + 1))%nat by lia.
  etransitivity; [apply (f_equal (fun r => bind (bind r _) _)); exact IH|]. reflexivity.
Qed.
(** The block of curves is read back, each soil type number with its own two curves. *)
Theorem curves_read count ps f0 g0 gs ts rest :
  right_number count (Z.of_nat (length ps)) -> Forall (fun p => wcurve_ok py_float (fst p) /\ wcurve_ok py_float (snd p)) ps ->
  length ts = length ps -> length (f_text f0) = 5%nat -> right_number (f_text f0) (Z.of_nat (length ts)) ->
  Forall line_of ((f0 :: g0) :: gs) -> Forall (fun f => f_width f = 5%nat /\ f_read f = py_int) (concat ((f0 :: g0) :: gs)) ->
  read_all (concat ((f0 :: g0) :: gs)) = Ok (Z.of_nat (length ts) :: ts) ->
  parse_curves ((count ++ [nl]) :: concat (map pair_lines ps) ++ map line_text ((f0 :: g0) :: gs) ++ rest) =
  Ok (concat (map pair_entries (combine ts ps))).
Proof.
  intros Hc Hp Lt L0 N0 G F H. unfold parse_curves. rewrite (right_number_read _ _ [nl] Hc) by (repeat constructor). cbn [bind].
  rewrite Nat2Z.id, read_curves_written by exact Hp. cbn [bind fst snd map app].
  assert (E5 : firstn 5 (line_text (f0 :: g0)) = f_text f0).
  { unfold line_text. cbn [map concat]. rewrite <- app_assoc, firstn_app, L0, Nat.sub_diag, firstn_O, app_nil_r. apply firstn_all2. lia. }
  rewrite E5, (right_number_int _ _ N0). cbn [bind].
  replace (Z.to_nat (Z.of_nat (length ts) + 1)) with (length (Z.of_nat (length ts) :: ts)) by (cbn [length]; lia).
  pose proof (read_fields_z _ _ _ _ rest G F H) as E. cbn [map app] in E. rewrite E. cbn [bind fst snd tl].
  exact (label_written ps ts [] Lt).
Qed.

(** ** C55: blocks with option number zero are lost *)
Definition kept_blocks (bs : list block) : list block := filter (fun b => negb (bl_option b =? 0)%Z) bs.
Lemma zero_steps b o blk sv : zero_block b -> (truthy o = None \/ blk <> []) ->
  fold_left block_step (block_lines b) (mkB o blk sv) =
  mkB (Some 0%Z) (bl_first b :: bl_rest b) (match truthy o with Some m => sv ++ [(m, blk)] | None => sv end).
Proof.
  intros (H & N & F) C. unfold block_lines. cbn [fold_left]. apply option_line_header in H. rewrite N in H.
  assert (S1 : block_step (mkB o blk sv) (bl_header b) = mkB (Some 0%Z) [] (match truthy o with Some m => sv ++ [(m, blk)] | None => sv end)).
  { unfold block_step. rewrite H. cbn [b_option b_block b_saved]. destruct (truthy o) as [m|] eqn:T; [|reflexivity].
    destruct blk; [destruct C; congruence|reflexivity]. }
  rewrite S1. change (fold_left block_step (bl_rest b) (block_step ?s (bl_first b))) with (fold_left block_step (bl_first b :: bl_rest b) s).
  rewrite body_steps by exact F. reflexivity.
Qed.
Lemma any_steps b o blk sv : block_ok b \/ zero_block b -> (truthy o = None \/ blk <> []) ->
  fold_left block_step (block_lines b) (mkB o blk sv) =
  mkB (Some (bl_option b)) (bl_first b :: bl_rest b) (match truthy o with Some m => sv ++ [(m, blk)] | None => sv end).
Proof.
  intros [H|H] C; [now apply block_steps|]. rewrite zero_steps by assumption. destruct H as (_ & N & _). now rewrite N.
Qed.
Lemma any_blocks_steps bs : Forall (fun b => block_ok b \/ zero_block b) bs -> forall b sv, b_saved
  (fold_left block_step (concat (map block_lines bs)) (mkB (Some (bl_option b)) (bl_first b :: bl_rest b) sv)) =
  sv ++ map block_entry (kept_blocks (removelast (b :: bs))).
Proof.
  induction 1 as [|b' bs Hb _ IH]; intros b sv; [cbn; now rewrite app_nil_r|].
  cbn [map concat]. rewrite fold_left_app, any_steps by (try exact Hb; right; discriminate). rewrite (IH b').
  change (removelast (b :: b' :: bs)) with (b :: removelast (b' :: bs)). unfold kept_blocks, truthy. cbn [filter].
  destruct (bl_option b =? 0)%Z; cbn [negb map]; [reflexivity|]. rewrite <- app_assoc. reflexivity.
Qed.
Theorem zero_blocks_dropped read_motion title units bs : lined (title :: units :: concat (map block_lines bs)) ->
  Forall (fun b => block_ok b \/ zero_block b) bs ->
  load_shake_inp read_motion (concat (title :: units :: concat (map block_lines bs))) =
  parse_options read_motion units (mkIn None None None) (map block_entry (filter (fun b => negb (bl_option b =? 0)%Z) (removelast bs))).
Proof.
  intros L F.
  assert (E : split_options (concat (map block_lines bs)) = map block_entry (kept_blocks (removelast bs))).
  { destruct bs as [|b bs]; [reflexivity|]. pose proof (Forall_inv F) as Hb. apply Forall_inv_tail in F.
    unfold split_options. cbn [map concat]. rewrite fold_left_app, any_steps by (try exact Hb; now left). cbn [truthy].
    exact (any_blocks_steps bs F b []). }
  unfold load_shake_inp. rewrite readlines_lined by exact L. now rewrite E.
Qed.
