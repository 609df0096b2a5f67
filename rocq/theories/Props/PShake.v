(** Properties C55 and C95 to C97: SHAKE input files. *)
From Coq Require Import Ascii String.
From Verif Require Import Common Model.Tools Model.Text Model.Shake Spec.TextSpec Spec.FileSpec Proof.CommonFacts Proof.TextProps Proof.ShakeProps Proof.ShakeProfile Proof.ShakeEx.
From Coq Require Import List.
Local Open Scope R_scope.

(** A block with one line. *)
Definition ex_block (d : nat) (n : Z) : block := mkBlock n ([" "%char] ++ [ascii_of_nat (48 + d)] ++ [nl]) ["x"%char; nl] [].
Lemma ex_block_ok d : (0 < d < 10)%nat -> block_ok (ex_block d (Z.of_nat d)).
Proof.
  intros H. split; [|split; [cbn; lia|constructor]]. exists [" "%char], [ascii_of_nat (48 + d)], [nl]. split; [discriminate|].
  split; [repeat constructor; right; cbn; lia|]. split; [apply num_digit; lia|]. split; [now right|reflexivity].
Qed.

(** C55: of a file written as option blocks, all are processed in order except the last.
    *)
Theorem C55_refuted : forall read_motion title units bs,
  lined (title :: units :: concat (map block_lines bs)) -> Forall block_ok bs ->
  load_shake_inp read_motion (concat (title :: units :: concat (map block_lines bs))) =
  parse_options read_motion units (mkIn None None None) (map block_entry (removelast bs)).
Proof. exact load_all_but_last. Qed.
Print Assumptions C55_refuted.
Example C55_ex : List.Forall block_ok [ex_block 1 1; ex_block 3 3] /\
  lined (["t"; nl]%char :: ["m"; nl]%char :: concat (map block_lines [ex_block 1 1; ex_block 3 3])).
Proof.
  split; [apply Forall_cons; [apply (ex_block_ok 1); lia|apply Forall_cons; [apply (ex_block_ok 3); lia|apply Forall_nil]]|].
  repeat apply Forall_cons; try apply Forall_nil;
    [exists ["t"%char]|exists ["m"%char]|exists [" "; "1"]%char|exists ["x"%char]|exists [" "; "3"]%char|exists ["x"%char]];
    (split; [intros H; repeat (destruct H as [H|H]; [discriminate|]); exact H|reflexivity]).
Qed.

(** C55: the last block may say anything. *)
Theorem C55_last_ignored : forall read_motion title units bs b b',
  lined (title :: units :: concat (map block_lines (bs ++ [b]))) -> lined (title :: units :: concat (map block_lines (bs ++ [b']))) ->
  Forall block_ok bs -> block_ok b -> block_ok b' ->
  load_shake_inp read_motion (concat (title :: units :: concat (map block_lines (bs ++ [b])))) =
  load_shake_inp read_motion (concat (title :: units :: concat (map block_lines (bs ++ [b'])))).
Proof. exact last_block_ignored. Qed.
Print Assumptions C55_last_ignored.

(** C55: blocks numbered zero are dropped without notice as well. *)
Theorem C55_zero_dropped : forall read_motion title units bs,
  lined (title :: units :: concat (map block_lines bs)) ->
  Forall (fun b => block_ok b \/ zero_block b) bs ->
  load_shake_inp read_motion (concat (title :: units :: concat (map block_lines bs))) =
  parse_options read_motion units (mkIn None None None) (map block_entry (filter (fun b => negb (bl_option b =? 0)%Z) (removelast bs))).
Proof. exact zero_blocks_dropped. Qed.
Print Assumptions C55_zero_dropped.
Example C55_zero_dropped_ex : zero_block (mkBlock 0 [" "; "0"; nl]%char ["x"; nl]%char []).
Proof.
  split; [|split; [reflexivity|]].
  - exists [" "%char], ["0"%char], [nl]. split; [discriminate|]. split; [repeat constructor; right; cbn; lia|]. split; [apply (num_digit 0); lia|]. split; [now right|reflexivity].
  - apply Forall_cons; [|apply Forall_nil]. intros n H. apply option_line_header in H. discriminate.
Qed.

(** C55: option lines are white space followed by a number. *)
Theorem C55_option_lines : forall l n,
  option_line l = Some n <-> option_header l n.
Proof. exact option_line_header. Qed.
Print Assumptions C55_option_lines.

(** C95: a file is read only if all blocks but the last have option 1, 2 or 3; options 4
    to 9 are documented in the table of parsers but always raise. *)
Theorem C95_refuted : forall read_motion title units bs i,
  lined (title :: units :: concat (map block_lines bs)) -> Forall block_ok bs ->
  load_shake_inp read_motion (concat (title :: units :: concat (map block_lines bs))) = Ok i ->
  Forall (fun b => bl_option b = 1%Z \/ bl_option b = 2%Z \/ bl_option b = 3%Z) (removelast bs).
Proof. exact load_needs. Qed.
Print Assumptions C95_refuted.

(** C96: the line with the units has no effect whatever it says: English units are never
    converted. *)
Theorem C96_refuted : forall read_motion title u u' rest,
  no_nl title -> no_nl u -> no_nl u' ->
  load_shake_inp read_motion (title ++ nl :: u ++ nl :: rest) = load_shake_inp read_motion (title ++ nl :: u' ++ nl :: rest).
Proof. exact units_ignored. Qed.
Print Assumptions C96_refuted.
Example C96_ex : no_nl english /\ no_nl ["t"%char].
Proof. split; intros H; repeat (destruct H as [H|H]; [discriminate|]); exact H. Qed.

(** C97: the curves of option 1 are read back: every soil type number gets its own two
    curves with name, strains and values. *)
Theorem C97_curves : forall count ps f0 g0 gs ts rest,
  right_number count (Z.of_nat (length ps)) -> Forall (fun p => wcurve_ok py_float (fst p) /\ wcurve_ok py_float (snd p)) ps ->
  length ts = length ps -> length (f_text f0) = 5%nat -> right_number (f_text f0) (Z.of_nat (length ts)) ->
  Forall line_of ((f0 :: g0) :: gs) -> Forall (fun f => f_width f = 5%nat /\ f_read f = py_int) (concat ((f0 :: g0) :: gs)) ->
  read_all (concat ((f0 :: g0) :: gs)) = Ok (Z.of_nat (length ts) :: ts) ->
  parse_curves ((count ++ [nl]) :: concat (map pair_lines ps) ++ map line_text ((f0 :: g0) :: gs) ++ rest) =
  Ok (concat (map pair_entries (combine ts ps))).
Proof. exact curves_read. Qed.
Print Assumptions C97_curves.
Example C97_curves_ex : wcurve_ok py_float sk_curve /\
  parse_curves (bl_first sk_block1 :: bl_rest sk_block1) = Ok (concat (map pair_entries (combine [7%Z] [(sk_curve, sk_curve)]))).
Proof. split; [exact sk_curve_ok|exact sk_curves_read]. Qed.

(** C97: a soil type number listed once gives its own modulus reduction and damping
    curve. *)
Theorem C97_lookup : forall types t p,
  NoDup (map fst types) -> In (t, p) types ->
  curve_get (concat (map pair_entries types)) t false = Ok (curve_of false (fst p)) /\
  curve_get (concat (map pair_entries types)) t true = Ok (curve_of true (snd p)).
Proof. exact curve_of_type. Qed.
Print Assumptions C97_lookup.
Example C97_lookup_ex : List.NoDup (map fst (combine [7%Z] [(sk_curve, sk_curve)])) /\ In (7%Z, (sk_curve, sk_curve)) (combine [7%Z] [(sk_curve, sk_curve)]).
Proof. split; [constructor; [intros []|constructor]|now left]. Qed.

(** C97: any other number raises KeyError. *)
Theorem C97_unknown : forall types t b,
  ~ In t (map fst types) -> curve_get (concat (map pair_entries types)) t b = Err KeyError.
Proof. exact curve_of_unknown. Qed.
Print Assumptions C97_unknown.
Example C97_unknown_ex : ~ In 3%Z (map fst (combine [7%Z] [(sk_curve, sk_curve)])).
Proof. intros [H|[]]. discriminate. Qed.

(** C129: option 2 gives the layers as written: thickness, unit weight and velocity
    (missing where blank), the curves of their soil type, and the water table at the top
    of the stated layer. *)
Theorem C129_profile : forall units types h ws ls rest wt d,
  text_eqb units english = false -> NoDup (map fst types) ->
  profile_head h wt (Z.of_nat (length ws)) -> Forall2 (layer_from types) ws ls ->
  (1 <= wt)%Z -> top_depth (Z.to_nat (wt - 1)) ls d ->
  parse_profile units (concat (map pair_entries types)) (h :: map wlayer_text ws ++ rest) = Ok (mkSP ls (Some d)).
Proof. exact profile_read. Qed.
Print Assumptions C129_profile.
Example C129_profile_ex : profile_head sk_head 2 2 /\ List.Forall2 (layer_from (combine [7%Z] [(sk_curve, sk_curve)])) [sk_layer1; sk_layer2] sk_layers /\ top_depth 1 sk_layers 5.
Proof. split; [exact sk_head_ok|]. split; [exact sk_from|]. exists 5, 0. split; [reflexivity|]. split; [reflexivity|lra]. Qed.

(** C129: layer number 0 puts the water table at the top of the last layer, a number
    above the number of layers raises IndexError. *)
Theorem C129_water_table : forall units types h ws ls rest wt,
  text_eqb units english = false -> NoDup (map fst types) ->
  profile_head h wt (Z.of_nat (length ws)) -> Forall2 (layer_from types) ws ls ->
  (wt = 0%Z -> forall d, top_depth (length ls - 1) ls d ->
     parse_profile units (concat (map pair_entries types)) (h :: map wlayer_text ws ++ rest) = Ok (mkSP ls (Some d))) /\
  ((Z.of_nat (length ls) < wt)%Z ->
     parse_profile units (concat (map pair_entries types)) (h :: map wlayer_text ws ++ rest) = Err IndexError).
Proof. exact profile_table. Qed.
Print Assumptions C129_water_table.
Example C129_water_table_ex : text_eqb ["m"; nl]%char english = false /\ top_depth (length sk_layers - 1) sk_layers 5.
Proof. split; [reflexivity|apply C129_profile_ex]. Qed.

(** C129: a layer with a soil type number without curves raises KeyError. *)
Theorem C129_unknown : forall units types h w ws n t u v rest wt,
  profile_head h wt (Z.of_nat (length (w :: ws))) ->
  states w n t u v -> ~ In n (map fst types) ->
  parse_profile units (concat (map pair_entries types)) (h :: map wlayer_text (w :: ws) ++ rest) = Err KeyError.
Proof. exact profile_unknown. Qed.
Print Assumptions C129_unknown.
Example C129_unknown_ex : states sk_layer1 7 (Some 5) (Some 18) (Some 200).
Proof. exact sk_states1. Qed.

(** C129: a file with the curves, the profile and any last block gives these curves and
    this profile, whatever its units line says. *)
Theorem C129_file : forall read_motion title units bc bp bl ts ps h ws ls wt d,
  lined (title :: units :: concat (map block_lines [bc; bp; bl])) -> block_ok bc -> block_ok bp -> block_ok bl ->
  bl_option bc = 1%Z -> bl_option bp = 2%Z ->
  parse_curves (bl_first bc :: bl_rest bc) = Ok (concat (map pair_entries (combine ts ps))) ->
  length ts = length ps -> NoDup ts ->
  bl_first bp :: bl_rest bp = h :: map wlayer_text ws ->
  profile_head h wt (Z.of_nat (length ws)) -> Forall2 (layer_from (combine ts ps)) ws ls ->
  (1 <= wt)%Z -> top_depth (Z.to_nat (wt - 1)) ls d ->
  load_shake_inp read_motion (concat (title :: units :: concat (map block_lines [bc; bp; bl]))) =
  Ok (mkIn (Some (concat (map pair_entries (combine ts ps)))) (Some (mkSP ls (Some d))) None).
Proof. exact file_read. Qed.
Print Assumptions C129_file.
Example C129_file_ex : forall rm,
  load_shake_inp rm (concat ((txt "title"%string ++ [nl]) :: (txt "metric"%string ++ [nl]) :: concat (map block_lines [sk_block1; sk_block2; sk_block3]))) =
  Ok (mkIn (Some (concat (map pair_entries (combine [7%Z] [(sk_curve, sk_curve)])))) (Some (mkSP sk_layers (Some 5))) None).
Proof. exact sk_file. Qed.

(** C96: if the units were recognised, the conversion of any profile with a layer would
    raise AttributeError. *)
Theorem C96_conversion : forall types h ws ls rest wt,
  NoDup (map fst types) ->
  profile_head h wt (Z.of_nat (length ws)) -> Forall2 (layer_from types) ws ls -> ws <> [] ->
  parse_profile english (concat (map pair_entries types)) (h :: map wlayer_text ws ++ rest) = Err AttributeError.
Proof. exact profile_english. Qed.
Print Assumptions C96_conversion.
Example C96_conversion_ex : profile_head sk_head 2 (Z.of_nat (length [sk_layer1; sk_layer2])).
Proof. exact sk_head_ok. Qed.
