(** A small SHAKE file: one soil type and two layers. *)
From Coq Require Import Ascii String.
From Verif Require Import Common Model.Tools Model.Text Model.Shake Spec.TextSpec Spec.NumberSpec Spec.FileSpec
  Proof.CommonFacts Proof.TextProps Proof.ShakeProps Proof.NumberText Proof.ShakeProfile.
From Coq Require Import List.
Local Open Scope R_scope.

Definition txt (s : string) : text := list_ascii_of_string s.
Definition sk_types : text := txt "    1    7".
Definition sk_curve : wcurve :=
  mkWC (txt "    2") (txt " sand") (txt "sand")
    [[mkF 10 py_float (txt "         1"); mkF 10 py_float (txt "         2")]]
    [[mkF 10 py_float (txt "         1"); mkF 10 py_float (txt "         2")]] [1; 2] [1; 2].
Definition sk_layer1 : wlayer_line :=
  mkWL0 (txt "    1") (txt "    7") (txt "              5") (txt "          ") (txt "      .05 ") (txt "        18") (txt "       200").
Definition sk_layer2 : wlayer_line :=
  mkWL0 (txt "    2") (txt "    7") (txt "               ") (txt "          ") (txt "      .05 ") (txt "        22") (txt "       800").
Definition sk_head : text := txt "    2    2    1 site" ++ [nl].
Definition sk_block1 : block :=
  mkBlock 1 (txt "    1" ++ [nl]) (txt "    1" ++ [nl]) (pair_lines (sk_curve, sk_curve) ++ [sk_types ++ [nl]]).
Definition sk_block2 : block := mkBlock 2 (txt "    2" ++ [nl]) sk_head [wlayer_text sk_layer1; wlayer_text sk_layer2].
Definition sk_block3 : block := mkBlock 3 (txt "    3" ++ [nl]) (txt "x" ++ [nl]) [].
Definition sk_layers : list shake_layer :=
  [mkSL 7 (Some 18) (curve_of false sk_curve) (curve_of true sk_curve) (Some 5) (Some 200);
   mkSL 7 (Some 22) (curve_of false sk_curve) (curve_of true sk_curve) None (Some 800)].

Lemma sk_no_nl s : forallb (fun c => negb (Ascii.eqb c nl)) s = true -> no_nl s.
Proof. intros H I. rewrite forallb_forall in H. specialize (H _ I). now rewrite Ascii.eqb_refl in H. Qed.
Ltac blank := repeat (apply Forall_cons; [reflexivity|]); apply Forall_nil.
Lemma sk_right a d n : blanks (txt a) -> (d < 10)%nat -> n = Z.of_nat d -> right_number (txt a ++ [ascii_of_nat (48 + d)]) n.
Proof. intros H Hd ->. exists (txt a), [ascii_of_nat (48 + d)]. split; [exact H|]. split; [now apply num_digit|reflexivity]. Qed.
Lemma sk_writes ds x : digits ds -> ds <> [] -> IZR (whole_value ds) = x -> writes (digits_text ds) x.
Proof.
  intros H N <-. exists (mkNumber NoSign ds None None). unfold number_ok, frac_digits; cbn. split; [|split].
  - split; [exact H|]. split; [constructor|]. split; [now left|exact I].
  - unfold number_text; cbn. now rewrite !app_nil_r.
  - unfold number_value, exp_value, frac_digits; cbn. lra.
Qed.
Lemma sk_cell a ds x : blanks (txt a) -> digits ds -> ds <> [] -> IZR (whole_value ds) = x -> cell (txt a ++ digits_text ds) (Some x).
Proof.
  intros H1 H2 H3 H4. right. exists (txt a), (digits_text ds), [], x. split; [reflexivity|]. split; [exact H1|]. split; [constructor|].
  split; [now apply sk_writes|now rewrite app_nil_r].
Qed.

Lemma sk_curve_ok : wcurve_ok py_float sk_curve.
Proof.
  assert (G : Forall line_of [[mkF 10 py_float (txt "         1"); mkF 10 py_float (txt "         2")]]).
  { apply Forall_cons; [|apply Forall_nil]. cbn [line_of f_text f_width].
    repeat match goal with |- _ /\ _ => split end; try discriminate; try reflexivity; try (apply sk_no_nl; reflexivity); cbn; lia. }
  assert (F : read_all [mkF 10 py_float (txt "         1"); mkF 10 py_float (txt "         2")] = Ok [1; 2]).
  { apply fields_read. constructor; [|constructor; [|constructor]]; (split; [reflexivity|]).
    - exists (txt "         "), (digits_text [1]%nat), []. split; [blank|]. split; [constructor|]. split; [apply sk_writes; [repeat constructor|discriminate|reflexivity]|reflexivity].
    - exists (txt "         "), (digits_text [2]%nat), []. split; [blank|]. split; [constructor|]. split; [apply sk_writes; [repeat constructor|discriminate|reflexivity]|reflexivity]. }
  unfold wcurve_ok. cbn [wc_count wc_name wc_title wc_strains wc_values wc_strain_values wc_data_values sk_curve].
  split; [reflexivity|]. split; [apply (sk_right "    " 2); [blank|lia|reflexivity]|]. split; [cbn; lia|]. split; [apply sk_no_nl; reflexivity|].
  split.
  { exists (txt " "), []. split; [blank|]. split; [constructor|]. split; [cbn; unfold white; cbn; lia|]. split; [cbn; unfold white; cbn; lia|reflexivity]. }
  split; [exact G|]. split; [repeat (apply Forall_cons; [split; reflexivity|]); apply Forall_nil|]. split; [exact F|].
  split; [exact G|]. split; [repeat (apply Forall_cons; [split; reflexivity|]); apply Forall_nil|]. split; [exact F|reflexivity].
Qed.
Lemma sk_header d n : (0 < d < 10)%nat -> n = Z.of_nat d -> option_header (txt "    " ++ [ascii_of_nat (48 + d)] ++ [nl]) n.
Proof.
  intros H ->. exists (txt "    "), [ascii_of_nat (48 + d)], [nl]. split; [discriminate|].
  split; [repeat (apply Forall_cons; [right; cbn; lia|]); apply Forall_nil|]. split; [apply num_digit; lia|]. split; [now right|reflexivity].
Qed.
Lemma sk_plain l : option_line l = None -> forall n, ~ option_header l n.
Proof. intros E n H. apply option_line_header in H. congruence. Qed.
Lemma sk_blocks : block_ok sk_block1 /\ block_ok sk_block2 /\ block_ok sk_block3.
Proof.
  repeat split; try discriminate;
    try (apply (sk_header 1); [lia|reflexivity]); try (apply (sk_header 2); [lia|reflexivity]); try (apply (sk_header 3); [lia|reflexivity]);
    cbn [bl_rest sk_block1 sk_block2 sk_block3];
    repeat (apply Forall_cons; [apply sk_plain; reflexivity|]); apply Forall_nil.
Qed.
Lemma sk_file_lined : lined ((txt "title" ++ [nl]) :: (txt "metric" ++ [nl]) :: concat (map block_lines [sk_block1; sk_block2; sk_block3])).
Proof.
  assert (K : forall l, last l " "%char = nl -> forallb (fun c => negb (Ascii.eqb c nl)) (removelast l) = true -> l <> [] -> exists s, no_nl s /\ l = s ++ [nl]).
  { intros l E F N. exists (removelast l). split; [now apply sk_no_nl|]. rewrite <- E. now apply app_removelast_last. }
  unfold lined. apply Forall_forall. intros l H. apply K; revert l H;
    apply Forall_forall; cbn [concat map block_lines app sk_block1 sk_block2 sk_block3 bl_header bl_first bl_rest pair_lines fst snd wcurve_lines wc_strains wc_values sk_curve];
    repeat (apply Forall_cons; [reflexivity || discriminate|]); apply Forall_nil.
Qed.
Lemma sk_states1 : states sk_layer1 7 (Some 5) (Some 18) (Some 200).
Proof.
  unfold states. cbn [wl_index wl_type wl_thick wl_mod wl_damp wl_weight wl_vs sk_layer1].
  split; [cbn; lia|]. split; [exists 1%Z; apply (sk_right "    " 1); [blank|lia|reflexivity]|]. split; [apply (sk_right "    " 7); [blank|lia|reflexivity]|].
  split; [apply (sk_cell "              " [5]%nat); [blank|repeat constructor|discriminate|reflexivity]|].
  split; [exists None; left; split; [reflexivity|blank]|].
  split.
  { exists (Some 0.05). right. exists (txt "      "), (txt ".05"), (txt " "), 0.05. split; [reflexivity|]. split; [blank|]. split; [blank|]. split; [|reflexivity].
    exists (mkNumber NoSign [] (Some [0; 5]%nat) None). unfold number_ok, frac_digits; cbn. split; [|split; [reflexivity|]].
    - split; [constructor|]. split; [repeat constructor|]. split; [right; discriminate|exact I].
    - unfold number_value, exp_value, frac_digits; cbn. lra. }
  split; [apply (sk_cell "        " [1; 8]%nat); [blank|repeat constructor|discriminate|reflexivity]|].
  apply (sk_cell "       " [2; 0; 0]%nat); [blank|repeat constructor|discriminate|reflexivity].
Qed.
Lemma sk_states2 : states sk_layer2 7 None (Some 22) (Some 800).
Proof.
  destruct sk_states1 as (_ & _ & _ & _ & _ & D & _). unfold states. cbn [wl_index wl_type wl_thick wl_mod wl_damp wl_weight wl_vs sk_layer1 sk_layer2] in *.
  split; [cbn; lia|]. split; [exists 2%Z; apply (sk_right "    " 2); [blank|lia|reflexivity]|]. split; [apply (sk_right "    " 7); [blank|lia|reflexivity]|].
  split; [left; split; [reflexivity|blank]|].
  split; [exists None; left; split; [reflexivity|blank]|]. split; [exact D|].
  split; [apply (sk_cell "        " [2; 2]%nat); [blank|repeat constructor|discriminate|reflexivity]|].
  apply (sk_cell "       " [8; 0; 0]%nat); [blank|repeat constructor|discriminate|reflexivity].
Qed.
Lemma sk_from : Forall2 (layer_from (combine [7%Z] [(sk_curve, sk_curve)])) [sk_layer1; sk_layer2] sk_layers.
Proof.
  constructor; [|constructor; [|constructor]]; exists (sk_curve, sk_curve); (split; [now left|]).
  - split; [exact sk_states1|split; reflexivity].
  - split; [exact sk_states2|split; reflexivity].
Qed.
Lemma sk_head_ok : profile_head sk_head 2 2.
Proof.
  exists (txt "    2"), (txt "    2"), (txt "    1"), (txt " site"), (txt "site"), 1%Z. split; [reflexivity|]. split; [cbn; lia|].
  split; [apply (sk_right "    " 2); [blank|lia|reflexivity]|]. split; [apply (sk_right "    " 2); [blank|lia|reflexivity]|].
  split; [apply (sk_right "    " 1); [blank|lia|reflexivity]|]. split; [apply sk_no_nl; reflexivity|].
  exists (txt " "), []. split; [blank|]. split; [constructor|]. split; [cbn; unfold white; cbn; lia|]. split; [cbn; unfold white; cbn; lia|reflexivity].
Qed.
Lemma sk_curves_read : parse_curves (bl_first sk_block1 :: bl_rest sk_block1) = Ok (concat (map pair_entries (combine [7%Z] [(sk_curve, sk_curve)]))).
Proof.
  pose proof (curves_read (txt "    1") [(sk_curve, sk_curve)] (mkF 5 py_int (txt "    1")) [mkF 5 py_int (txt "    7")] [] [7%Z] []) as H.
  etransitivity; [|apply H].
  - reflexivity.
  - apply (sk_right "    " 1); [blank|lia|reflexivity].
  - apply Forall_cons; [split; exact sk_curve_ok|apply Forall_nil].
  - reflexivity.
  - reflexivity.
  - apply (sk_right "    " 1); [blank|lia|reflexivity].
  - apply Forall_cons; [|apply Forall_nil]. cbn [line_of f_text f_width].
    repeat match goal with |- _ /\ _ => split end; try discriminate; try reflexivity; try (apply sk_no_nl; reflexivity); cbn; lia.
  - repeat (apply Forall_cons; [split; reflexivity|]); apply Forall_nil.
  - reflexivity.
Qed.
(** The file is read. *)
Lemma sk_file read_motion :
  load_shake_inp read_motion (concat ((txt "title" ++ [nl]) :: (txt "metric" ++ [nl]) :: concat (map block_lines [sk_block1; sk_block2; sk_block3]))) =
  Ok (mkIn (Some (concat (map pair_entries (combine [7%Z] [(sk_curve, sk_curve)])))) (Some (mkSP sk_layers (Some 5))) None).
Proof.
  destruct sk_blocks as (B1 & B2 & B3).
  apply (file_read read_motion _ _ sk_block1 sk_block2 sk_block3 [7%Z] [(sk_curve, sk_curve)] sk_head [sk_layer1; sk_layer2] sk_layers 2 5);
    try assumption; try reflexivity.
  - exact sk_file_lined.
  - exact sk_curves_read.
  - constructor; [intros []|constructor].
  - exact sk_head_ok.
  - exact sk_from.
  - lia.
  - cbn. exists 5, 0. split; [reflexivity|]. split; [reflexivity|lra].
Qed.
