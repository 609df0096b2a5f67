(** The profile of a SHAKE file is read back. *)
From Coq Require Import Ascii.
From Verif Require Import Common Model.Tools Model.Text Model.Shake Spec.TextSpec Spec.NumberSpec Spec.FileSpec
  Proof.CommonFacts Proof.TextProps Proof.ShakeProps Proof.NumberText.
Local Open Scope R_scope.

Lemma no_nl_app a b : no_nl a -> no_nl b -> no_nl (a ++ b).
Proof. intros H1 H2 H. apply in_app_or in H as [H|H]; auto. Qed.
Lemma digits_no_nl ds : digits ds -> no_nl (digits_text ds).
Proof.
  induction 1 as [|d r H0 H IH]; [intros []|]. intros [E|E]; [|now apply IH].
  do 10 (destruct d as [|d]; [discriminate|]). lia.
Qed.
Lemma sign_no_nl s : no_nl (sign_text s).
Proof. destruct s; intros H; cbn in H; repeat (destruct H as [H|H]; [discriminate|]); exact H. Qed.
Lemma number_no_nl n : number_ok n -> no_nl (number_text n).
Proof.
  destruct n as [s w f e]. unfold number_ok, number_text, frac_digits. cbn [nu_sign nu_whole nu_frac nu_exp]. intros (Hw & Hf & _ & He).
  repeat apply no_nl_app; [apply sign_no_nl|now apply digits_no_nl| |].
  - destruct f as [ds|]; [|intros []]. intros [E|E]; [discriminate|]. exact (digits_no_nl ds Hf E).
  - destruct e as [[[l s'] ds]|]; [|intros []]. destruct He as [He _]. intros [E|E]; [destruct l; discriminate|].
    revert E. apply no_nl_app; [apply sign_no_nl|now apply digits_no_nl].
Qed.
Lemma cell_no_nl w x : cell w x -> no_nl w.
Proof.
  intros [[_ H]|(a & t & b & v & _ & Ha & Hb & (n & Hn & -> & _) & ->)]; [now apply blank_no_nl|].
  apply no_nl_app; [now apply blank_no_nl|]. apply no_nl_app; [now apply number_no_nl|now apply blank_no_nl].
Qed.
Lemma blanks_white a : blanks a -> Forall white a.
Proof. intros H. eapply Forall_impl; [|exact H]. intros c ->. right. cbn. lia. Qed.
Lemma cell_read w x : cell w x -> to_float w = x.
Proof.
  unfold to_float. intros [[-> H]|(a & t & b & v & -> & Ha & Hb & (n & Hn & -> & ->) & ->)].
  - assert (E : lstrip w = []).
    { rewrite <- (app_nil_r w). rewrite lstrip_blank; [reflexivity|]. now apply blank_space. }
    unfold py_float, strip. rewrite E. reflexivity.
  - rewrite float_read by auto using blanks_white. reflexivity.
Qed.

Definition layer_fields (w : wlayer_line) : list (wfield field) :=
  [mkF 5 p_int (wl_index w); mkF 5 p_int (wl_type w); mkF 15 p_opt (wl_thick w); mkF 10 p_opt (wl_mod w);
   mkF 10 p_opt (wl_damp w); mkF 10 p_opt (wl_weight w); mkF 10 p_opt (wl_vs w)].
Lemma layer_line_text w : line_text (layer_fields w) = wlayer_text w.
Proof. unfold line_text, layer_fields, wlayer_text. cbn [map concat f_text]. rewrite app_nil_r, <- !app_assoc. reflexivity. Qed.
Lemma len_ne {A} (xs : list A) n : length xs = S n -> xs <> []. Proof. intros H ->. discriminate. Qed.
Lemma layer_line_of w n t u v : states w n t u v -> line_of (layer_fields w).
Proof.
  intros ((L1 & L2 & L3 & L4 & L5 & L6 & L7) & (i & N1) & N2 & N3 & (g & N4) & (d & N5) & N6 & N7). unfold layer_fields. cbn [line_of f_text f_width].
  repeat match goal with |- _ /\ _ => split end;
    eauto using len_ne, cell_no_nl, right_number_no_nl; try lia. intros E. rewrite E in L7. cbn in L7. lia.
Qed.
Lemma layer_fields_read w n t u v : states w n t u v ->
  exists i g d, read_all (layer_fields w) = Ok [FInt i; FInt n; FOpt t; FOpt g; FOpt d; FOpt u; FOpt v].
Proof.
  intros (_ & (i & N1) & N2 & N3 & (g & N4) & (d & N5) & N6 & N7). exists i, g, d.
  unfold layer_fields. cbn [read_all f_read f_text]. unfold p_int, p_opt.
  rewrite (right_number_int _ _ N1), (right_number_int _ _ N2), (cell_read _ _ N3), (cell_read _ _ N4), (cell_read _ _ N5), (cell_read _ _ N6), (cell_read _ _ N7). reflexivity.
Qed.

Lemma layer_parsed w n t u v rest : states w n t u v -> exists i g d,
  parse_fixed_width [(5%nat, p_int); (5%nat, p_int); (15%nat, p_opt); (10%nat, p_opt); (10%nat, p_opt); (10%nat, p_opt); (10%nat, p_opt)]
    (wlayer_text w :: rest) = Ok ([FInt i; FInt n; FOpt t; FOpt g; FOpt d; FOpt u; FOpt v], rest).
Proof.
  intros St. destruct (layer_fields_read _ _ _ _ _ St) as (i & g & d & E). exists i, g, d.
  pose proof (fixed_width_read [layer_fields w] rest) as P.
  specialize (P ltac:(constructor; [exact (layer_line_of _ _ _ _ _ St)|constructor])).
  cbn [concat app map] in P. rewrite layer_line_text, app_nil_r, E in P. exact P.
Qed.

(** ** Curves of a soil type *)
Lemma find_last_unique (es : list (Z * bool * shake_curve)) e idx dmp : In e es -> fst e = (idx, dmp) ->
  (forall e', In e' es -> fst e' = (idx, dmp) -> e' = e) ->
  curve_get es idx dmp = Ok (snd e).
Proof.
  intros I E U. unfold curve_get. destruct (find _ (rev es)) as [e'|] eqn:F.
  - apply find_some in F as [I' E']. apply andb_prop in E' as [A B]. apply Z.eqb_eq in A. apply Bool.eqb_prop in B.
    rewrite (U e'); [reflexivity|now apply in_rev|]. destruct e' as [[z b] c]. cbn in *. congruence.
  - exfalso. pose proof (find_none _ _ F e ltac:(now apply -> in_rev)) as G. cbv beta in G. rewrite E in G. cbn [fst snd] in G.
    rewrite Z.eqb_refl, Bool.eqb_reflx in G. discriminate.
Qed.
Lemma entry_in types t b c : In (t, b, c) (concat (map pair_entries types)) <->
  exists p, In (t, p) types /\ c = if b then curve_of true (snd p) else curve_of false (fst p).
Proof.
  rewrite in_concat. split.
  - intros (es & I & H). apply in_map_iff in I as ([t' p] & <- & I). cbn in H. destruct H as [H|[H|[]]]; injection H as <- <- <-; exists p; now split.
  - intros (p & I & ->). exists (pair_entries (t, p)). split; [now apply in_map|]. destruct b; [right; left|left]; reflexivity.
Qed.
Lemma types_unique (types : list (Z * (wcurve * wcurve))) t p q : NoDup (map fst types) -> In (t, p) types -> In (t, q) types -> p = q.
Proof.
  induction types as [|[t' p'] r IH]; [intros _ []|]. cbn [map fst]. intros N. inversion N as [|? ? N1 N2]; subst.
  intros [A|A] [B|B]; [congruence| | |now apply IH]; exfalso; apply N1; injection A || injection B; intros; subst.
  - now apply (in_map fst) in B.
  - now apply (in_map fst) in A.
Qed.
Theorem curve_of_type types t p : NoDup (map fst types) -> In (t, p) types ->
  curve_get (concat (map pair_entries types)) t false = Ok (curve_of false (fst p)) /\
  curve_get (concat (map pair_entries types)) t true = Ok (curve_of true (snd p)).
Proof.
  intros N I. split.
  - apply (find_last_unique _ (t, false, curve_of false (fst p))); [apply entry_in; now exists p|reflexivity|].
    intros [[t' b] c] H E. injection E as -> ->. apply entry_in in H as (q & Q & ->). now rewrite (types_unique types t p q N I Q).
  - apply (find_last_unique _ (t, true, curve_of true (snd p))); [apply entry_in; now exists p|reflexivity|].
    intros [[t' b] c] H E. injection E as -> ->. apply entry_in in H as (q & Q & ->). now rewrite (types_unique types t p q N I Q).
Qed.
Theorem curve_of_unknown types t b : ~ In t (map fst types) -> curve_get (concat (map pair_entries types)) t b = Err KeyError.
Proof.
  intros N. unfold curve_get. destruct (find _ _) as [e|] eqn:F; [|reflexivity]. exfalso. apply find_some in F as [I E].
  apply andb_prop in E as [A _]. apply Z.eqb_eq in A. apply in_rev in I. destruct e as [[t' b'] c]. cbn in A. subst t'.
  apply entry_in in I as (p & I & _). now apply (in_map fst) in I.
Qed.

(** ** Layers *)
Lemma layers_read types ws ls rest : NoDup (map fst types) -> Forall2 (layer_from types) ws ls ->
  read_layers (length ws) (concat (map pair_entries types)) (map wlayer_text ws ++ rest) = Ok (ls, rest).
Proof.
  intros N. induction 1 as [|w l ws ls (p & I & St & Em & Ed) H IH]; [reflexivity|]. cbn [length map app read_layers].
  unfold read_layer. destruct (layer_parsed _ _ _ _ _ (map wlayer_text ws ++ rest) St) as (i & g & d & ->). cbn [bind fst snd].
  destruct (curve_of_type types (sl_soil l) p N I) as [-> ->]. cbn [bind fst snd]. rewrite IH. cbn [bind fst snd].
  rewrite <- Em, <- Ed. now destruct l.
Qed.
Lemma head_read h wt n rest : profile_head h wt n -> exists k t,
  parse_fixed_width [(5%nat, p_int); (5%nat, p_int); (5%nat, p_int); (55%nat, p_str)] (h :: rest) = Ok ([FInt wt; FInt n; FInt k; FText t], rest).
Proof.
  intros (a & b & c & nm & title & k & -> & (La & Lb & Lc & Ln) & Na & Nb & Nc & Nn & Pn). exists k, title.
  pose proof (fixed_width_read [[mkF 5 p_int a; mkF 5 p_int b; mkF 5 p_int c; mkF 55 p_str nm]] rest) as P.
  etransitivity; [|etransitivity; [apply P|]].
  - cbn [concat app map]. f_equal. f_equal. unfold line_text. cbn [map concat f_text]. rewrite app_nil_r, <- !app_assoc. reflexivity.
  - constructor; [|constructor]. cbn [line_of f_text f_width].
    repeat match goal with |- _ /\ _ => split end; eauto using len_ne, right_number_no_nl. exact (name_ne _ _ Pn).
  - cbn [concat app read_all f_read f_text]. unfold p_int, p_str.
    rewrite (right_number_int _ _ Na), (right_number_int _ _ Nb), (right_number_int _ _ Nc), (name_read _ _ Pn). reflexivity.
Qed.

Lemma tops_length ls : forall d, length (tops d ls) = length ls.
Proof. induction ls as [|l ls IH]; intros d; cbn; [reflexivity|]. now rewrite IH. Qed.
Lemma tops_at k : forall ls d x, top_depth k ls d -> nth_error (tops (Some x) ls) k = Some (Some (x + d)).
Proof.
  induction k as [|k IH]; intros [|l ls] d x H; cbn [top_depth] in H; try contradiction; cbn [tops nth_error].
  - now rewrite H, Rplus_0_r.
  - destruct H as (t & d' & Et & H & ->). rewrite Et. cbn [opt_bind]. rewrite (IH ls d' (x + t) H). do 2 f_equal. ring.
Qed.

Theorem profile_read units types h ws ls rest wt d : text_eqb units english = false -> NoDup (map fst types) ->
  profile_head h wt (Z.of_nat (length ws)) -> Forall2 (layer_from types) ws ls ->
  (1 <= wt)%Z -> top_depth (Z.to_nat (wt - 1)) ls d ->
  parse_profile units (concat (map pair_entries types)) (h :: map wlayer_text ws ++ rest) = Ok (mkSP ls (Some d)).
Proof.
  intros U N H F W T. unfold parse_profile. destruct (head_read _ _ _ (map wlayer_text ws ++ rest) H) as (k & t & ->). cbn [bind fst snd].
  rewrite Nat2Z.id, (layers_read types ws ls rest N F). cbn [bind fst snd]. rewrite U. cbn [andb].
  pose proof (tops_at _ _ _ 0 T) as E. assert (B : (Z.to_nat (wt - 1) < length ls)%nat).
  { rewrite <- (tops_length ls (Some 0)). apply nth_error_Some. congruence. }
  unfold py_get, py_index. rewrite tops_length.
  replace (wt - 1 <? 0)%Z with false by (symmetry; apply Z.ltb_ge; lia). cbv zeta iota.
  replace (wt - 1 <? 0)%Z with false by (symmetry; apply Z.ltb_ge; lia).
  replace (wt - 1 <? Z.of_nat (length ls))%Z with true by (symmetry; apply Z.ltb_lt; lia). cbn [opt_bind].
  rewrite E, Rplus_0_l. reflexivity.
Qed.
(** Layer number zero is the last layer, and numbers above the number of layers fail. *)
Theorem profile_table units types h ws ls rest wt : text_eqb units english = false -> NoDup (map fst types) ->
  profile_head h wt (Z.of_nat (length ws)) -> Forall2 (layer_from types) ws ls ->
  (wt = 0%Z -> forall d, top_depth (length ls - 1) ls d ->
     parse_profile units (concat (map pair_entries types)) (h :: map wlayer_text ws ++ rest) = Ok (mkSP ls (Some d))) /\
  ((Z.of_nat (length ls) < wt)%Z ->
     parse_profile units (concat (map pair_entries types)) (h :: map wlayer_text ws ++ rest) = Err IndexError).
Proof.
  intros U N H F. unfold parse_profile. destruct (head_read _ _ _ (map wlayer_text ws ++ rest) H) as (k & t & ->). cbn [bind fst snd].
  rewrite Nat2Z.id, (layers_read types ws ls rest N F). cbn [bind fst snd]. rewrite U. cbn [andb].
  unfold py_get, py_index. rewrite tops_length. split.
  - intros -> d T. pose proof (tops_at _ _ _ 0 T) as E. assert (B : (length ls - 1 < length ls)%nat).
    { rewrite <- (tops_length ls (Some 0)) at 2. apply nth_error_Some. congruence. }
    change (0 - 1 <? 0)%Z with true. cbv zeta iota.
    replace (0 - 1 + Z.of_nat (length ls) <? 0)%Z with false by (symmetry; apply Z.ltb_ge; lia).
    replace (0 - 1 + Z.of_nat (length ls) <? Z.of_nat (length ls))%Z with true by (symmetry; apply Z.ltb_lt; lia). cbn [opt_bind].
    replace (Z.to_nat (0 - 1 + Z.of_nat (length ls))) with (length ls - 1)%nat by lia. rewrite E, Rplus_0_l. reflexivity.
  - intros W. replace (wt - 1 <? 0)%Z with false by (symmetry; apply Z.ltb_ge; lia). cbv zeta iota.
    replace (wt - 1 <? 0)%Z with false by (symmetry; apply Z.ltb_ge; lia).
    replace (wt - 1 <? Z.of_nat (length ls))%Z with false by (symmetry; apply Z.ltb_ge; lia). reflexivity.
Qed.
(** A soil type number without curves. *)
Theorem profile_unknown units types h w ws n t u v rest wt : profile_head h wt (Z.of_nat (length (w :: ws))) ->
  states w n t u v -> ~ In n (map fst types) ->
  parse_profile units (concat (map pair_entries types)) (h :: map wlayer_text (w :: ws) ++ rest) = Err KeyError.
Proof.
  intros H St N. unfold parse_profile. destruct (head_read _ _ _ (map wlayer_text (w :: ws) ++ rest) H) as (k & t' & ->). cbn [bind fst snd].
  rewrite Nat2Z.id. cbn [length map app read_layers]. unfold read_layer.
  destruct (layer_parsed _ _ _ _ _ (map wlayer_text ws ++ rest) St) as (i & g & d & ->). cbn [bind fst snd]. rewrite curve_of_unknown by exact N. reflexivity.
Qed.
(** If the units were recognised the conversion would fail. *)
Theorem profile_english types h ws ls rest wt : NoDup (map fst types) ->
  profile_head h wt (Z.of_nat (length ws)) -> Forall2 (layer_from types) ws ls -> ws <> [] ->
  parse_profile english (concat (map pair_entries types)) (h :: map wlayer_text ws ++ rest) = Err AttributeError.
Proof.
  intros N H F Nw. unfold parse_profile. destruct (head_read _ _ _ (map wlayer_text ws ++ rest) H) as (k & t & ->). cbn [bind fst snd].
  rewrite Nat2Z.id, (layers_read types ws ls rest N F). cbn [bind fst snd].
  destruct F as [|w l ws ls H0 F]; [congruence|]. cbn [length Nat.eqb negb].
  unfold text_eqb. destruct (list_eq_dec _ _ _); [reflexivity|congruence].
Qed.
(** Curves and profile of a file, whatever its units line and its last block say. *)
Theorem file_read read_motion title units bc bp bl ts ps h ws ls wt d :
  lined (title :: units :: concat (map block_lines [bc; bp; bl])) -> block_ok bc -> block_ok bp -> block_ok bl ->
  bl_option bc = 1%Z -> bl_option bp = 2%Z ->
  parse_curves (bl_first bc :: bl_rest bc) = Ok (concat (map pair_entries (combine ts ps))) ->
  length ts = length ps -> NoDup ts ->
  bl_first bp :: bl_rest bp = h :: map wlayer_text ws ->
  profile_head h wt (Z.of_nat (length ws)) -> Forall2 (layer_from (combine ts ps)) ws ls ->
  (1 <= wt)%Z -> top_depth (Z.to_nat (wt - 1)) ls d ->
  load_shake_inp read_motion (concat (title :: units :: concat (map block_lines [bc; bp; bl]))) =
  Ok (mkIn (Some (concat (map pair_entries (combine ts ps)))) (Some (mkSP ls (Some d))) None).
Proof.
  intros L H1 H2 H3 O1 O2 C Lt N Eb Hh F W T. rewrite load_all_but_last; [|exact L|now repeat (constructor; [assumption|])].
  cbn [removelast map parse_options]. unfold block_entry at 1 2. unfold parse_option at 1. cbn [fst snd]. rewrite O1, C. cbn [bind parse_options].
  unfold parse_option. cbn [fst snd in_curves in_profile in_motion]. rewrite O2, Eb.
  assert (Hu : text_eqb units english = false).
  { assert (U : exists s, no_nl s /\ units = s ++ [nl]) by (inversion L as [|? ? ? L']; inversion L'; assumption).
    destruct U as (s & _ & ->). apply english_no_nl. }
  assert (M : map fst (combine ts ps) = ts).
  { clear -Lt. revert ps Lt. induction ts as [|t ts IH]; intros [|p ps] Lt; try discriminate; [reflexivity|]. cbn [combine map fst]. now rewrite IH by (cbn in Lt; lia). }
  pose proof (profile_read units (combine ts ps) h ws ls [] wt d Hu) as P. rewrite M, app_nil_r in P.
  rewrite P by assumption. reflexivity.
Qed.
