(** Numbers are read as the numbers they denote. *)
From Coq Require Import Ascii.
From Verif Require Import Common Model.Tools Model.Text Spec.TextSpec Spec.NumberSpec Proof.CommonFacts Proof.TextProps.
Local Open Scope R_scope.

Lemma digits_val_whole ds : digits ds -> forall acc, digits_val acc (digits_text ds) = Some (acc * 10 ^ Z.of_nat (length ds) + whole_value ds)%Z.
Proof.
  induction 1 as [|d r H0 H IH]; intros acc; cbn [digits_text map digits_val whole_value length]; [f_equal; cbn; ring|].
  rewrite digit_of_char by assumption. fold (digits_text r). rewrite IH. f_equal.
  rewrite Nat2Z.inj_succ, Z.pow_succ_r by lia. ring.
Qed.
Lemma digits_text_app a b : digits_text (a ++ b) = digits_text a ++ digits_text b. Proof. apply map_app. Qed.
Lemma nat_text_whole ds : digits ds -> ds <> [] -> nat_text (digits_text ds) = Some (whole_value ds).
Proof.
  intros H N. unfold nat_text. destruct (digits_text ds) eqn:E; [destruct ds; [congruence|discriminate]|].
  rewrite <- E, digits_val_whole by assumption. reflexivity.
Qed.
Lemma whole_app a b : whole_value (a ++ b) = (whole_value a * 10 ^ Z.of_nat (length b) + whole_value b)%Z.
Proof.
  induction a as [|d a IH]; cbn [app whole_value]; [ring|]. rewrite IH, app_length, Nat2Z.inj_add, Z.pow_add_r by lia. ring.
Qed.
Lemma powerRZ_10_nat n : powerRZ 10 (Z.of_nat n) = IZR (10 ^ Z.of_nat n).
Proof. rewrite <- pow_powerRZ, pow_IZR. reflexivity. Qed.
Lemma frac_whole ds : frac_value ds * powerRZ 10 (Z.of_nat (length ds)) = IZR (whole_value ds).
Proof.
  induction ds as [|d r IH]; cbn [frac_value whole_value length]; [apply Rmult_0_l|].
  rewrite plus_IZR, mult_IZR, <- IH, <- powerRZ_10_nat, <- INR_IZR_INZ, Nat2Z.inj_succ.
  unfold Z.succ. rewrite powerRZ_add by lra. rewrite powerRZ_1. field.
Qed.
Lemma span_digits_text ds t : digits ds -> match t with [] => True | c :: _ => digit_of c = None end ->
  span_digits (digits_text ds ++ t) = (digits_text ds, t).
Proof.
  intros H Ht. induction H as [|d r H0 H IH]; cbn [digits_text map app].
  - destruct t as [|c t]; [reflexivity|]. cbn [span_digits]. now rewrite Ht.
  - cbn [span_digits]. rewrite digit_of_char by assumption. fold (digits_text r). now rewrite IH.
Qed.
Lemma signed_text s t : match t with [] => True | c :: _ => c <> "-"%char /\ c <> "+"%char end ->
  signed (sign_text s ++ t) = (match s with Minus => true | _ => false end, t).
Proof.
  intros H. destruct s; cbn [sign_text app]; [|reflexivity|reflexivity]. destruct t as [|c t]; [reflexivity|]. cbn [signed].
  destruct (Ascii.eqb_spec c "-"); [tauto|]. destruct (Ascii.eqb_spec c "+"); [tauto|]. reflexivity.
Qed.
Lemma digit_not_sign d : (d < 10)%nat -> ascii_of_nat (48 + d) <> "-"%char /\ ascii_of_nat (48 + d) <> "+"%char.
Proof. intros H. do 10 (destruct d as [|d]; [split; discriminate|]). lia. Qed.
Lemma digits_head ds t : digits ds -> ds <> [] ->
  match digits_text ds ++ t with [] => True | c :: _ => c <> "-"%char /\ c <> "+"%char end.
Proof. intros [|d r H0 H] N; [congruence|]. cbn. now apply digit_not_sign. Qed.

Lemma exponent_text e : match e with None => True | Some (_, _, ds) => digits ds /\ ds <> [] end ->
  exponent (match e with None => [] | Some (l, s, ds) => letter_text l :: sign_text s ++ digits_text ds end) =
  Some (match e with None => 0%Z | Some (_, s, ds) => (sign_value s * whole_value ds)%Z end).
Proof.
  destruct e as [[[l s] ds]|]; [|reflexivity]. intros [H N]. cbn [exponent].
  replace (Ascii.eqb (letter_text l) "e" || Ascii.eqb (letter_text l) "E")%bool with true by (destruct l; reflexivity).
  rewrite signed_text by (rewrite <- (app_nil_r (digits_text ds)); now apply digits_head).
  rewrite nat_text_whole by assumption. f_equal. destruct s; cbn [sign_value]; ring.
Qed.

(** First and last characters are not white space. *)
Lemma solid_digits ds t : digits ds -> ds <> [] -> solid (digits_text ds ++ t).
Proof. intros [|d r H0 H] N; [congruence|]. cbn. now apply digit_not_space. Qed.
Lemma solid_digits_rev ds t : digits ds -> ds <> [] -> solid (rev (t ++ digits_text ds)).
Proof.
  intros H N. destruct (exists_last N) as (r & d & ->). apply Forall_app in H as [_ H]. inversion H as [|? ? Hd _]; subst.
  rewrite digits_text_app, app_assoc. cbn [digits_text map]. rewrite rev_app_distr. cbn. now apply digit_not_space.
Qed.
Lemma number_solid n : number_ok n -> solid (number_text n) /\ solid (rev (number_text n)).
Proof.
  destruct n as [s w f e]. unfold number_ok, number_text, frac_digits. cbn [nu_sign nu_whole nu_frac nu_exp]. intros (Hw & Hf & N & He). split.
  - destruct s; cbn [sign_text app]; try reflexivity. destruct w as [|d w]; [|now apply solid_digits].
    destruct f as [ds|]; [reflexivity|]. destruct N; congruence.
  - rewrite !app_assoc. destruct e as [[[l s'] ds]|].
    + destruct He as [He Ne]. replace (letter_text l :: sign_text s' ++ digits_text ds) with ((letter_text l :: sign_text s') ++ digits_text ds) by reflexivity.
      rewrite app_assoc. now apply solid_digits_rev.
    + rewrite app_nil_r. destruct f as [[|d ds]|].
      * rewrite rev_app_distr. reflexivity.
      * replace ("."%char :: digits_text (d :: ds)) with (["."%char] ++ digits_text (d :: ds)) by reflexivity. rewrite app_assoc.
        apply solid_digits_rev; [exact Hf|discriminate].
      * rewrite app_nil_r. apply solid_digits_rev; [exact Hw|]. destruct N; congruence.
Qed.

Lemma exp_head (e : option (letter * sign * list nat)) :
  match match e with None => [] | Some (l, s, ds) => letter_text l :: sign_text s ++ digits_text ds end with
  | [] => True | c :: _ => digit_of c = None /\ c <> "."%char end.
Proof. destruct e as [[[l s] ds]|]; [|exact I]. destruct l; split; reflexivity || discriminate. Qed.

Lemma whiteb_space c : whiteb c = is_space c.
Proof. destruct c as [[] [] [] [] [] [] [] []]; reflexivity. Qed.
Lemma white_space a : Forall white a -> Forall (fun c => is_space c = true) a.
Proof.
  intros H. eapply Forall_impl; [|exact H]. intros c. unfold white, is_space. intros Hc. apply Bool.orb_true_iff.
  destruct Hc as [[A B]|[A B]]; [left|right]; apply andb_true_intro; split; now apply Nat.leb_le.
Qed.
Lemma words_white first ws : words_ok whiteb first ws -> words_ok is_space first ws.
Proof.
  revert first. induction ws as [|[s w] r IH]; intros first; cbn [words_ok]; [auto|]. intros (H1 & H2 & H3 & H4 & H5). repeat split; auto.
  - eapply Forall_impl; [|exact H2]. intros c Hc. now rewrite <- whiteb_space.
  - eapply Forall_impl; [|exact H4]. intros c Hc. now rewrite <- whiteb_space.
Qed.

Theorem float_read a b n : Forall white a -> Forall white b -> number_ok n ->
  py_float (a ++ number_text n ++ b) = Ok (number_value n).
Proof.
  intros Ha%white_space Hb%white_space Hn. destruct (number_solid n Hn) as [S1 S2]. unfold py_float. rewrite strip_padded by assumption. clear S1 S2 Ha Hb a b.
  destruct n as [s w f e]. unfold number_ok, number_text, number_value, exp_value, frac_digits in *. cbn [nu_sign nu_whole nu_frac nu_exp] in *.
  destruct Hn as (Hw & Hf & N & He). pose proof (exp_head e) as HE. pose proof (exponent_text e He) as HX.
  set (et := match e with None => [] | Some (l, s', ds) => letter_text l :: sign_text s' ++ digits_text ds end) in *.
  set (ev := match e with None => 0%Z | Some (_, s', ds) => (sign_value s' * whole_value ds)%Z end) in *.
  change (exponent et = Some ev) in HX. change (match et with [] => True | c :: _ => digit_of c = None /\ c <> "."%char end) in HE.
  set (ft := match f with None => [] | Some ds => "."%char :: digits_text ds end).
  set (fd := match f with Some ds => ds | None => [] end) in *.
  rewrite signed_text.
  2:{ destruct w as [|d w]; [|now apply digits_head]. cbn [digits_text map app]. unfold ft, fd in *. destruct f; [split; discriminate|]. destruct N; congruence. }
  rewrite span_digits_text; [|assumption|].
  2:{ unfold ft. destruct f; [reflexivity|]. cbn [app]. destruct et; [exact I|apply HE]. }
  lazymatch goal with |- (let (_, _) := ?m in _) = _ => assert (F : m = (digits_text fd, et)) end.
  { unfold ft, fd in *. destruct f as [ds|]; cbn [app].
    - change (Ascii.eqb "." ".") with true. cbn iota. apply span_digits_text; [assumption|]. destruct et; [exact I|apply HE].
    - destruct et as [|c et']; [reflexivity|]. destruct HE as [_ HE]. destruct (Ascii.eqb_spec c "."); [congruence|reflexivity]. }
  rewrite F. rewrite <- digits_text_app, nat_text_whole.
  2:{ now apply Forall_app. } 2:{ destruct N as [N|N]; [destruct w; [congruence|discriminate]|]. intros E. apply app_eq_nil in E. tauto. }
  rewrite HX. f_equal. unfold digits_text at 1 2. rewrite map_length.
  assert (V : IZR (whole_value (w ++ fd)) * powerRZ 10 (ev - Z.of_nat (length fd)) = (IZR (whole_value w) + frac_value fd) * powerRZ 10 ev).
  { rewrite whole_app, plus_IZR, mult_IZR, <- powerRZ_10_nat, <- (frac_whole fd). unfold Z.sub. rewrite powerRZ_add by lra.
    assert (G : powerRZ 10 (Z.of_nat (length fd)) * powerRZ 10 (- Z.of_nat (length fd)) = 1) by (rewrite <- powerRZ_add, Z.add_opp_diag_r by lra; reflexivity).
    transitivity ((IZR (whole_value w) + frac_value fd) * powerRZ 10 ev * (powerRZ 10 (Z.of_nat (length fd)) * powerRZ 10 (- Z.of_nat (length fd)))); [ring|rewrite G; ring]. }
  rewrite V. destruct s; cbn [sign_value]; ring.
Qed.

Theorem signed_int_read a b s ds : Forall white a -> Forall white b -> digits ds -> ds <> [] ->
  py_int (a ++ (sign_text s ++ digits_text ds) ++ b) = Ok (sign_value s * whole_value ds)%Z.
Proof.
  intros Ha%white_space Hb%white_space H N. unfold py_int. rewrite strip_padded; [|assumption|assumption| |].
  - rewrite signed_text by (rewrite <- (app_nil_r (digits_text ds)); now apply digits_head). rewrite nat_text_whole by assumption. f_equal. destruct s; cbn [sign_value]; ring.
  - destruct s; cbn [sign_text app]; try reflexivity. rewrite <- (app_nil_r (digits_text ds)). now apply solid_digits.
  - now apply solid_digits_rev.
Qed.
(** A point or an exponent makes a text that [int] rejects. *)
Theorem int_rejects a b n : Forall white a -> Forall white b -> number_ok n ->
  (nu_frac n <> None \/ nu_exp n <> None) -> py_int (a ++ number_text n ++ b) = Err ValueError.
Proof.
  intros Ha%white_space Hb%white_space Hn HP. destruct (number_solid n Hn) as [S1 S2]. unfold py_int. rewrite strip_padded by assumption. clear S1 S2 Ha Hb a b.
  destruct n as [s w f e]. unfold number_ok, number_text, frac_digits in *. cbn [nu_sign nu_whole nu_frac nu_exp] in *.
  destruct Hn as (Hw & Hf & N & He).
  rewrite signed_text.
  2:{ destruct w as [|d w]; [|now apply digits_head]. cbn [digits_text map app]. destruct f; [split; discriminate|]. destruct N; congruence. }
  assert (B : forall c t acc, digit_of c = None -> digits_val acc (digits_text w ++ c :: t) = None).
  { intros c t acc Hc. rewrite digits_val_app, digits_val_whole by assumption. cbn [digits_val]. now rewrite Hc. }
  assert (B' : forall c t, digit_of c = None -> nat_text (digits_text w ++ c :: t) = None).
  { intros c t Hc. unfold nat_text. rewrite (B c t 0%Z Hc). now destruct (digits_text w ++ c :: t). }
  destruct f as [ds|]; cbn [app]; [now rewrite B'|]. destruct e as [[[l s'] ds]|]; [|destruct HP; congruence].
  rewrite B'; [reflexivity|]. destruct l; reflexivity.
Qed.
Theorem float_error t e : py_float t = Err e -> e = ValueError.
Proof.
  unfold py_float. destruct (signed (strip t)) as [neg r]. destruct (span_digits r) as [w r1].
  destruct (match r1 with c :: r' => if Ascii.eqb c "." then span_digits r' else ([], r1) | [] => ([], []) end) as [f r2].
  destruct (nat_text (w ++ f)); [|congruence]. destruct (exponent r2); [discriminate|congruence].
Qed.
Theorem int_error t e : py_int t = Err e -> e = ValueError.
Proof. unfold py_int. destruct (signed (strip t)) as [neg r]. destruct (nat_text r); congruence. Qed.

Lemma writes_read w x : writes w x -> py_float w = Ok x.
Proof.
  intros (n & H & -> & ->). pose proof (float_read [] [] n ltac:(constructor) ltac:(constructor) H) as E. cbn [app] in E. now rewrite app_nil_r in E.
Qed.
Lemma writes_all ws xs : Forall2 writes ws xs -> map_res py_float ws = Ok xs.
Proof. induction 1 as [|w x ws xs H0 H IH]; cbn [map_res]; [reflexivity|]. rewrite (writes_read w x H0). cbn [bind]. now rewrite IH. Qed.

(** A file in the AT2 layout whose words are numbers. *)
Theorem at2_numbers h1 h2 h3 w1 w2 more trail (body : list (list (text * text) * text)) dt scale vs :
  no_nl h1 -> no_nl h2 -> no_nl h3 -> words_ok whiteb true (w1 :: w2 :: more) -> Forall (fun c => whiteb c = true) trail ->
  no_nl (spaced (w1 :: w2 :: more) trail) -> writes (snd w2) dt ->
  Forall (fun l => words_ok whiteb true (fst l) /\ Forall (fun c => whiteb c = true) (snd l) /\ no_nl (spaced (fst l) (snd l))) body ->
  Forall2 writes (concat (map (fun l => map snd (fst l)) body)) vs ->
  load_at2 (concat (map (fun l => l ++ [nl]) ([h1; h2; h3; spaced (w1 :: w2 :: more) trail] ++ map (fun l => spaced (fst l) (snd l)) body))) scale =
  Ok (dt, map (fun a => a * scale) vs).
Proof. 
  intros H1 H2 H3 H4 H5 H6 H7 H8 H9. apply at2_read; auto using writes_read, writes_all, words_white.
  - eapply Forall_impl; [|exact H5]. intros c Hc. now rewrite <- whiteb_space.
  - eapply Forall_impl; [|exact H8]. intros l (A & B & D). split; [now apply words_white|]. split; [|exact D].
    eapply Forall_impl; [|exact B]. intros c Hc. now rewrite <- whiteb_space.
 Qed.

(** Fields of numbers, padded on either side. *)
Lemma fields_read (fs : list (wfield R)) xs :
  Forall2 (fun f x => f_read f = py_float /\ exists a w b, blanks a /\ blanks b /\ writes w x /\ f_text f = a ++ w ++ b) fs xs -> read_all fs = Ok xs.
Proof.
  assert (B : forall s, blanks s -> Forall white s) by (intros s H; eapply Forall_impl; [|exact H]; intros c ->; right; cbn; lia).
  induction 1 as [|f x fs xs (Er & a & w & b & Ha & Hb & (n & Hn & -> & ->) & Et) H IH]; cbn [read_all]; [reflexivity|].
  rewrite Er, Et, float_read by auto. now rewrite IH.
Qed.
