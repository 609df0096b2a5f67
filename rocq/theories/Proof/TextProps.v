(** Property C54: fixed-width files, and the readers built on them. *)
From Coq Require Import Ascii.
From Verif Require Import Common Model.Tools Model.Text Spec.TextSpec Spec.FileSpec Proof.CommonFacts.
Local Open Scope R_scope.

Lemma drop_newlines_none s : no_nl s -> drop_newlines s = s.
Proof.
  induction s as [|c s IH]; intros H; [reflexivity|]. unfold drop_newlines in *. cbn [filter].
  destruct (Ascii.eqb_spec c newline) as [->|N]; [exfalso; apply H; now left|]. cbn. f_equal. apply IH. intros I. apply H. now right.
Qed.
Lemma drop_newlines_app a b : drop_newlines (a ++ b) = drop_newlines a ++ drop_newlines b.
Proof. unfold drop_newlines. apply filter_app. Qed.
Lemma line_no_nl {A} (fs : list (wfield A)) : line_of fs -> no_nl (concat (map f_text fs)).
Proof.
  induction fs as [|f fs IH]; [intros []|]. intros H I. cbn [map concat] in I. apply in_app_or in I.
  destruct fs as [|g fs].
  - destruct H as (_ & _ & H). destruct I as [I|[]]. now apply H.
  - destruct H as (_ & _ & H & R). destruct I as [I|I]; [now apply H|]. now apply (IH R).
Qed.

(** Inside a line. *)
Lemma fixed_width_line {A} (fs more : list (wfield A)) lines : line_of fs ->
  fixed_width (map to_type (fs ++ more)) (concat (map f_text fs)) lines =
  bind (read_all fs) (fun vs => bind (fixed_width (map to_type more) [] lines) (fun vr => Ok (vs ++ fst vr, snd vr))).
Proof.
  induction fs as [|f fs IH]; [intros []|]. intros H.
  destruct fs as [|g fs].
  - destruct H as (N & L & _). cbn [app map concat fixed_width to_type]. rewrite app_nil_r.
    destruct (f_text f) as [|c t] eqn:E; [congruence|]. cbn [bind fst snd]. rewrite <- E in *.
    rewrite firstn_all2, skipn_all2 by exact L. cbn [read_all]. destruct (f_read f (f_text f)) as [v|]; [|reflexivity]. cbn [bind].
    destruct (fixed_width (map to_type more) [] lines) as [[vs r]|]; reflexivity.
  - destruct H as (N & L & _ & R). specialize (IH R).
    change ((f :: g :: fs) ++ more) with (f :: (g :: fs) ++ more). change (map f_text (f :: g :: fs)) with (f_text f :: map f_text (g :: fs)).
    cbn [concat]. set (tail := concat (map f_text (g :: fs))) in *.
    cbn [map fixed_width to_type]. fold (map (@to_type A) ((g :: fs) ++ more)).
    assert (E : f_text f ++ tail <> []) by (destruct (f_text f); [congruence|discriminate]).
    destruct (f_text f ++ tail) as [|c t] eqn:Q; [congruence|]. cbn [bind fst snd]. rewrite <- Q.
    rewrite <- L at 1. rewrite firstn_app, Nat.sub_diag, firstn_all. cbn [firstn]. rewrite app_nil_r.
    change (read_all (f :: g :: fs)) with (match f_read f (f_text f) with Err e => Err e | Ok v => match read_all (g :: fs) with Err e => Err e | Ok vs => Ok (v :: vs) end end).
    destruct (f_read f (f_text f)) as [v|]; [|reflexivity]. cbn [bind].
    replace (skipn (f_width f) (f_text f ++ tail)) with tail by (rewrite <- L, skipn_app, Nat.sub_diag, skipn_all; reflexivity).
    change (fixed_width (to_type g :: map to_type (fs ++ more)) tail lines) with (fixed_width (map to_type ((g :: fs) ++ more)) tail lines). rewrite IH.
    destruct (read_all (g :: fs)) as [vs|]; [|reflexivity]. cbn [bind].
    destruct (fixed_width (map to_type more) [] lines) as [[ws r]|]; reflexivity.
Qed.
Lemma read_all_app {A} (a b : list (wfield A)) : read_all (a ++ b) = bind (read_all a) (fun x => bind (read_all b) (fun y => Ok (x ++ y))).
Proof.
  induction a as [|f a IH]; cbn [app read_all].
  - cbn [bind]. destruct (read_all b); reflexivity.
  - destruct (f_read f (f_text f)); [|reflexivity]. rewrite IH. destruct (read_all a); [|reflexivity]. cbn [bind]. destruct (read_all b); reflexivity.
Qed.

(** Taking up a line. *)
Lemma fixed_width_pop {A} (g x : list (wfield A)) lines : line_of g ->
  fixed_width (map to_type (g ++ x)) [] (line_text g :: lines) = fixed_width (map to_type (g ++ x)) (concat (map f_text g)) lines.
Proof.
  intros L. assert (D : drop_newlines (line_text g) = concat (map f_text g)).
  { unfold line_text. rewrite drop_newlines_app, (drop_newlines_none (concat _)) by now apply line_no_nl. cbn. now rewrite app_nil_r. }
  assert (N : concat (map f_text g) <> []).
  { destruct g as [|f g]; [destruct L|]. intros Q. cbn [map concat] in Q. apply app_eq_nil in Q as [Q _]. destruct g; destruct L as [N _]; congruence. }
  destruct g as [|f g]; [destruct L|]. change ((f :: g) ++ x) with (f :: g ++ x). cbn [map]. fold (map (@to_type A) (g ++ x)).
  change (map f_text (f :: g)) with (f_text f :: map f_text g) in *. generalize dependent (concat (f_text f :: map f_text g)). intros t D N.
  unfold to_type at 1 3. cbn [fixed_width]. rewrite D. destruct t; [congruence|]. reflexivity.
Qed.

(** C54: any division into lines. *)
Theorem fixed_width_read {A} (groups : list (list (wfield A))) rest : Forall line_of groups ->
  parse_fixed_width (map to_type (concat groups)) (map line_text groups ++ rest) =
  bind (read_all (concat groups)) (fun vs => Ok (vs, rest)).
Proof.
  unfold parse_fixed_width. induction groups as [|g gs IH]; intros F; [reflexivity|].
  pose proof (Forall_inv F) as L. apply Forall_inv_tail in F. specialize (IH F).
  cbn [concat map app].
  rewrite fixed_width_pop, fixed_width_line by exact L. rewrite IH, read_all_app.
  destruct (read_all g) as [vs|]; [|reflexivity]. cbn [bind]. destruct (read_all (concat gs)); reflexivity.
Qed.
(** With too few lines the reader fails. *)
Theorem fixed_width_short {A} (groups : list (list (wfield A))) f more : Forall line_of groups -> (exists vs, read_all (concat groups) = Ok vs) ->
  parse_fixed_width (map to_type (concat groups ++ f :: more)) (map line_text groups) = Err IndexError.
Proof.
  unfold parse_fixed_width. induction groups as [|g gs IH]; intros F (vs & V).
  - cbn. reflexivity.
  - pose proof (Forall_inv F) as L. apply Forall_inv_tail in F. cbn [concat] in *. rewrite read_all_app in V.
    destruct (read_all g) as [v1|] eqn:V1; [|discriminate]. cbn [bind] in V. destruct (read_all (concat gs)) as [v2|] eqn:V2; [|discriminate].
    specialize (IH F (ex_intro _ v2 eq_refl)).
    cbn [map]. rewrite <- app_assoc.
    rewrite fixed_width_pop, fixed_width_line by exact L. rewrite V1. cbn [bind]. rewrite IH. reflexivity.
Qed.

(** A field that is missing at the end of a line is read from the next line. *)
Theorem fixed_width_missing {A} (g : list (wfield A)) f next rest : line_of g -> drop_newlines next <> [] ->
  parse_fixed_width (map to_type (g ++ [f])) (line_text g :: next :: rest) =
  bind (read_all g) (fun vs => bind (f_read f (firstn (f_width f) (drop_newlines next))) (fun v => Ok (vs ++ [v], rest))).
Proof.
  intros L N. unfold parse_fixed_width. rewrite fixed_width_pop, fixed_width_line by exact L.
  destruct (read_all g) as [vs|]; [|reflexivity]. cbn [bind map fixed_width to_type].
  unfold to_type. cbn [bind fst snd]. destruct (f_read f _); reflexivity.
Qed.

(** ** Lines and words *)

Lemma readlines_line l s : no_nl l -> readlines ((l ++ [nl]) ++ s) = (l ++ [nl]) :: readlines s.
Proof.
  induction l as [|c l IH]; intros H; [reflexivity|]. cbn [app readlines].
  destruct (Ascii.eqb_spec c newline) as [->|N]; [exfalso; apply H; now left|].
  assert (H' : no_nl l) by (intros I; apply H; now right). specialize (IH H'). rewrite IH. reflexivity.
Qed.
Lemma readlines_lines ls : Forall no_nl ls -> forall s, readlines (concat (map (fun l => l ++ [nl]) ls) ++ s) = map (fun l => l ++ [nl]) ls ++ readlines s.
Proof.
  induction 1 as [|l ls H _ IH]; intros s; [reflexivity|]. cbn [map concat]. rewrite <- app_assoc, readlines_line by exact H. now rewrite IH.
Qed.

Lemma pieces_sep sep s t : Forall (fun c => sep c = true) s -> pieces sep (s ++ t) = pieces sep t.
Proof. induction 1 as [|c s H _ IH]; [reflexivity|]. cbn [app pieces]. now rewrite H. Qed.
Lemma pieces_word sep w t : w <> [] -> Forall (fun c => sep c = false) w -> match t with [] => True | c :: _ => sep c = true end ->
  pieces sep (w ++ t) = w :: pieces sep t.
Proof.
  intros N F T. induction F as [|c w H F IH]; [congruence|]. destruct w as [|c' w].
  - cbn [app]. destruct t as [|d t]; cbn [pieces]; rewrite H; [reflexivity|]. now rewrite T.
  - specialize (IH ltac:(discriminate)). change ((c :: c' :: w) ++ t) with (c :: (c' :: w) ++ t).
    change ((c' :: w) ++ t) with (c' :: w ++ t) in *. pose proof (Forall_inv F) as Hc'. cbn beta in Hc'.
    change (pieces sep (c :: c' :: w ++ t)) with (if sep c then pieces sep (c' :: w ++ t) else if sep c' then [c] :: pieces sep (c' :: w ++ t) else match pieces sep (c' :: w ++ t) with [] => [[c]] | p :: ps => (c :: p) :: ps end).
    rewrite H, Hc', IH. reflexivity.
Qed.
Lemma pieces_spaced sep ws trail : forall first, words_ok sep first ws -> Forall (fun c => sep c = true) trail ->
  pieces sep (spaced ws trail) = map snd ws.
Proof.
  unfold spaced. induction ws as [|[s w] ws IH]; intros first H T; cbn [map concat fst snd].
  - cbn [app]. rewrite <- (app_nil_r trail). now rewrite pieces_sep.
  - destruct H as (_ & Hs & Nw & Hw & R). rewrite <- !app_assoc, pieces_sep by exact Hs. rewrite pieces_word; [|exact Nw|exact Hw|].
    + f_equal. exact (IH false R T).
    + destruct ws as [|[s' w'] ws]; cbn [map concat fst snd app].
      * destruct T; auto.
      * destruct R as (Ns & Hs' & _). destruct s' as [|c s']; [now specialize (Ns eq_refl)|]. cbn [app]. now inversion Hs'.
Qed.
Lemma newline_space : is_space nl = true. Proof. reflexivity. Qed.

(** ** AT2 files *)

(** The numbers are read in order, however they are divided into lines. *)
Theorem at2_read h1 h2 h3 w1 w2 more trail (body : list (list (text * text) * text)) dt scale vs :
  no_nl h1 -> no_nl h2 -> no_nl h3 -> words_ok is_space true (w1 :: w2 :: more) -> Forall (fun c => is_space c = true) trail ->
  no_nl (spaced (w1 :: w2 :: more) trail) -> py_float (snd w2) = Ok dt ->
  Forall (fun l => words_ok is_space true (fst l) /\ Forall (fun c => is_space c = true) (snd l) /\ no_nl (spaced (fst l) (snd l))) body ->
  map_res py_float (concat (map (fun l => map snd (fst l)) body)) = Ok vs ->
  load_at2 (concat (map (fun l => l ++ [nl]) ([h1; h2; h3; spaced (w1 :: w2 :: more) trail] ++ map (fun l => spaced (fst l) (snd l)) body))) scale =
  Ok (dt, map (fun a => a * scale) vs).
Proof.
  intros N1 N2 N3 W T N4 D B V. unfold load_at2.
  rewrite <- (app_nil_r (concat _)), readlines_lines.
  - rewrite map_app. cbn [map app readlines]. rewrite app_nil_r.
    set (ws := w1 :: w2 :: more) in *.
    replace (split_ws (spaced ws trail ++ [nl])) with (map snd ws).
    + unfold ws. cbn [map]. rewrite D. cbn [bind].
      replace (concat (map split_ws (map (fun l => l ++ [nl]) (map (fun l => spaced (fst l) (snd l)) body)))) with (concat (map (fun l => map snd (fst l)) body)).
      * rewrite V. reflexivity.
      * clear V. f_equal. rewrite !map_map. apply map_ext_in. intros l Hl. destruct (proj1 (Forall_forall _ _) B l Hl) as (Wl & Tl & _).
        unfold split_ws. cbv beta. etransitivity; [symmetry; apply (pieces_spaced is_space (fst l) (snd l ++ [nl]) true); [exact Wl|apply Forall_app; split; [exact Tl|constructor; [reflexivity|constructor]]]|].
        unfold spaced. now rewrite app_assoc.
    + unfold split_ws. etransitivity; [symmetry; apply (pieces_spaced is_space ws (trail ++ [nl]) true); [exact W|apply Forall_app; split; [exact T|constructor; [reflexivity|constructor]]]|].
      unfold spaced. now rewrite app_assoc.
  - apply Forall_app. split; [repeat constructor; assumption|]. apply Forall_map. eapply Forall_impl; [|exact B]. now intros l (_ & _ & H).
Qed.
(** Fewer than four lines. *)
Theorem at2_short ls scale : Forall no_nl ls -> (length ls < 4)%nat -> load_at2 (concat (map (fun l => l ++ [nl]) ls)) scale = Err StopIteration.
Proof.
  intros F L. unfold load_at2. rewrite <- (app_nil_r (concat _)), readlines_lines by exact F. cbn [readlines]. rewrite app_nil_r.
  destruct ls as [|a [|b [|c [|d r]]]]; try reflexivity. cbn [length] in L. lia.
Qed.

(** ** SMC files *)

Lemma pop_lines_app a b : pop_lines (length a) (a ++ b) = Ok (a, b).
Proof. induction a as [|l a IH]; [reflexivity|]. cbn [length app pop_lines]. rewrite IH. reflexivity. Qed.
Lemma pop_lines_n n a b : length a = n -> pop_lines n (a ++ b) = Ok (a, b).
Proof. intros <-. apply pop_lines_app. Qed.
Lemma types_repeat {A} w (p : text -> res A) fs : Forall (fun f => f_width f = w /\ f_read f = p) fs -> map to_type fs = repeat (w, p) (length fs).
Proof. induction 1 as [|f fs [E1 E2] _ IH]; [reflexivity|]. cbn [map length repeat]. rewrite <- IH. unfold to_type. now rewrite E1, E2. Qed.
Lemma read_all_length {A} (fs : list (wfield A)) vs : read_all fs = Ok vs -> length vs = length fs.
Proof.
  revert vs. induction fs as [|f fs IH]; cbn [read_all]; intros vs H; [injection H as <-; reflexivity|].
  destruct (f_read f (f_text f)); [|discriminate]. destruct (read_all fs); [|discriminate]. injection H as <-. cbn. now rewrite (IH _ eq_refl).
Qed.
Lemma line_text_chars {A} (g : list (wfield A)) : line_text g = concat (map f_text g) ++ [nl]. Proof. reflexivity. Qed.

Theorem smc_read has_station heads gi gf comments gd tail scale vi vf va :
  length heads = 11%nat -> Forall no_nl (heads ++ comments) -> strip (hd [] heads ++ [nl]) = smc_title -> has_station (nth 5 heads [] ++ [nl]) = true ->
  length gi = 6%nat -> Forall line_of gi -> Forall (fun f => f_width f = 10%nat /\ f_read f = py_int) (concat gi) -> length (concat gi) = 48%nat ->
  length gf = 10%nat -> Forall line_of gf -> Forall (fun f => f_width f = 15%nat /\ f_read f = py_float) (concat gf) -> length (concat gf) = 50%nat ->
  Forall line_of gd -> Forall (fun f => f_width f = 10%nat /\ f_read f = py_float) (concat gd) ->
  read_all (concat gi) = Ok vi -> read_all (concat gf) = Ok vf -> read_all (concat gd) = Ok va ->
  nth 15 vi 0%Z = Z.of_nat (length comments) -> nth 16 vi 0%Z = Z.of_nat (length va) -> nth 1 vf 0 <> 0 ->
  load_smc has_station
    (concat (map (fun l => l ++ [nl]) heads ++ map line_text gi ++ map line_text gf ++ map (fun l => l ++ [nl]) comments ++ map line_text gd) ++ tail) scale =
  Ok (1 / nth 1 vf 0, map (fun a => a * scale) va).
Proof.
  intros Lh Fh Ti St Li Fi Pi Ni Lf Ff Pf Nf Fd Pd Vi Vf Va Ec En Er.
  assert (RL : forall A (gs : list (list (wfield A))), Forall line_of gs -> exists ls, map line_text gs = map (fun l => l ++ [nl]) ls /\ Forall no_nl ls).
  { intros A gs. induction 1 as [|g gs H _ (ls & E & F)]; [exists []; split; [reflexivity|constructor]|].
    exists (concat (map f_text g) :: ls). cbn [map]. rewrite E. split; [reflexivity|]. constructor; [now apply line_no_nl|exact F]. }
  destruct (RL _ gi Fi) as (li & Ei & Fli), (RL _ gf Ff) as (lf & Ef & Flf), (RL _ gd Fd) as (ld & Ed & Fld).
  apply Forall_app in Fh as [Fh Fc].
  assert (R : readlines (concat (map (fun l => l ++ [nl]) heads ++ map line_text gi ++ map line_text gf ++ map (fun l => l ++ [nl]) comments ++ map line_text gd) ++ tail) =
     map (fun l => l ++ [nl]) heads ++ map line_text gi ++ map line_text gf ++ map (fun l => l ++ [nl]) comments ++ map line_text gd ++ readlines tail).
  { rewrite Ei, Ef, Ed, <- !map_app, readlines_lines by (repeat (apply Forall_app; split; try assumption)). rewrite !map_app, <- !app_assoc. reflexivity. }
  unfold load_smc. rewrite R. rewrite (pop_lines_n 11) by now rewrite map_length. cbn [bind fst snd].
  replace (hd [] (map (fun l => l ++ [nl]) heads)) with (hd [] heads ++ [nl]) by (destruct heads; [discriminate|reflexivity]).
  rewrite Ti. unfold text_eqb. destruct (list_eq_dec ascii_dec smc_title smc_title) as [_|X]; [|congruence]. cbn [negb].
  match goal with |- context [has_station ?x] => replace (has_station x) with true by (rewrite <- St; do 6 (destruct heads as [|? heads]; [discriminate|]); reflexivity) end. cbn [negb]. rewrite (pop_lines_n 6) by now rewrite map_length. cbn [bind fst snd].
  assert (Qi : parse_fixed_width (repeat (10%nat, py_int) 48) (map line_text gi) = Ok (vi, [])).
  { rewrite <- Ni, <- (types_repeat 10 py_int) by exact Pi. rewrite <- (app_nil_r (map line_text gi)), fixed_width_read by exact Fi. now rewrite Vi. }
  rewrite Qi. cbn [bind fst snd]. rewrite (pop_lines_n 10) by now rewrite map_length. cbn [bind fst snd].
  assert (Qf : parse_fixed_width (repeat (15%nat, py_float) 50) (map line_text gf) = Ok (vf, [])).
  { rewrite <- Nf, <- (types_repeat 15 py_float) by exact Pf. rewrite <- (app_nil_r (map line_text gf)), fixed_width_read by exact Ff. now rewrite Vf. }
  rewrite Qf. cbn [bind fst snd]. unfold div_opt. destruct (Reqb (nth 1 vf 0) 0) eqn:Z; [apply Reqb_true in Z; contradiction|].
  rewrite Ec, En. unfold slice_from. destruct (Z.of_nat (length comments) <? 0)%Z eqn:Lt; [apply Z.ltb_lt in Lt; lia|]. rewrite !Nat2Z.id.
  replace (skipn (length comments) _) with (map line_text gd ++ readlines tail).
  2:{ rewrite skipn_app, map_length, Nat.sub_diag. rewrite skipn_all2 by (rewrite map_length; lia). reflexivity. }
  assert (Qd : parse_fixed_width (repeat (10%nat, py_float) (length va)) (map line_text gd ++ readlines tail) = Ok (va, readlines tail)).
  { rewrite (read_all_length _ _ Va), <- (types_repeat 10 py_float) by exact Pd. rewrite fixed_width_read by exact Fd. now rewrite Va. }
  rewrite Qd. reflexivity.
Qed.
(** Files of uncorrected records are refused. *)
Theorem smc_uncorrected has_station heads tail scale : length heads = 11%nat -> Forall no_nl heads -> strip (hd [] heads ++ [nl]) <> smc_title ->
  load_smc has_station (concat (map (fun l => l ++ [nl]) heads) ++ tail) scale = Err RuntimeWarning.
Proof.
  intros L F N. unfold load_smc. rewrite readlines_lines by exact F. rewrite (pop_lines_n 11) by now rewrite map_length. cbn [bind fst].
  replace (hd [] (map (fun l => l ++ [nl]) heads)) with (hd [] heads ++ [nl]) by (destruct heads; [discriminate|reflexivity]).
  unfold text_eqb. destruct (list_eq_dec _ _ _) as [E|_]; [contradiction|]. reflexivity.
Qed.

(** ** Whole numbers *)

Lemma digit_of_char d : (d < 10)%nat -> digit_of (ascii_of_nat (48 + d)) = Some (Z.of_nat d).
Proof. intros H. do 10 (destruct d as [|d]; [reflexivity|]). lia. Qed.
Lemma digits_val_app a : forall acc b, digits_val acc (a ++ b) = match digits_val acc a with Some n => digits_val n b | None => None end.
Proof. induction a as [|c a IH]; intros acc b; [reflexivity|]. cbn [app digits_val]. destruct (digit_of c); [apply IH|reflexivity]. Qed.
Lemma numeral_val s n : numeral s n -> digits_val 0 s = Some n /\ s <> [].
Proof.
  induction 1 as [d H|s n d H [IH N] Hd].
  - cbn [digits_val]. rewrite digit_of_char by exact H. split; [f_equal; lia|discriminate].
  - rewrite digits_val_app, IH. cbn [digits_val]. rewrite digit_of_char by exact Hd. split; [reflexivity|]. destruct s; discriminate.
Qed.
Definition solid (s : text) : Prop := match s with [] => False | c :: _ => is_space c = false end.
Lemma digit_not_space d : (d < 10)%nat -> is_space (ascii_of_nat (48 + d)) = false.
Proof. intros H. do 10 (destruct d as [|d]; [reflexivity|]). lia. Qed.
Lemma numeral_first s n : numeral s n -> exists d r, (d < 10)%nat /\ s = ascii_of_nat (48 + d) :: r.
Proof.
  induction 1 as [d H|s n d H (d0 & r & H0 & ->) Hd]; [exists d, []; auto|]. exists d0, (r ++ [ascii_of_nat (48 + d)]). auto.
Qed.
Lemma numeral_last s n : numeral s n -> exists d r, (d < 10)%nat /\ s = r ++ [ascii_of_nat (48 + d)].
Proof. destruct 1 as [d H|s n d H Hd]; [exists d, []|exists d, s]; auto. Qed.
Lemma lstrip_blank a s : Forall (fun c => is_space c = true) a -> lstrip (a ++ s) = lstrip s.
Proof. induction 1 as [|c a H _ IH]; [reflexivity|]. cbn [app lstrip]. now rewrite H. Qed.
Lemma lstrip_solid s : solid s -> lstrip s = s.
Proof. destruct s as [|c s]; [intros []|]. cbn. now intros ->. Qed.
Lemma strip_padded a s b : Forall (fun c => is_space c = true) a -> Forall (fun c => is_space c = true) b -> solid s -> solid (rev s) ->
  strip (a ++ s ++ b) = s.
Proof.
  intros Ha Hb S1 S2. unfold strip. rewrite lstrip_blank by exact Ha.
  assert (S3 : solid (s ++ b)) by (destruct s; [destruct S1|exact S1]). rewrite (lstrip_solid _ S3), rev_app_distr.
  rewrite lstrip_blank by (now apply Forall_rev). rewrite lstrip_solid by exact S2. apply rev_involutive.
Qed.
Lemma signed_digit d r : (d < 10)%nat -> signed (ascii_of_nat (48 + d) :: r) = (false, ascii_of_nat (48 + d) :: r).
Proof. intros H. do 10 (destruct d as [|d]; [reflexivity|]). lia. Qed.
(** A numeral padded with white space is read back, with or without a sign. *)
Theorem int_read a s b n : Forall (fun c => is_space c = true) a -> Forall (fun c => is_space c = true) b -> numeral s n ->
  py_int (a ++ s ++ b) = Ok n /\ py_int (a ++ ("-"%char :: s) ++ b) = Ok (- n)%Z.
Proof.
  intros Ha Hb N. destruct (numeral_first s n N) as (d & r & Hd & E), (numeral_last s n N) as (d' & r' & Hd' & E'), (numeral_val s n N) as [V Ns].
  assert (S2 : solid (rev s)) by (rewrite E', rev_app_distr; cbn [rev app solid]; now apply digit_not_space).
  unfold py_int. split.
  - rewrite strip_padded; [|exact Ha|exact Hb| |exact S2].
    + rewrite E, signed_digit by exact Hd. rewrite <- E. unfold nat_text. destruct s; [congruence|]. now rewrite V.
    + rewrite E. cbn [solid]. now apply digit_not_space.
  - rewrite strip_padded; [|exact Ha|exact Hb|reflexivity|].
    + cbn. unfold nat_text. destruct s; [congruence|]. rewrite V. reflexivity.
    + cbn [rev]. destruct (rev s); [destruct S2|exact S2].
Qed.

(** ** nrattle control files *)

Lemma line_words_split l ws : line_words l ws -> split_on " " l = ws.
Proof. intros (sws & W & -> & ->). exact (pieces_spaced space sws [] true W (Forall_nil _)). Qed.

Lemma nr_records_read (ls : list text) rs hs rest h1 :
  Forall2 (fun l r => exists ws, line_words l ws /\ record_words ws r) ls rs ->
  line_words hs h1 -> (exists w more, h1 = w :: more /\ py_int w = Err ValueError) ->
  nr_records (ls ++ hs :: rest) = Ok (map (fun r => match r with (n, t, v, d, q) => [n; t; v; d; q] end) rs, hs, rest).
Proof.
  intros F H (w & more & -> & E). induction F as [|l [[[[n t] v] d] q] ls rs (ws & L & K) _ IH]; cbn [app nr_records map].
  - unfold split_line. rewrite (line_words_split _ _ H). cbn [zip_parse]. unfold rec_int. rewrite E. reflexivity.
  - destruct K as (k & w1 & w2 & w3 & w4 & w5 & m & -> & E1 & -> & E2 & E3 & E4 & E5).
    unfold split_line. rewrite (line_words_split _ _ L). cbn [zip_parse]. unfold rec_int. rewrite E1, E2, E3, E4, E5. cbn [bind]. rewrite IH. reflexivity.
Qed.
Theorem nrattle_read all rest a b freq depth (ls : list text) rs hs last f1 f2 f3 g1 g2 hv hd m1 m2 m3 z1 z2 v d :
  Forall no_nl all -> filter (fun l => negb (Ascii.eqb (List.hd nl (l ++ [nl])) "!")) all = [a; b; freq; depth] ++ ls ++ hs :: last :: rest ->
  line_words (freq ++ [nl]) (f1 :: f2 :: m1) -> (exists k, py_int f1 = Ok k) -> (exists x, py_float f2 = Ok x) ->
  line_words (depth ++ [nl]) (f3 :: m2) -> (exists x, py_float f3 = Ok x) ->
  Forall2 (fun l r => exists ws, line_words (l ++ [nl]) ws /\ record_words ws r) ls rs -> rs <> [] ->
  line_words (hs ++ [nl]) (hv :: hd :: m3) -> py_int hv = Err ValueError -> py_float hv = Ok v -> py_float hd = Ok d ->
  line_words (last ++ [nl]) (g1 :: g2 :: z1) -> (exists k, py_int g1 = Ok k) -> py_float g2 = Ok z2 ->
  read_nrattle_ctl (concat (map (fun l => l ++ [nl]) all)) = Ok (rs, (v, d)).
Proof.
  intros F E Lf (k1 & Pf1) (x2 & Pf2) Ld (x3 & Pd) Fr Nr Lh Hv Pv Pd' Ll (k4 & Pg1) Pg2.
  unfold read_nrattle_ctl. rewrite <- (app_nil_r (concat _)), readlines_lines by exact F. cbn [readlines]. rewrite app_nil_r.
  replace (filter _ (map (fun l => l ++ [nl]) all)) with (map (fun l => l ++ [nl]) ([a; b; freq; depth] ++ ls ++ hs :: last :: rest)).
  2:{ rewrite <- E. clear. induction all as [|l all IH]; [reflexivity|]. cbn [map filter].
      replace (hd newline (l ++ [nl])) with (List.hd nl (l ++ [nl])) by reflexivity. destruct (negb _); cbn [map]; now rewrite IH. }
  rewrite !map_app. cbn [map app].
  unfold split_line at 1. rewrite (line_words_split _ _ Lf). cbn [zip_parse]. unfold rec_int at 1. rewrite Pf1, Pf2. cbn [bind zip_parse length Nat.eqb negb].
  unfold split_line at 1. rewrite (line_words_split _ _ Ld). cbn [zip_parse]. rewrite Pd. cbn [bind].
  assert (Q := nr_records_read (map (fun l => l ++ [nl]) ls) rs (hs ++ [nl]) ((last ++ [nl]) :: map (fun l => l ++ [nl]) rest) (hv :: hd :: m3)).
  assert (Q1 : Forall2 (fun l r => exists ws, line_words l ws /\ record_words ws r) (map (fun l => l ++ [nl]) ls) rs).
  { clear -Fr. induction Fr; cbn [map]; constructor; auto. }
  specialize (Q Q1 Lh (ex_intro _ hv (ex_intro _ (hd :: m3) (conj eq_refl Hv)))).
  match goal with |- context [nr_records ?x] => match type of Q with _ = ?y => replace (nr_records x) with y by (symmetry; exact Q) end end.
  cbn [bind fst snd].
  replace (map_res nr_of_record _) with (@Ok (list (R * R * R * R * R)) rs).
  2:{ clear. induction rs as [|[[[[n t] v] d] q] rs IH]; [reflexivity|]. cbn [map map_res nr_of_record bind]. rewrite <- IH. reflexivity. }
  cbn [bind]. destruct rs as [|r0 rs]; [congruence|].
  unfold split_line at 1. rewrite (line_words_split _ _ Lh). cbn [zip_parse]. rewrite Pv, Pd'. cbn [bind].
  unfold split_line at 1. rewrite (line_words_split _ _ Ll). cbn [zip_parse]. unfold rec_int. rewrite Pg1, Pg2. reflexivity.
Qed.
(** A half-space velocity written without a decimal point is taken for a layer, and the file cannot be read. *)
Theorem nrattle_integer_velocity all rest a b freq depth (ls : list text) rs hs h1 h2 k x :
  Forall no_nl all -> filter (fun l => negb (Ascii.eqb (List.hd nl (l ++ [nl])) "!")) all = [a; b; freq; depth] ++ ls ++ hs :: rest ->
  Forall2 (fun l r => exists ws, line_words (l ++ [nl]) ws /\ record_words ws r) ls rs ->
  line_words (hs ++ [nl]) [h1; h2] -> py_int h1 = Ok k -> py_float h2 = Ok x ->
  exists e, read_nrattle_ctl (concat (map (fun l => l ++ [nl]) all)) = Err e.
Proof.
  intros F E Fr Lh P1 P2.
  unfold read_nrattle_ctl. rewrite <- (app_nil_r (concat _)), readlines_lines by exact F. cbn [readlines]. rewrite app_nil_r.
  replace (filter _ (map (fun l => l ++ [nl]) all)) with (map (fun l => l ++ [nl]) ([a; b; freq; depth] ++ ls ++ hs :: rest)).
  2:{ rewrite <- E. clear. induction all as [|l all IH]; [reflexivity|]. cbn [map filter].
      replace (hd newline (l ++ [nl])) with (List.hd nl (l ++ [nl])) by reflexivity. destruct (negb _); cbn [map]; now rewrite IH. }
  rewrite !map_app. cbn [map app].
  destruct (split_line (freq ++ [nl]) _) as [fs|e]; [|eexists; reflexivity]. cbn [bind]. destruct (negb _); [eexists; reflexivity|].
  destruct (split_line (depth ++ [nl]) _) as [ds|e]; [|eexists; reflexivity]. cbn [bind].
  assert (R : exists e, bind (nr_records (map (fun l => l ++ [nl]) ls ++ (hs ++ [nl]) :: map (fun l => l ++ [nl]) rest)) (fun out => map_res nr_of_record (fst (fst out))) = Err e).
  { clear -Fr Lh P1 P2. induction Fr as [|l [[[[n t] v] d] q] ls rs (ws & L & K) _ IH]; cbn [map app nr_records].
    - unfold split_line. rewrite (line_words_split _ _ Lh). cbn [zip_parse]. unfold rec_int. rewrite P1, P2. cbn [bind].
      destruct (nr_records _) as [[[rs h] r]|]; cbn [bind fst snd]; eexists; reflexivity.
    - destruct K as (k1 & w1 & w2 & w3 & w4 & w5 & m & -> & E1 & -> & E2 & E3 & E4 & E5).
      unfold split_line. rewrite (line_words_split _ _ L). cbn [zip_parse]. unfold rec_int. rewrite E1, E2, E3, E4, E5. cbn [bind].
      destruct (nr_records _) as [[[rs' h] r]|]; cbn [bind fst snd] in *; [|exact IH]. destruct IH as (e & IH). cbn [map_res nr_of_record bind]. rewrite IH. eexists. reflexivity. }
  destruct R as (e & R). destruct (nr_records _) as [out|e']; cbn [bind] in *; [|eexists; reflexivity]. rewrite R. eexists. reflexivity.
Qed.
