(** Facts about result tables and the output state machine. *)
From Coq Require Import String DecimalString DecimalNat.
From Verif Require Import Common Proof.CommonFacts Model.Curve Model.Layer Model.Profile Model.Averages Model.Output
  Spec.OutputSpec.

(** Canonical table: row [i] is entry [i] of each result. *)
Definition table (rs : list (list cell)) (n : nat) : list (list cell) :=
  map (fun i => map (fun r => nth i r None) rs) (seq 0 n).

Lemma table_length rs n : length (table rs n) = n.
Proof. unfold table. now rewrite map_length, seq_length. Qed.

Lemma longest_le rs r : In r rs -> (length r <= longest rs)%nat.
Proof.
  unfold longest. induction rs as [|x rs IH]; [contradiction|]. intros [<-|H]; cbn; [lia|]. pose proof (IH H). lia.
Qed.
Lemma longest_app rs r : longest (rs ++ [r]) = Nat.max (longest rs) (length r).
Proof. unfold longest. induction rs as [|x rs IH]; cbn; [lia|]. rewrite IH. lia. Qed.

Lemma pad_seq (xs : list cell) n : (length xs <= n)%nat ->
  xs ++ repeat None (n - length xs) = map (fun i => nth i xs None) (seq 0 n).
Proof.
  revert n; induction xs as [|x xs IH]; intros n H.
  - cbn [app length]. rewrite Nat.sub_0_r. clear H. transitivity (map (fun _ => @None R) (seq 0 n)).
    + generalize 0%nat. induction n as [|n IHn]; intros m; [reflexivity|]. cbn. f_equal. apply IHn.
    + apply map_ext. now intros [|i].
  - destruct n as [|n]; [cbn in H; lia|]. cbn [length Nat.sub app seq map]. cbn [nth]. f_equal.
    rewrite IH by (cbn in H; lia). rewrite <- seq_shift, map_map. reflexivity.
Qed.

Lemma pad_same (xs : list cell) : xs = map (fun i => nth i xs None) (seq 0 (length xs)).
Proof. rewrite <- pad_seq by lia. rewrite Nat.sub_diag. cbn. now rewrite app_nil_r. Qed.

Lemma table_pad rs n k : (longest rs <= n)%nat ->
  table rs n ++ repeat (repeat None (length rs)) k = table rs (n + k).
Proof.
  intros H. unfold table. rewrite seq_app, map_app. f_equal. cbn [plus].
  assert (HN : forall i, (n <= i)%nat -> map (fun r : list cell => nth i r None) rs = repeat None (length rs)).
  { intros i Hi. assert (HF : forall r, In r rs -> (length r <= i)%nat) by (intros r Hr; pose proof (longest_le rs r Hr); lia).
    clear H. induction rs as [|r rs IH]; [reflexivity|]. cbn. f_equal; [apply nth_overflow, HF; now left|].
    apply IH. intros r' Hr'. apply HF. now right. }
  clear H. revert n HN. induction k as [|k IH]; intros n HN; [reflexivity|]. cbn [repeat seq map]. f_equal.
  - symmetry. now apply HN.
  - apply IH. intros i Hi. apply HN. lia.
Qed.

Lemma combine_maps {A B C} (f : A -> B) (g : A -> C) l :
  combine (map f l) (map g l) = map (fun x => (f x, g x)) l.
Proof. induction l as [|x l IH]; [reflexivity|]. cbn. now rewrite IH. Qed.

Lemma c_two (xs ys : list cell) n :
  map2 (fun x y => [x; y]) (map (fun i => nth i xs None) (seq 0 n)) (map (fun i => nth i ys None) (seq 0 n))
  = table [xs; ys] n.
Proof. unfold map2, table. rewrite combine_maps, map_map. reflexivity. Qed.
Lemma c_more rs (ys : list cell) n :
  map2 (fun r y => r ++ [y]) (table rs n) (map (fun i => nth i ys None) (seq 0 n)) = table (rs ++ [ys]) n.
Proof.
  unfold map2, table. rewrite combine_maps, map_map. apply map_ext. intros i. cbn [fst snd].
  now rewrite map_app.
Qed.

(** The array that shows [rs]. *)
Definition canon (rs : list (list cell)) : arr :=
  match rs with
  | [r] => A1 r
  | _ => A2 (length rs) (table rs (longest rs))
  end.
Lemma canon_many rs : (2 <= length rs)%nat -> canon rs = A2 (length rs) (table rs (longest rs)).
Proof. destruct rs as [|r [|r' rs]]; cbn; intros H; try lia; reflexivity. Qed.
Lemma canon_rows rs : rs <> [] -> nrows (canon rs) = longest rs.
Proof.
  destruct rs as [|r [|r' rs]]; [congruence| |]; intros _.
  - cbn. lia.
  - rewrite canon_many by (cbn; lia). cbn [nrows]. apply table_length.
Qed.

Lemma append_canon rs r : rs <> [] -> append_arrays (canon rs) r = Ok (canon (rs ++ [r])).
Proof.
  intros Hne. pose proof (canon_rows rs Hne) as HR. unfold append_arrays. rewrite HR.
  rewrite (canon_many (rs ++ [r])) by (rewrite app_length; destruct rs; [congruence|cbn; lia]).
  rewrite longest_app, app_length. cbn [length].
  destruct rs as [|r0 [|r1 rs]]; [congruence| |].
  - assert (HL0 : longest [r0] = length r0) by (cbn; lia). rewrite HL0 in *. cbn [canon app plus].
    destruct (Z.of_nat (length r) - Z.of_nat (length r0) <? 0)%Z eqn:E1;
      [|destruct (0 <? Z.of_nat (length r) - Z.of_nat (length r0))%Z eqn:E2].
    + replace (Z.to_nat (- (Z.of_nat (length r) - Z.of_nat (length r0)))) with (length r0 - length r)%nat by lia.
      unfold np_c, pad1; cbn [nrows]. rewrite (pad_seq r (length r0)) by lia. rewrite map_length, seq_length, Nat.eqb_refl.
      rewrite (Nat.max_l (length r0)) by lia. rewrite <- c_two. now rewrite <- pad_same.
    + replace (Z.to_nat (Z.of_nat (length r) - Z.of_nat (length r0))) with (length r - length r0)%nat by lia.
      unfold np_c, pad_arr, pad1; cbn [nrows]. rewrite (pad_seq r0 (length r)) by lia. rewrite map_length, seq_length, Nat.eqb_refl.
      rewrite (Nat.max_r (length r0)) by lia. rewrite <- c_two. now rewrite <- (pad_same r).
    + assert (E : length r = length r0) by lia. unfold np_c; cbn [nrows]. rewrite E, Nat.eqb_refl.
      rewrite Nat.max_id, <- c_two, <- pad_same. now rewrite <- E, <- (pad_same r).
  - set (rs' := r0 :: r1 :: rs) in *. assert (H2 : (2 <= length rs')%nat) by (cbn; lia).
    rewrite (canon_many rs' H2) in *.
    destruct (Z.of_nat (length r) - Z.of_nat (longest rs') <? 0)%Z eqn:E1;
      [|destruct (0 <? Z.of_nat (length r) - Z.of_nat (longest rs'))%Z eqn:E2].
    + replace (Z.to_nat (- (Z.of_nat (length r) - Z.of_nat (longest rs')))) with (longest rs' - length r)%nat by lia.
      unfold np_c, pad1. rewrite HR. rewrite (pad_seq r (longest rs')) by lia. rewrite map_length, seq_length, Nat.eqb_refl.
      rewrite (Nat.max_l (longest rs')) by lia. rewrite c_more. do 2 f_equal. lia.
    + replace (Z.to_nat (Z.of_nat (length r) - Z.of_nat (longest rs'))) with (length r - longest rs')%nat by lia.
      unfold np_c, pad_arr. rewrite table_pad by lia. cbn [nrows]. rewrite table_length.
      replace (longest rs' + (length r - longest rs'))%nat with (length r) by lia. rewrite Nat.eqb_refl.
      rewrite (Nat.max_r (longest rs')) by lia. rewrite (pad_same r) at 2. rewrite c_more. do 2 f_equal. lia.
    + assert (E : length r = longest rs') by lia. unfold np_c. rewrite HR, E, Nat.eqb_refl, Nat.max_id.
      rewrite (pad_same r), E, c_more. do 2 f_equal; [lia|]. rewrite <- E. now rewrite <- (pad_same r).
Qed.

Lemma nth_error_nth_opt {A} (l : list (option A)) i :
  nth i l None = match nth_error l i with Some c => c | None => None end.
Proof. revert i; induction l as [|x l IH]; intros [|i]; cbn; auto. Qed.

Lemma canon_shows rs : rs <> [] -> shows rs (canon rs).
Proof.
  destruct rs as [|r0 [|r1 rs]]; [congruence|reflexivity|]. intros _.
  set (rs' := r0 :: r1 :: rs). assert (H2 : (2 <= length rs')%nat) by (cbn; lia).
  unfold shows. change (r0 :: r1 :: rs) with rs'. rewrite (canon_many rs' H2).
  cut ((exists rows, A2 (length rs') (table rs' (longest rs')) = A2 (length rs') rows /\ length rows = longest rs' /\
      Forall (fun row => length row = length rs') rows) /\
     forall i j r, nth_error rs' j = Some r -> (i < longest rs')%nat ->
       cell_at (A2 (length rs') (table rs' (longest rs'))) i j
       = Some (match nth_error r i with Some c => c | None => None end)); [exact (fun x => x)|].
  split.
  - eexists. split; [reflexivity|]. split; [apply table_length|]. apply Forall_forall. intros row Hrow.
    unfold table in Hrow. apply in_map_iff in Hrow. destruct Hrow as (i & <- & _). now rewrite map_length.
  - intros i j r Hj Hi. unfold cell_at, table. rewrite nth_error_map.
    rewrite (nth_error_nth' _ 0%nat) by (now rewrite seq_length). cbn [option_map opt_bind].
    rewrite seq_nth by exact Hi. cbn [plus]. rewrite (map_nth_error _ j rs' Hj). f_equal. apply nth_error_nth_opt.
Qed.

(** The table determines the array. *)
Lemma shows_canon rs a : shows rs a -> a = canon rs.
Proof.
  destruct rs as [|r0 [|r1 rs]]; [contradiction|exact (fun x => x)|].
  set (rs' := r0 :: r1 :: rs). intros [(rows & -> & HL & HF) HC]. fold rs' in HL, HF, HC.
  rewrite (canon_many rs') by (cbn; lia). f_equal.
  apply (nth_ext _ _ [] []); [now rewrite table_length|]. intros i Hi. rewrite HL in Hi.
  assert (Hrow : exists row, nth_error rows i = Some row).
  { destruct (nth_error rows i) eqn:E; [now eexists|]. apply nth_error_None in E. lia. }
  destruct Hrow as [row Hrow]. rewrite (nth_error_nth _ _ _ Hrow).
  unfold table. rewrite (nth_indep _ [] (map (fun r => nth (longest rs') r None) rs')) by (now rewrite map_length, seq_length).
  rewrite (map_nth (fun i => map (fun r : list cell => nth i r None) rs')).
  rewrite seq_nth by exact Hi. cbn [plus].
  assert (Hlen : length row = length rs') by (rewrite Forall_forall in HF; apply HF; now apply nth_error_In with i).
  apply (nth_ext _ _ None None); [now rewrite map_length|]. intros j Hj. rewrite Hlen in Hj.
  destruct (nth_error rs' j) as [r|] eqn:Er; [|apply nth_error_None in Er; lia].
  pose proof (HC i j r Er Hi) as G. cbn [cell_at] in G. rewrite Hrow in G. cbn [opt_bind] in G.
  rewrite (nth_error_nth _ _ _ G).
  rewrite (nth_indep _ None (nth i [] None)) by (now rewrite map_length).
  rewrite (map_nth (fun r : list cell => nth i r None)). rewrite (nth_error_nth _ _ _ Er).
  now rewrite nth_error_nth_opt.
Qed.

Lemma append_shows rs a r : shows rs a -> exists a', append_arrays a r = Ok a' /\ shows (rs ++ [r]) a'.
Proof.
  intros H. assert (Hne : rs <> []) by (intros ->; exact H). rewrite (shows_canon _ _ H).
  exists (canon (rs ++ [r])). split; [now apply append_canon|]. apply canon_shows. now destruct rs.
Qed.

Lemma shows_rows rs a : shows rs a -> nrows a = longest rs.
Proof. intros H. assert (Hne : rs <> []) by (intros ->; exact H). rewrite (shows_canon _ _ H). now apply canon_rows. Qed.

(** Columns of a shown table. *)
Lemma shows_column rs a j r : shows rs a -> nth_error rs j = Some r -> (2 <= length rs)%nat \/ j = 0%nat ->
  column a j = Ok (padded (longest rs) r).
Proof.
  intros H Hj _. assert (Hne : rs <> []) by (intros ->; exact H). rewrite (shows_canon _ _ H).
  pose proof (longest_le rs r (nth_error_In _ _ Hj)) as Hr. unfold padded. rewrite (pad_seq r _ Hr).
  destruct rs as [|r0 [|r1 rs]]; [congruence| |].
  - destruct j as [|j]; [|now destruct j]. injection Hj as ->. cbn [canon column longest fold_right].
    rewrite Nat.max_0_r. now rewrite <- pad_same.
  - set (rs' := r0 :: r1 :: rs) in *. rewrite (canon_many rs') by (cbn; lia). cbn [column].
    assert (Hlt : (j < length rs')%nat) by (apply nth_error_Some; congruence).
    rewrite (proj2 (Nat.ltb_lt _ _) Hlt). f_equal. unfold table. rewrite map_map. apply map_ext. intros i.
    rewrite (nth_indep _ None (nth i [] None)) by (now rewrite map_length).
    rewrite (map_nth (fun r : list cell => nth i r None)). now rewrite (nth_error_nth _ _ _ Hj).
Qed.

(** Default names are different for different positions. *)
Lemma rname_inj i j : rname i = rname j -> i = j.
Proof.
  unfold rname. intros H. cbn in H. injection H as H.
  apply (f_equal NilEmpty.uint_of_string) in H. rewrite !NilEmpty.usu in H. injection H as H.
  now apply Unsigned.to_uint_inj.
Qed.
