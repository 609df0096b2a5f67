(** The covariance matrix of the layer velocities: C34. *)
From Verif Require Import Common Model.Curve Model.Layer Model.Profile Model.Gauss Model.Variation
  Spec.ProfileSpec Spec.VariationSpec Proof.CommonFacts Proof.GaussFacts.
Local Open Scope R_scope.

Definition tri_rows (corr std : list R) : list (list R) :=
  map (fun i => map (covar_entry corr std i) (seq 0 (length std))) (seq 0 (length std)).

Lemma tridiag_ok corr std : length std = S (length corr) -> tridiag corr std = Ok (tri_rows corr std).
Proof. intros H. unfold tridiag. replace (length corr + 1)%nat with (length std) by lia. now rewrite Nat.eqb_refl. Qed.

Lemma tri_entry corr std i j : (i < length std)%nat -> (j < length std)%nat ->
  entry (tri_rows corr std) i j = Some (covar_entry corr std i j).
Proof.
  intros Hi Hj. unfold entry, tri_rows.
  assert (Hs : forall n k, (k < n)%nat -> nth_error (seq 0 n) k = Some k).
  { intros n k Hk. rewrite (nth_error_nth' _ O) by now rewrite seq_length. now rewrite seq_nth. }
  rewrite (map_nth_error _ _ _ (Hs _ _ Hi)). now rewrite (map_nth_error _ _ _ (Hs _ _ Hj)).
Qed.
Lemma tri_entry_out corr std i j : ~ ((i < length std)%nat /\ (j < length std)%nat) -> entry (tri_rows corr std) i j = None.
Proof.
  intros H. unfold entry. destruct (nth_error (tri_rows corr std) i) as [row|] eqn:E; [|reflexivity].
  assert (Hi : (i < length std)%nat).
  { assert (nth_error (tri_rows corr std) i <> None) by congruence. apply nth_error_Some in H0.
    unfold tri_rows in H0. now rewrite map_length, seq_length in H0. }
  apply nth_error_In in E. unfold tri_rows in E. apply in_map_iff in E. destruct E as (k & <- & _).
  apply nth_error_None. rewrite map_length, seq_length. lia.
Qed.
Lemma covar_entry_sym corr std i j : covar_entry corr std i j = covar_entry corr std j i.
Proof.
  unfold covar_entry. rewrite (Nat.eqb_sym j i). destruct (Nat.eqb_spec i j) as [->|N]; [reflexivity|].
  destruct (Nat.eqb_spec (S i) j) as [<-|N1].
  - destruct (Nat.eqb_spec (S (S i)) i); [lia|]. reflexivity.
  - destruct (Nat.eqb_spec (S j) i); reflexivity.
Qed.
Lemma tri_symmetric corr std : symmetric (tri_rows corr std).
Proof.
  intros i j. destruct (lt_dec i (length std)) as [Hi|Hi], (lt_dec j (length std)) as [Hj|Hj];
    try (rewrite !tri_entry_out by lia; reflexivity).
  rewrite !tri_entry by assumption. now rewrite covar_entry_sym.
Qed.

(** The quadratic form, layer by layer. *)
Fixpoint tri_form (corr std xs : list R) : R :=
  match corr, std, xs with
  | c :: corr', s :: ((s' :: _) as std'), x :: ((x' :: _) as xs') =>
      (s * x) ^ 2 + 2 * c * (s * x) * (s' * x') + tri_form corr' std' xs'
  | _, s :: _, x :: _ => (s * x) ^ 2
  | _, _, _ => 0
  end.

Lemma dot_cons x xs y ys : dot (x :: xs) (y :: ys) = x * y + dot xs ys.
Proof. reflexivity. Qed.
Lemma dot_zeros (n : nat) f xs : (forall j, f j = 0) -> forall k, dot (map f (seq k n)) xs = 0.
Proof.
  intros Hf. revert xs. induction n as [|n IH]; intros xs k; [reflexivity|]. destruct xs as [|x xs]; [reflexivity|].
  cbn [seq map]. rewrite dot_cons, IH, Hf. ring.
Qed.
Lemma dot_rows (c0 : nat -> R) x0 (rest : nat -> R) xs : length xs = length xs -> forall ns,
  length ns = length xs ->
  dot xs (map (fun i => c0 i * x0 + rest i) ns) = x0 * dot xs (map c0 ns) + dot xs (map rest ns).
Proof.
  intros _. induction xs as [|x xs IH]; intros ns H; [destruct ns; [cbn; ring|discriminate]|].
  destruct ns as [|n ns]; [discriminate|]. cbn [map]. rewrite !dot_cons, IH by (cbn in H; lia). ring.
Qed.

Lemma quad_tri corr : forall std xs, length std = S (length corr) -> length xs = length std ->
  quad (tri_rows corr std) xs = tri_form corr std xs.
Proof.
  induction corr as [|c corr IH]; intros std xs Hs Hx.
  - destruct std as [|s [|? ?]]; try discriminate. destruct xs as [|x [|? ?]]; try discriminate.
    unfold quad, tri_rows, dot, covar_entry. cbn. ring.
  - destruct std as [|s std]; [discriminate|]. destruct xs as [|x xs]; [discriminate|].
    cbn [length] in Hs, Hx. injection Hs as Hs. injection Hx as Hx.
    destruct std as [|s' std]; [discriminate|]. destruct xs as [|x' xs]; [discriminate|].
    specialize (IH (s' :: std) (x' :: xs) Hs Hx).
    set (S1 := s' :: std) in *. set (X1 := x' :: xs) in *.
    assert (Eq : quad (tri_rows (c :: corr) (s :: S1)) (x :: X1)
      = x * (s ^ 2 * x + dot (map (fun j => covar_entry (c :: corr) (s :: S1) 0 (S j)) (seq 0 (length S1))) X1)
        + dot X1 (map (fun i => covar_entry (c :: corr) (s :: S1) (S i) 0 * x
             + dot (map (covar_entry corr S1 i) (seq 0 (length S1))) X1) (seq 0 (length S1)))).
    { unfold quad, tri_rows. cbn [length seq map]. rewrite dot_cons. rewrite dot_cons. f_equal.
      - rewrite <- seq_shift, map_map. reflexivity.
      - f_equal. rewrite <- seq_shift, !map_map. apply map_ext. intros i. rewrite dot_cons, map_map. reflexivity. }
    rewrite Eq. rewrite dot_rows by (try reflexivity; rewrite seq_length; lia).
    unfold quad, tri_rows in IH. rewrite map_map in IH. rewrite IH.
    assert (E1 : dot (map (fun j => covar_entry (c :: corr) (s :: S1) 0 (S j)) (seq 0 (length S1))) X1 = c * s * s' * x').
    { unfold S1, X1. cbn [length seq map]. rewrite dot_cons. rewrite <- seq_shift, map_map, (dot_zeros (length std)).
      - unfold covar_entry. cbn. ring.
      - intros j. reflexivity. }
    assert (E2 : dot X1 (map (fun i => covar_entry (c :: corr) (s :: S1) (S i) 0) (seq 0 (length S1))) = c * s * s' * x').
    { assert (Hc : forall ys, dot X1 ys = dot ys X1).
      { clear. generalize X1. intros zs. induction zs as [|z zs IH]; intros [|y ys]; try reflexivity. rewrite !dot_cons, IH. ring. }
      rewrite Hc, <- E1. reflexivity. }
    rewrite E1, E2. change (tri_form (c :: corr) (s :: S1) (x :: X1)) with ((s * x) ^ 2 + 2 * c * (s * x) * (s' * x') + tri_form corr S1 X1). ring.
Qed.

(** Semi-definite for weak correlations, and for two layers with any correlation. *)
Lemma tri_form_half corr : List.Forall (fun c => Rabs c <= 1 / 2) corr -> forall std xs,
  length std = S (length corr) -> length xs = length std ->
  forall s x, nth_error std 0 = Some s -> nth_error xs 0 = Some x -> (s * x) ^ 2 / 2 <= tri_form corr std xs.
Proof.
  induction 1 as [|c corr Hc _ IH]; intros std xs Hs Hx s x E1 E2.
  - destruct std; [discriminate|]. destruct xs; [discriminate|]. injection E1 as ->. injection E2 as ->. cbn [tri_form].
    pose proof (pow2_ge_0 (s * x)). lra.
  - destruct std as [|s0 [|s' std]]; try discriminate. destruct xs as [|x0 [|x' xs]]; try discriminate.
    injection E1 as ->. injection E2 as ->. cbn [length] in *.
    specialize (IH (s' :: std) (x' :: xs) ltac:(cbn; lia) ltac:(cbn; lia) s' x' eq_refl eq_refl).
    cbn [tri_form]. cbn [tri_form] in IH. set (T := tri_form corr (s' :: std) (x' :: xs)) in *.
    set (y := s * x) in *. set (y' := s' * x') in *.
    assert (-(1/2) <= c <= 1/2) by (unfold Rabs in Hc; destruct (Rcase_abs c); lra). assert (0 <= (y + y') ^ 2) by apply pow2_ge_0. assert (0 <= (y - y') ^ 2) by apply pow2_ge_0.
    assert (- (y ^ 2 + y' ^ 2) / 2 <= 2 * c * y * y').
    { destruct (Rle_dec 0 (y * y')) as [L|L].
      - assert (- (1/2) * (y * y') <= c * (y * y')) by (apply Rmult_le_compat_r; lra). nra.
      - assert (1/2 * (y * y') <= c * (y * y')) by nra. nra. }
    nra.
Qed.
Lemma tri_semidefinite_half corr std : length std = S (length corr) ->
  List.Forall (fun c => Rabs c <= 1 / 2) corr -> semidefinite (tri_rows corr std).
Proof.
  intros Hs Hc xs Hx. unfold tri_rows in Hx. rewrite map_length, seq_length in Hx. rewrite quad_tri by assumption.
  destruct std as [|s std]; [discriminate|]. destruct xs as [|x xs]; [discriminate|].
  pose proof (tri_form_half corr Hc (s :: std) (x :: xs) Hs Hx s x eq_refl eq_refl). pose proof (pow2_ge_0 (s * x)). lra.
Qed.
Lemma tri_semidefinite_two c s s' : -1 <= c <= 1 -> semidefinite (tri_rows [c] [s; s']).
Proof.
  intros Hc xs Hx. unfold tri_rows in Hx. rewrite map_length, seq_length in Hx. rewrite quad_tri by (try reflexivity; assumption).
  destruct xs as [|x [|x' [|? ?]]]; try discriminate. cbn [tri_form].
  set (y := s * x). set (y' := s' * x').
  replace (y ^ 2 + 2 * c * y * y' + y' ^ 2) with ((y + c * y') ^ 2 + (1 - c ^ 2) * y' ^ 2) by ring.
  pose proof (pow2_ge_0 (y + c * y')). pose proof (pow2_ge_0 y'). assert (0 <= 1 - c ^ 2) by nra. nra.
Qed.

(** A last correlation of 1 excludes semi-definiteness, unless the one before it
    vanishes. *)
Lemma tri_form_zeros k : forall corr std ys, length std = S (length corr) -> length std = (k + length ys)%nat -> ys <> [] ->
  tri_form corr std (repeat 0 k ++ ys) = tri_form (skipn k corr) (skipn k std) ys.
Proof.
  induction k as [|k IH]; intros corr std ys H1 H2 H3; [reflexivity|].
  destruct std as [|s std]; [discriminate|]. destruct corr as [|c corr].
  { cbn in H1, H2. destruct std; [|discriminate]. destruct ys; [contradiction|]. cbn in H2. lia. }
  cbn [skipn]. rewrite <- IH; [|cbn in *; lia|cbn in *; lia|assumption].
  destruct std as [|s' std]; [cbn in *; lia|]. cbn [repeat app].
  destruct (repeat 0 k ++ ys) as [|x' xs] eqn:E.
  { destruct k; [cbn in E; contradiction|discriminate]. }
  cbn [tri_form]. ring.
Qed.

Lemma tri_not_semidefinite corr rho a b c std :
  length std = length corr -> rho <> 0 -> a <> 0 -> b <> 0 -> c <> 0 ->
  ~ semidefinite (tri_rows (corr ++ [rho; 1]) (std ++ [a; b; c])).
Proof.
  intros Hl Hr Ha Hb Hc H.
  set (xs := repeat 0 (length std) ++ [- rho / a; 1 / b; -1 / c]).
  assert (Hx : length xs = length (std ++ [a; b; c])) by (unfold xs; rewrite !app_length, repeat_length; reflexivity).
  specialize (H xs). unfold tri_rows at 1 in H. rewrite map_length, seq_length in H. specialize (H Hx).
  rewrite quad_tri in H; [|rewrite !app_length; cbn; lia|exact Hx].
  unfold xs in H. rewrite tri_form_zeros in H; [|rewrite !app_length; cbn; lia|rewrite app_length; reflexivity|discriminate].
  rewrite <- Hl in H at 1 || idtac.
  assert (E1 : skipn (length std) (corr ++ [rho; 1]) = [rho; 1]).
  { rewrite Hl, skipn_app, Nat.sub_diag, skipn_all. reflexivity. }
  assert (E2 : skipn (length std) (std ++ [a; b; c]) = [a; b; c]).
  { rewrite skipn_app, Nat.sub_diag, skipn_all. reflexivity. }
  rewrite E1, E2 in H. cbn [tri_form] in H.
  replace (a * (- rho / a)) with (- rho) in H by (field; assumption).
  replace (b * (1 / b)) with 1 in H by (field; assumption).
  replace (c * (-1 / c)) with (-1) in H by (field; assumption).
  assert (0 < rho ^ 2) by (pose proof (Rsqr_pos_lt rho Hr); unfold Rsqr in *; lra). nra.
Qed.

Lemma diagonal_tri corr std : diagonal (tri_rows corr std) = map (fun s => s ^ 2) std.
Proof.
  unfold diagonal. assert (E : length (tri_rows corr std) = length std) by (unfold tri_rows; now rewrite map_length, seq_length).
  rewrite E. apply nth_error_ext. intros i. destruct (lt_dec i (length std)) as [Hi|Hi].
  - assert (Hs : nth_error (seq 0 (length std)) i = Some i).
    { rewrite (nth_error_nth' _ O) by now rewrite seq_length. now rewrite seq_nth. }
    rewrite (map_nth_error _ _ _ Hs). rewrite (map_nth_error _ _ _ (nth_error_nth' std 0 Hi)). f_equal.
    pose proof (tri_entry corr std i i Hi Hi) as H. unfold entry in H.
    destruct (nth_error (tri_rows corr std) i) as [row|] eqn:Er; [|discriminate].
    rewrite (nth_error_nth _ _ [] Er), (nth_error_nth _ _ 0 H). unfold covar_entry. now rewrite Nat.eqb_refl.
  - rewrite (proj2 (nth_error_None _ _)) by (rewrite map_length, seq_length; lia).
    rewrite (proj2 (nth_error_None _ _)) by (rewrite map_length; lia). reflexivity.
Qed.

(** The matrix built for standard deviations [ln_std]. *)
Definition scaled (ln_std : list R) : list R := map (fun s => s * tn_scale rand_limit) ln_std.
Lemma scale2_pos : 1 < tn_scale rand_limit.
Proof. apply tn_scale_gt_1. unfold rand_limit. lra. Qed.

Lemma covar_matrix_shape corr ln_std : length ln_std = S (length corr) ->
  exists rows, calc_covar_matrix corr ln_std = Ok rows /\ length rows = length ln_std /\ symmetric rows /\
    (forall i s, nth_error ln_std i = Some s -> entry rows i i = Some ((s * tn_scale 2) ^ 2)) /\
    (forall i c s s', nth_error corr i = Some c -> nth_error ln_std i = Some s -> nth_error ln_std (S i) = Some s' ->
       entry rows i (S i) = Some (c * (s * tn_scale 2) * (s' * tn_scale 2))) /\
    (forall i j, (i < length ln_std)%nat -> (j < length ln_std)%nat -> (S i < j)%nat -> entry rows i j = Some 0).
Proof.
  intros H. set (std := scaled ln_std). assert (Hl : length std = length ln_std) by (unfold std, scaled; apply map_length).
  exists (tri_rows corr std). split; [apply tridiag_ok; lia|].
  split; [unfold tri_rows; now rewrite map_length, seq_length|]. split; [apply tri_symmetric|].
  assert (Hn : forall i s, nth_error ln_std i = Some s -> (i < length std)%nat /\ nth i std 0 = s * tn_scale 2).
  { intros i s E. split; [rewrite Hl; apply nth_error_Some; congruence|]. unfold std, scaled.
    apply nth_error_nth. rewrite (map_nth_error _ _ _ E). reflexivity. }
  repeat split.
  - intros i s E. destruct (Hn _ _ E) as [H1 H2]. rewrite tri_entry by assumption. unfold covar_entry. now rewrite Nat.eqb_refl, H2.
  - intros i c s s' Ec E E'. destruct (Hn _ _ E) as [H1 H2]. destruct (Hn _ _ E') as [H3 H4].
    rewrite tri_entry by assumption. unfold covar_entry. destruct (Nat.eqb_spec i (S i)); [lia|]. rewrite Nat.eqb_refl.
    now rewrite H2, H4, (nth_error_nth _ _ 0 Ec).
  - intros i j Hi Hj Hij. rewrite tri_entry by lia. unfold covar_entry.
    destruct (Nat.eqb_spec i j); [lia|]. destruct (Nat.eqb_spec (S i) j); [lia|]. destruct (Nat.eqb_spec (S j) i); [lia|]. reflexivity.
Qed.

Lemma covar_matrix_weak corr ln_std rows : length ln_std = S (length corr) ->
  List.Forall (fun c => Rabs c <= 1 / 2) corr -> calc_covar_matrix corr ln_std = Ok rows -> semidefinite rows.
Proof.
  intros H Hc E. unfold calc_covar_matrix in E. rewrite tridiag_ok in E by (rewrite map_length; lia). injection E as <-.
  apply tri_semidefinite_half; [rewrite map_length; lia|assumption].
Qed.
Lemma covar_matrix_two c s s' rows : -1 <= c <= 1 -> calc_covar_matrix [c] [s; s'] = Ok rows -> semidefinite rows.
Proof. intros Hc E. unfold calc_covar_matrix in E. rewrite tridiag_ok in E by reflexivity. injection E as <-. now apply tri_semidefinite_two. Qed.
Lemma covar_matrix_indefinite corr rho ln_std a b c rows :
  length ln_std = length corr -> rho <> 0 -> a <> 0 -> b <> 0 -> c <> 0 ->
  calc_covar_matrix (corr ++ [rho; 1]) (ln_std ++ [a; b; c]) = Ok rows -> ~ semidefinite rows.
Proof.
  intros Hl Hr Ha Hb Hc E. unfold calc_covar_matrix in E.
  rewrite tridiag_ok in E by (rewrite map_length, !app_length; cbn; lia). injection E as <-.
  rewrite map_app. pose proof scale2_pos as Hs. apply tri_not_semidefinite; try (rewrite map_length; assumption); try assumption;
    apply Rmult_integral_contrapositive_currified; lra.
Qed.
