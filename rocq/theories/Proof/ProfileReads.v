(** What a stored profile gives at any depth: C73 and C149. *)
From Coq Require Import Sorted.
From Verif Require Import Common Model.Curve Model.Layer Model.Profile Model.Averages Model.Output Model.Tables Spec.ProfileSpec Spec.CurveSpec Spec.OutputSpec Spec.ReadSpec
  Proof.CommonFacts Proof.CurveFacts Proof.OutputFacts Proof.OutputProps Proof.OutputValues Proof.TableProps.
Local Open Scope R_scope.

Lemma reads_exists rs vs z : rs <> [] -> length rs = length vs -> exists v, reads rs vs z v.
Proof.
  revert vs. induction rs as [|x xs IH]; intros [|v vs] N L; try discriminate; [congruence|].
  destruct (Rle_lt_dec z x); [exists v; now constructor|]. destruct xs as [|y ys].
  - destruct vs; [|discriminate]. exists v. now apply reads_last.
  - destruct (IH vs ltac:(discriminate) ltac:(now injection L)) as [w W]. exists w. now apply reads_below.
Qed.
Lemma reads_pos rs vs z v : Forall (fun x => 0 < x) vs -> reads rs vs z v -> 0 < v.
Proof. intros P R. induction R; inversion P; subst; auto. Qed.
Lemma reads_next rs vs z v : reads rs vs z v -> length rs = length vs -> next_value (combine rs (map ln vs)) z = Some (ln v).
Proof.
  induction 1 as [x v xs vs z H|x v xs vs z w H R IH|x v z H]; intros L.
  - cbn [combine map next_value]. unfold Rltb. destruct (combine xs (map ln vs)); [reflexivity|]. destruct (Rlt_dec x z); [lra|reflexivity].
  - specialize (IH ltac:(now injection L)). cbn [combine map next_value]. destruct (combine xs (map ln vs)) as [|p l]; [discriminate IH|].
    unfold Rltb. destruct (Rlt_dec x z); [exact IH|lra].
  - reflexivity.
Qed.
Lemma reads_deep rs vs z v w : reads rs vs z v -> length rs = length vs -> (forall x, In x rs -> x < z) -> last_opt vs = Some w -> v = w.
Proof.
  induction 1 as [x v xs vs z H|x v xs vs z u H R IH|x v z H]; intros L A E.
  - pose proof (A x (or_introl eq_refl)). lra.
  - apply IH; [now injection L|intros y Hy; apply A; now right|]. destruct vs as [|v1 vs]; [inversion R|exact E].
  - now injection E.
Qed.

Theorem profile_reads rs vs n z : rs <> [] -> length rs = length vs -> StronglySorted Rlt rs -> Forall (fun x => 0 < x) vs ->
  exists v, reads rs vs z v /\ profile_at (padded n (map Some rs)) (padded n (map Some vs)) z = Some v.
Proof.
  intros N L S P. destruct (reads_exists rs vs z N L) as [v R]. exists v. split; [exact R|].
  unfold profile_at, ln_interp. rewrite finite_pairs_padded by exact L. cbv zeta.
  set (lp := map (fun p => (fst p, ln (snd p))) (combine rs vs)).
  assert (Elp : lp = combine rs (map ln vs)).
  { unfold lp. clear. revert vs; induction rs as [|r rs IH]; intros [|v vs]; try reflexivity. cbn. f_equal. apply IH. }
  assert (Hsrt : xsorted lp) by (rewrite Elp; apply xsorted_pairs; [now rewrite map_length|exact S]).
  rewrite (sort_pts_sorted _ Hsrt).
  destruct rs as [|x0 rs]; [congruence|]. destruct vs as [|v0 vs]; [discriminate|].
  assert (E0 : exists rest, lp = (x0, ln v0) :: rest) by (rewrite Elp; eexists; reflexivity).
  destruct E0 as [rest E0]. destruct (last_opt lp) as [[xl yl]|] eqn:El.
  2:{ apply last_opt_none in El. rewrite El in E0. discriminate. }
  assert (LB : exists vl, last_opt (x0 :: rs) = Some xl /\ last_opt (v0 :: vs) = Some vl /\ yl = ln vl).
  { rewrite Elp in El. clear - El L. revert vs v0 x0 El L. induction rs as [|r rs IH]; intros [|w vs] v0 x0 El L; try discriminate.
    - cbn in El. injection El as <- <-. now exists v0.
    - destruct (IH vs w r) as (vl & A & B & C); [exact El|cbn in L |- *; lia|]. exists vl. split; [exact A|split; [exact B|exact C]]. }
  destruct LB as (vl & LX & LV & ->).
  rewrite E0. rewrite E0 in Hsrt, El. rewrite ?(sort_pts_sorted _ Hsrt), El. rewrite <- E0, Elp. cbn [option_map].
  pose proof (reads_pos _ _ _ _ P R) as Pv.
  unfold Rltb. destruct (Rlt_dec z x0) as [Z|Z].
  { inversion R; subst; try lra. cbn [option_map]. now rewrite exp_ln. }
  pose proof (reads_next _ _ _ _ R L) as NX. destruct (Rlt_dec xl z) as [Z2|Z2]; [|rewrite NX; cbn [option_map]; now rewrite exp_ln].
  assert (G : forall x, In x (x0 :: rs) -> x < z).
  { intros x Hx. apply In_nth_error in Hx. destruct Hx as [i Ha]. assert (exists y, nth_error (v0 :: vs) i = Some y) as [y Hy].
    { destruct (nth_error (v0 :: vs) i) eqn:E; [now eexists|]. apply nth_error_None in E. rewrite <- L in E. apply nth_error_None in E. congruence. }
    pose proof (xsorted_in_last _ (x, ln y) (xl, ln vl) Hsrt El) as Q. rewrite <- E0, Elp in Q.
    assert (HI : In (x, ln y) (combine (x0 :: rs) (map ln (v0 :: vs)))).
    { apply nth_error_In with i. apply nth_error_combine; [exact Ha|]. now apply map_nth_error. }
    specialize (Q HI). cbn in Q. lra. }
  rewrite (reads_deep _ _ _ _ _ R L G LV) in *. cbn [option_map]. now rewrite exp_ln.
Qed.
