(** A run of the frequency-dependent calculator does not depend on what earlier runs left in the layers. *)
From Verif Require Import Common Proof.CommonFacts Model.Curve Model.Layer Model.Cplx Model.Waves Model.Eql Model.Fdm
  Spec.EqlSpec Spec.FdmSpec Proof.EqlFacts Proof.EqlProps Proof.EqlKeeps Proof.EqlRepeat.
From Coq Require Import List.
Local Open Scope R_scope.

Lemma fresets ls : forall ls', map fdescription ls = map fdescription ls' -> map freset ls = map freset ls'.
Proof.
  intros ls' H. unfold freset. rewrite <- !(map_map f_layer layer_reset). apply resets_description.
  rewrite !map_map. exact H.
Qed.
Theorem fdm_forgets F m lin ls ls' : map fdescription ls = map fdescription ls' ->
  fdm_call F m lin true ls = fdm_call F m lin true ls'.
Proof. intros H. unfold fdm_call. now rewrite (fresets _ _ H). Qed.

Lemma fupdate_keeps F m n wv lin ls : forall i upd lim, fupdate F m n wv lin i ls = Ok (Some (upd, lim)) ->
  map fdescription upd = map fdescription ls.
Proof.
  induction ls as [|l ls IH]; intros i upd lim H; cbn [fupdate] in H; [now injection H as <- <-|].
  destruct (fdm_strain F m n wv lin i l) as [[ss|]|]; [|discriminate|discriminate]. cbn [bind] in H.
  destruct (flimit (x_limit F) ss) as [s lm].
  destruct (fupdate F m n wv lin (S i) ls) as [[[u lm']|]|] eqn:E; [|discriminate|discriminate]. cbn [bind] in H.
  injection H as <- <-. cbn [map]. now rewrite (IH _ _ _ E).
Qed.
Lemma fpass_keeps F m lin wv ls st : fdm_pass F m lin wv ls = Ok (Some st) -> map fdescription (fs_layers st) = map fdescription ls.
Proof.
  unfold fdm_pass. destruct (fupdate F m (length ls) wv lin 0 (removelast ls)) as [[[u lm]|]|] eqn:E; [|discriminate|discriminate].
  cbn [bind]. destruct (fmax_errors _); [|discriminate]. cbn [bind]. intros H. injection H as <-. cbn [fs_layers].
  rewrite map_app, (fupdate_keeps _ _ _ _ _ _ _ _ _ E), <- map_app. now rewrite last_split.
Qed.
Lemma floop_keeps F m lin fuel : forall it lim ls wv t stop ls' wv', fdm_loop F m lin fuel it lim ls wv = (t, Ok (stop, ls', wv')) ->
  map fdescription ls' = map fdescription ls.
Proof.
  induction fuel as [|fuel IH]; intros it lim ls wv t stop ls' wv' H; cbn [fdm_loop] in H; [now injection H as <- <- <- <-|].
  destruct (fcalc_waves (fm_motion m) ls) as [wv1|]; [|discriminate].
  destruct (fdm_pass F m lin wv1 ls) as [[st|]|] eqn:Ep; [|now injection H as <- <- <- <-|discriminate].
  pose proof (fpass_keeps _ _ _ _ _ _ Ep) as K.
  destruct (err_below _ _); [injection H as <- <- <- <-; exact K|].
  destruct (_ && _)%bool; [discriminate|].
  destruct (fdm_loop F m lin fuel _ _ (fs_layers st) wv1) as [t' out'] eqn:El. cbn [fst snd] in H. injection H as <- ->.
  now rewrite (IH _ _ _ _ _ _ _ _ El).
Qed.
Lemma fmaxs_keep m n wv lin ls : forall i upd, fset_maxs m n wv lin i ls = Ok upd -> map fdescription upd = map fdescription ls.
Proof.
  induction ls as [|l ls IH]; intros i upd H; cbn [fset_maxs] in H; [now injection H as <-|].
  destruct (calc_strain_max (fm_motion m) n wv lin i (f_layer l)) as [mx|]; [|discriminate]. cbn [bind] in H.
  destruct (fset_maxs m n wv lin (S i) ls) as [u|] eqn:E; [|discriminate]. cbn [bind] in H.
  injection H as <-. cbn [map]. now rewrite (IH _ _ E).
Qed.
Lemma ffinish_keeps m lin out stop ls wv : fdm_finish m lin out = Ok (stop, ls, wv) ->
  exists ls0, out = Ok (stop, ls0, wv) /\ map fdescription ls = map fdescription ls0.
Proof.
  unfold fdm_finish. destruct out as [[[s ls0] w]|]; [|discriminate]. cbn [bind]. intros H. exists ls0.
  assert (HM : bind (fset_maxs m (length ls0) w lin 0 (removelast ls0)) (fun upd =>
      Ok (s, upd ++ match last_opt ls0 with Some b => [b] | None => [] end, w)) = Ok (stop, ls, wv) ->
    Ok (s, ls0, w) = Ok (stop, ls0, wv) /\ map fdescription ls = map fdescription ls0).
  { destruct (fset_maxs m (length ls0) w lin 0 (removelast ls0)) as [u|] eqn:E; [|discriminate]. cbn [bind].
    intros H0. injection H0 as <- <- <-. split; [reflexivity|].
    rewrite map_app, (fmaxs_keep _ _ _ _ _ _ _ E), <- map_app. now rewrite last_split. }
  destruct s; [exact (HM H)|exact (HM H)|injection H as <- <- <-; now split].
Qed.
Theorem fdm_keeps F m lin reset ls stop ls' wv : fr_end (fdm_call F m lin reset ls) = Ok (stop, ls', wv) ->
  map fdescription ls' = map fdescription ls.
Proof.
  unfold fdm_call. destruct reset.
  - destruct (calc_waves (fm_motion m) (map freset ls)) as [w0|]; [|discriminate].
    destruct (eql_call (estimator F) (fm_motion m) lin true (map freset ls)) as [est [[[s1 ls1] w1]|]] eqn:Ee; [|discriminate].
    destruct (fdm_loop F m lin (Z.to_nat (x_max F)) 0 (-2) (map of_layer ls1) w0) as [t out] eqn:El. cbn [fr_end]. intros H.
    destruct (ffinish_keeps _ _ _ _ _ _ H) as (ls0 & -> & E). rewrite E, (floop_keeps _ _ _ _ _ _ _ _ _ _ _ _ El).
    destruct (eql_keeps _ _ _ _ _ _ _ Ee) as [_ K]. specialize (K _ _ _ eq_refl).
    rewrite map_map. change (map (fun x => fdescription (of_layer x)) ls1) with (map description ls1). rewrite K, map_map. now apply map_ext.
  - destruct (fcalc_waves (fm_motion m) ls) as [w0|]; [|discriminate].
    destruct (fdm_loop F m lin (Z.to_nat (x_max F)) 0 (-2) ls w0) as [t out] eqn:El. cbn [fr_end]. intros H.
    destruct (ffinish_keeps _ _ _ _ _ _ H) as (ls0 & -> & E). now rewrite E, (floop_keeps _ _ _ _ _ _ _ _ _ _ _ _ El).
Qed.
(** Also after a run of another calculator on the same layers. *)
Theorem fdm_again F F' m m' lin lin' reset ls stop ls' wv : fr_end (fdm_call F m lin reset ls) = Ok (stop, ls', wv) ->
  map fdescription ls' = map fdescription ls /\
  fdm_call F' m' lin' true ls' = fdm_call F' m' lin' true ls /\
  forall P, eql_call P (fm_motion m') lin' true (map f_layer ls') = eql_call P (fm_motion m') lin' true (map f_layer ls).
Proof.
  intros H. pose proof (fdm_keeps _ _ _ _ _ _ _ _ H) as K. split; [exact K|]. split; [now apply fdm_forgets|].
  intros P. apply eql_forgets. rewrite !map_map. exact K.
Qed.
Theorem fdm_after_eql F P m m' lin lin' reset ls t stop ls' wv : eql_call P m lin reset ls = (t, Ok (stop, ls', wv)) ->
  fdm_call F m' lin' true (map of_layer ls') = fdm_call F m' lin' true (map of_layer ls).
Proof.
  intros H. destruct (eql_keeps _ _ _ _ _ _ _ H) as [_ K]. specialize (K _ _ _ eq_refl).
  apply fdm_forgets. rewrite !map_map. exact K.
Qed.
