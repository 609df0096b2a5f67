(** What an equivalent-linear run leaves alone. *)
From Verif Require Import Common Proof.CommonFacts Model.Curve Model.Layer Model.Cplx Model.Waves Model.Eql
  Spec.EqlSpec Proof.EqlFacts Proof.EqlProps.
From Coq Require Import List.
Local Open Scope R_scope.

Lemma last_split {A} (ls : list A) : removelast ls ++ match last_opt ls with Some b => [b] | None => [] end = ls.
Proof.
  induction ls as [|x ls IH]; [reflexivity|]. destruct ls as [|y ls]; [reflexivity|].
  change (last_opt (x :: y :: ls)) with (last_opt (y :: ls)). change (removelast (x :: y :: ls)) with (x :: removelast (y :: ls)).
  cbn [app]. now rewrite IH.
Qed.

Lemma update_keeps P m n wv lin ls : forall i upd lim, update_strains P m n wv lin i ls = Ok (upd, lim) ->
  map description upd = map description ls.
Proof.
  induction ls as [|l ls IH]; intros i upd lim H; cbn [update_strains] in H; [now injection H as <- <-|].
  destruct (calc_strain_max m n wv lin i l) as [mx|]; [|discriminate]. cbn [bind] in H.
  destruct (limit_strain (e_limit P) (e_ratio P * mx)) as [s lm].
  destruct (update_strains P m n wv lin (S i) ls) as [[u lm']|] eqn:E; [|discriminate]. cbn [bind] in H.
  injection H as <- <-. cbn [map]. now rewrite (IH _ _ _ E).
Qed.
Lemma pass_keeps P m lin wv ls st : eql_pass P m lin wv ls = Ok st -> map description (st_layers st) = map description ls.
Proof.
  unfold eql_pass. destruct (update_strains P m (length ls) wv lin 0 (removelast ls)) as [[u lm]|] eqn:E; [|discriminate].
  cbn [bind]. destruct (max_errors _); [|discriminate]. cbn [bind]. intros H. injection H as <-. cbn [st_layers].
  rewrite map_app, (update_keeps _ _ _ _ _ _ _ _ _ E), <- map_app. now rewrite last_split.
Qed.
Lemma loop_keeps P m lin fuel : forall it lim ls wv t out, eql_loop P m lin fuel it lim ls wv = (t, out) ->
  (forall st, In st t -> map description (st_layers st) = map description ls) /\
  forall stop ls' wv', out = Ok (stop, ls', wv') -> map description ls' = map description ls.
Proof.
  induction fuel as [|fuel IH]; intros it lim ls wv t out H; cbn [eql_loop] in H.
  { injection H as <- <-. split; [intros st []|]. intros. congruence. }
  destruct (calc_waves m ls) as [wv1|]; [|injection H as <- <-; split; [intros st []|discriminate]].
  destruct (eql_pass P m lin wv1 ls) as [st|] eqn:Ep; [|injection H as <- <-; split; [intros s []|discriminate]].
  pose proof (pass_keeps _ _ _ _ _ _ Ep) as K.
  destruct (err_below _ _).
  { injection H as <- <-. split; [intros s [<-|[]]; exact K|]. intros stop ls' wv' E. injection E as <- <- <-. exact K. }
  destruct (_ && _)%bool.
  { injection H as <- <-. split; [intros s [<-|[]]; exact K|discriminate]. }
  injection H as <- <-. destruct (eql_loop P m lin fuel _ _ (st_layers st) wv1) as [t' out'] eqn:El.
  destruct (IH _ _ _ _ _ _ El) as [A B]. cbn [fst snd]. split.
  - intros s [<-|Hs]; [exact K|]. now rewrite (A s Hs).
  - intros stop ls' wv' E. now rewrite (B _ _ _ E).
Qed.
Lemma maxs_keep m n wv lin ls : forall i upd, set_strain_maxs m n wv lin i ls = Ok upd -> map description upd = map description ls.
Proof.
  induction ls as [|l ls IH]; intros i upd H; cbn [set_strain_maxs] in H; [now injection H as <-|].
  destruct (calc_strain_max m n wv lin i l) as [mx|]; [|discriminate]. cbn [bind] in H.
  destruct (set_strain_maxs m n wv lin (S i) ls) as [u|] eqn:E; [|discriminate]. cbn [bind] in H.
  injection H as <-. cbn [map]. now rewrite (IH _ _ E).
Qed.

Theorem eql_keeps P m lin reset ls t r : eql_call P m lin reset ls = (t, r) ->
  (forall st, In st t -> map description (st_layers st) = map description ls) /\
  forall stop ls' wv, r = Ok (stop, ls', wv) -> map description ls' = map description ls.
Proof.
  intros H. destruct (call_loop P m lin reset ls t r H) as [(-> & e & -> & _)|(wv0 & out & _ & El & ->)]; [split; [intros st []|discriminate]|].
  destruct (loop_keeps _ _ _ _ _ _ _ _ _ _ El) as [A B].
  assert (S : map description (start_layers m reset ls) = map description ls).
  { unfold start_layers. destruct reset; [|reflexivity]. unfold estimate_strains. rewrite !map_map. now apply map_ext. }
  split; [intros st Hs; now rewrite (A st Hs)|]. intros stop ls' wv E.
  destruct out as [[[stop2 ls2] wv2]|]; cbn [bind] in E; [|discriminate].
  destruct (set_strain_maxs m (length ls2) wv2 lin 0 (removelast ls2)) as [u|] eqn:Em; cbn [bind] in E; [|discriminate].
  injection E as _ <- _. rewrite map_app, (maxs_keep _ _ _ _ _ _ _ Em), <- map_app, last_split. rewrite (B _ _ _ eq_refl). exact S.
Qed.
