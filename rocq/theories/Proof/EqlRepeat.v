(** A run does not depend on what earlier runs left in the layers, and an exhausted run can be continued. *)
From Verif Require Import Common Proof.CommonFacts Model.Curve Model.Layer Model.Cplx Model.Waves Model.Eql
  Spec.EqlSpec Proof.EqlFacts Proof.EqlProps Proof.EqlKeeps.
From Coq Require Import List.
Local Open Scope R_scope.

Lemma reset_description a b : description a = description b -> layer_reset a = layer_reset b.
Proof.
  unfold description. intros H. injection H as H1 H2 H3 H4 H5 H6 H7.
  unfold layer_reset, initial_shear_mod. now rewrite H1, H2, H3, H4, H5, H6, H7.
Qed.
Lemma resets_description ls : forall ls', map description ls = map description ls' -> map layer_reset ls = map layer_reset ls'.
Proof.
  induction ls as [|a ls IH]; intros [|b ls'] H; try discriminate; [reflexivity|]. cbn [map] in *.
  injection H as H1 H2 H3 H4 H5 H6 H7 H8. rewrite (reset_description a b), (IH _ H8); [reflexivity|]. unfold description. congruence.
Qed.

Theorem le_forgets m ls ls' : map description ls = map description ls' -> le_call m true ls = le_call m true ls'.
Proof. intros H. unfold le_call. now rewrite (resets_description _ _ H). Qed.
Theorem eql_forgets P m lin ls ls' : map description ls = map description ls' ->
  eql_call P m lin true ls = eql_call P m lin true ls'.
Proof. intros H. unfold eql_call, le_call. now rewrite (resets_description _ _ H). Qed.
(** Running again, with the same or with another motion, is as if the first run had not been made. *)
Theorem eql_again P P' m m' lin lin' reset ls t stop ls' wv : eql_call P m lin reset ls = (t, Ok (stop, ls', wv)) ->
  eql_call P' m' lin' true ls' = eql_call P' m' lin' true ls /\ le_call m' true ls' = le_call m' true ls.
Proof.
  intros H. destruct (eql_keeps _ _ _ _ _ _ _ H) as [_ K]. specialize (K _ _ _ eq_refl).
  split; [now apply eql_forgets|now apply le_forgets].
Qed.

(** * Continuing *)
Lemma loop_shift P m lin fuel : forall it lim it' lim' ls wv, (lim < it)%Z -> (lim' < it')%Z ->
  (lim =? it - 1)%Z = (lim' =? it' - 1)%Z ->
  eql_loop P m lin fuel it lim ls wv = eql_loop P m lin fuel it' lim' ls wv.
Proof.
  induction fuel as [|fuel IH]; intros it lim it' lim' ls wv H1 H2 E; [reflexivity|]. cbn [eql_loop]. rewrite <- E.
  destruct (calc_waves m ls) as [wv1|]; [|reflexivity]. destruct (eql_pass P m lin wv1 ls) as [st|]; [|reflexivity].
  destruct (err_below _ _); [reflexivity|]. destruct (_ && _)%bool; [reflexivity|].
  rewrite (IH (it + 1)%Z (if st_limited st then it else lim) (it' + 1)%Z (if st_limited st then it' else lim')); [reflexivity| | |].
  - destruct (st_limited st); lia.
  - destruct (st_limited st); lia.
  - destruct (st_limited st).
    + transitivity true; [apply Z.eqb_eq; lia|symmetry; apply Z.eqb_eq; lia].
    + transitivity false; [apply Z.eqb_neq; lia|symmetry; apply Z.eqb_neq; lia].
Qed.

Lemma loop_max P n m lin fuel : forall it lim ls wv, eql_loop (with_max P n) m lin fuel it lim ls wv = eql_loop P m lin fuel it lim ls wv.
Proof.
  assert (HU : forall k wv ls i, update_strains (with_max P n) m k wv lin i ls = update_strains P m k wv lin i ls).
  { intros k wv ls. induction ls as [|l ls IH]; intros i; [reflexivity|]. cbn [update_strains with_max e_limit e_ratio]. now rewrite IH. }
  induction fuel as [|fuel IH]; intros it lim ls wv; [reflexivity|]. cbn [eql_loop]. unfold eql_pass. 
  destruct (calc_waves m ls) as [wv1|]; [|reflexivity]. rewrite HU.
  destruct (bind (update_strains P m _ _ _ _ _) _) as [st|]; [|reflexivity]. cbn [with_max e_tol]. now rewrite IH.
Qed.

Fixpoint lastlim (it lim : Z) (t : list eql_step) : Z :=
  match t with [] => lim | st :: t' => lastlim (it + 1) (if st_limited st then it else lim) t' end.
Lemma lastlim_bound t : forall it lim, (lim < it)%Z -> (lastlim it lim t < it + Z.of_nat (length t))%Z.
Proof.
  induction t as [|s t IH]; intros it lim H; [cbn; lia|]. cbn [lastlim length].
  specialize (IH (it + 1)%Z (if st_limited s then it else lim)). destruct (st_limited s); lia.
Qed.
Lemma lastlim_clear st t : forall it lim, (lim < it)%Z -> last_opt t = Some st -> st_limited st = false ->
  (lastlim it lim t < it + Z.of_nat (length t) - 1)%Z.
Proof.
  induction t as [|s t IH]; intros it lim H L F; [discriminate|]. destruct t as [|s' t].
  - cbn in L. injection L as ->. cbn. rewrite F. lia.
  - change (last_opt (s' :: t) = Some st) in L.
    change (lastlim it lim (s :: s' :: t)) with (lastlim (it + 1) (if st_limited s then it else lim) (s' :: t)).
    change (length (s :: s' :: t)) with (S (length (s' :: t))).
    assert (Hl : ((if st_limited s then it else lim) < it + 1)%Z) by (destruct (st_limited s); lia).
    specialize (IH _ _ Hl L F). lia.
Qed.
Lemma loop_split P m lin b a : forall it lim ls wv t ls1 wv1,
  eql_loop P m lin a it lim ls wv = (t, Ok (Exhausted, ls1, wv1)) ->
  length t = a /\
  eql_loop P m lin (a + b) it lim ls wv =
      (t ++ fst (eql_loop P m lin b (it + Z.of_nat a) (lastlim it lim t) ls1 wv1),
       snd (eql_loop P m lin b (it + Z.of_nat a) (lastlim it lim t) ls1 wv1)).
Proof.
  induction a as [|a IH]; intros it lim ls wv t ls1 wv1 H.
  { cbn [eql_loop] in H. injection H as <- <- <-. replace (it + Z.of_nat 0)%Z with it by lia. cbn [lastlim].
    split; [reflexivity|]. cbn [Nat.add app]. now destruct (eql_loop P m lin b it lim ls wv). }
  cbn [eql_loop Nat.add] in *. destruct (calc_waves m ls) as [wv2|]; [|discriminate].
  destruct (eql_pass P m lin wv2 ls) as [st|]; [|discriminate]. destruct (err_below _ _); [discriminate|].
  destruct (_ && _)%bool; [discriminate|].
  destruct (eql_loop P m lin a (it + 1) (if st_limited st then it else lim) (st_layers st) wv2) as [t' out'] eqn:El.
  cbn [fst snd] in H. injection H as <- ->.
  destruct (IH _ _ _ _ _ _ _ El) as (Ln & E).
  replace (it + Z.of_nat (S a))%Z with (it + 1 + Z.of_nat a)%Z by lia. cbn [length lastlim]. split; [lia|].
  rewrite E. reflexivity.
Qed.

(** * The recorded maximum is never read *)
Lemma alike_refl l : alike l l. Proof. now repeat split. Qed.
Lemma alike_wlayer a b : alike a b -> wlayer_of a = wlayer_of b.
Proof.
  intros (D & G & Dm & _). unfold description in D. injection D as H1 H2 H3 H4 H5 H6 H7.
  unfold wlayer_of, comp_shear_vel, comp_shear_mod, shear_mod, damping, density. now rewrite H1, H2, G, Dm.
Qed.
Lemma alike_thick a b : alike a b -> l_thick a = l_thick b.
Proof. intros (D & _). unfold description in D. now injection D. Qed.
Lemma alike_set a b s : alike a b -> alike (set_strain a s) (set_strain b s).
Proof.
  intros (D & G & Dm & St). unfold description in D. injection D as H1 H2 H3 H4 H5 H6 H7.
  unfold alike, description, set_strain, compute_mod, compute_damping, initial_shear_mod. cbn.
  rewrite H1, H2, H3, H4, H5, H6, H7, G, Dm, St. now repeat split.
Qed.
Lemma alike_error a b : alike a b -> max_error a = max_error b.
Proof. intros (_ & G & D & _). unfold max_error. now rewrite G, D. Qed.
Lemma alikes_wlayers ls ls' : Forall2 alike ls ls' -> map wlayer_of ls = map wlayer_of ls'.
Proof. induction 1; cbn [map]; [reflexivity|]. now rewrite (alike_wlayer _ _ H), IHForall2. Qed.
Lemma alikes_waves m ls ls' : Forall2 alike ls ls' -> calc_waves m ls = calc_waves m ls'.
Proof. intros H. unfold calc_waves. now rewrite (alikes_wlayers _ _ H). Qed.
Lemma alikes_errors ls ls' : Forall2 alike ls ls' -> max_errors ls = max_errors ls'.
Proof.
  induction 1 as [|a b ls ls' Ha H IH]; [reflexivity|]. destruct H as [|a' b' ls ls' Ha' H].
  - cbn. now rewrite (alike_error _ _ Ha).
  - change (max_errors (a :: a' :: ls)) with (bind (max_errors (a' :: ls)) (fun e => Ok (perr_max (max_error a) e))).
    rewrite IH, (alike_error _ _ Ha). reflexivity.
Qed.
Lemma alikes_removelast ls ls' : Forall2 alike ls ls' -> Forall2 alike (removelast ls) (removelast ls').
Proof.
  induction 1 as [|a b ls ls' Ha H IH]; [constructor|]. destruct H as [|a' b' ls ls' Ha' H]; [constructor|].
  change (removelast (a :: a' :: ls)) with (a :: removelast (a' :: ls)). constructor; [exact Ha|exact IH].
Qed.
Definition tail_of (ls : list layer) : list layer := match last_opt ls with Some b => [b] | None => [] end.
Lemma alikes_last ls ls' : Forall2 alike ls ls' -> Forall2 alike (tail_of ls) (tail_of ls').
Proof.
  induction 1 as [|a b ls ls' Ha H IH]; [constructor|]. destruct H as [|a' b' ls ls' Ha' H]; [repeat constructor; apply Ha|].
  exact IH.
Qed.
Lemma alikes_length ls ls' : Forall2 alike ls ls' -> length ls = length ls'.
Proof. induction 1; cbn; congruence. Qed.
Lemma alike_strain_max m n wv lin i a b : alike a b -> calc_strain_max m n wv lin i a = calc_strain_max m n wv lin i b.
Proof. intros H. unfold calc_strain_max. now rewrite (alike_thick _ _ H). Qed.

Definition res_alike {A} (R : A -> A -> Prop) (x y : res A) : Prop :=
  match x, y with Ok a, Ok b => R a b | Err e, Err f => e = f | _, _ => False end.
Lemma alikes_update P m n wv lin ls ls' : Forall2 alike ls ls' -> forall i,
  res_alike (fun x y => Forall2 alike (fst x) (fst y) /\ snd x = snd y)
    (update_strains P m n wv lin i ls) (update_strains P m n wv lin i ls').
Proof.
  induction 1 as [|a b ls ls' Ha H IH]; intros i; [cbn; split; [constructor|reflexivity]|]. cbn [update_strains].
  rewrite <- (alike_strain_max m n wv lin i a b Ha). destruct (calc_strain_max m n wv lin i a) as [mx|]; [|reflexivity].
  cbn [bind]. destruct (limit_strain _ _) as [s lm]. specialize (IH (S i)).
  destruct (update_strains P m n wv lin (S i) ls) as [[u lm1]|], (update_strains P m n wv lin (S i) ls') as [[u' lm1']|]; try contradiction; [|exact IH].
  cbn in IH |- *. destruct IH as [A ->]. split; [|reflexivity]. constructor; [now apply alike_set|exact A].
Qed.
Lemma alikes_pass P m lin wv ls ls' : Forall2 alike ls ls' ->
  res_alike step_alike (eql_pass P m lin wv ls) (eql_pass P m lin wv ls').
Proof.
  intros H. unfold eql_pass. rewrite <- (alikes_length _ _ H).
  pose proof (alikes_update P m (length ls) wv lin _ _ (alikes_removelast _ _ H) 0) as U.
  destruct (update_strains P m (length ls) wv lin 0 (removelast ls)) as [[u lm]|], (update_strains P m (length ls) wv lin 0 (removelast ls')) as [[u' lm']|]; try contradiction; [|exact U].
  cbn in U. destruct U as [U ->]. cbn [bind]. fold (tail_of ls) (tail_of ls').
  pose proof (Forall2_app U (alikes_last _ _ H)) as U2. rewrite <- (alikes_errors _ _ U2).
  destruct (max_errors (u ++ tail_of ls)); [|reflexivity]. cbn. split; [exact U2|now split].
Qed.
Definition outs_alike (x y : eql_stop * list layer * list (list wrow)) : Prop :=
  fst (fst x) = fst (fst y) /\ Forall2 alike (snd (fst x)) (snd (fst y)) /\ snd x = snd y.
Lemma alikes_loop P m lin fuel : forall it lim ls ls' wv, Forall2 alike ls ls' ->
  Forall2 step_alike (fst (eql_loop P m lin fuel it lim ls wv)) (fst (eql_loop P m lin fuel it lim ls' wv)) /\
  res_alike outs_alike (snd (eql_loop P m lin fuel it lim ls wv)) (snd (eql_loop P m lin fuel it lim ls' wv)).
Proof.
  induction fuel as [|fuel IH]; intros it lim ls ls' wv H; [cbn; split; [constructor|split; [reflexivity|now split]]|]. cbn [eql_loop].
  rewrite <- (alikes_waves m _ _ H). destruct (calc_waves m ls) as [wv1|]; [|cbn; now split].
  pose proof (alikes_pass P m lin wv1 _ _ H) as U.
  destruct (eql_pass P m lin wv1 ls) as [st|], (eql_pass P m lin wv1 ls') as [st'|]; try contradiction; [|cbn; split; [constructor|exact U]].
  pose proof U as S0. destruct U as (U1 & U2 & U3). rewrite <- U2, <- U3.
  destruct (err_below _ _); [cbn; split; [repeat constructor; assumption|split; [reflexivity|now split]]|].
  destruct (_ && _)%bool; [cbn; split; [repeat constructor; assumption|reflexivity]|].
  cbn [fst snd]. destruct (IH (it + 1)%Z (if st_limited st then it else lim) _ _ wv1 U1) as [A B].
  split; [constructor; [exact S0|exact A]|exact B].
Qed.
Lemma alikes_maxs m n wv lin ls ls' : Forall2 alike ls ls' -> forall i,
  set_strain_maxs m n wv lin i ls = set_strain_maxs m n wv lin i ls'.
Proof.
  induction 1 as [|a b ls ls' Ha H IH]; intros i; [reflexivity|]. cbn [set_strain_maxs].
  rewrite (alike_strain_max m n wv lin i a b Ha), IH. destruct Ha as (D & G & Dm & St).
  unfold description in D. injection D as H1 H2 H3 H4 H5 H6 H7.
  unfold set_strain_max. now rewrite H1, H2, H3, H4, H5, H6, H7, G, Dm, St.
Qed.

Lemma maxs_alike m n wv lin ls : forall i upd, set_strain_maxs m n wv lin i ls = Ok upd -> Forall2 alike upd ls.
Proof.
  induction ls as [|l ls IH]; intros i upd H; cbn [set_strain_maxs] in H; [injection H as <-; constructor|].
  destruct (calc_strain_max m n wv lin i l) as [mx|]; [|discriminate]. cbn [bind] in H.
  destruct (set_strain_maxs m n wv lin (S i) ls) as [u|] eqn:E; [|discriminate]. cbn [bind] in H.
  injection H as <-. constructor; [now repeat split|now apply (IH (S i))].
Qed.
Lemma tail_of_app u ls : tail_of (u ++ tail_of ls) = match tail_of ls with [] => tail_of u | _ => tail_of ls end.
Proof.
  assert (H : tail_of ls = [] \/ exists b, tail_of ls = [b]) by (unfold tail_of; destruct (last_opt ls) as [b|]; [right; now exists b|now left]).
  destruct H as [->|[b ->]]; [now rewrite app_nil_r|].
  induction u as [|x u IH]; [reflexivity|]. destruct u as [|y u]; [reflexivity|].
  change ((x :: y :: u) ++ [b]) with (x :: (y :: u) ++ [b]). exact IH.
Qed.
Lemma tail_of_nil ls : tail_of ls = [] -> ls = [].
Proof. pose proof (last_split ls) as H. unfold tail_of. intros E. rewrite E in H. destruct ls as [|x ls]; [reflexivity|].
  exfalso. unfold tail_of in E. clear H. revert x E. induction ls as [|y ls IH]; intros x E; [discriminate|]. apply (IH y E).
Qed.
Lemma tail_step u ls n P m wv lin lm : update_strains P m n wv lin 0 (removelast ls) = Ok (u, lm) -> tail_of (u ++ tail_of ls) = tail_of ls.
Proof.
  intros H. rewrite tail_of_app. destruct (tail_of ls) eqn:E; [|reflexivity]. apply tail_of_nil in E. subst ls. cbn in H. now injection H as <- _.
Qed.
Lemma loop_tail P m lin fuel : forall it lim ls wv t stop ls' wv', eql_loop P m lin fuel it lim ls wv = (t, Ok (stop, ls', wv')) ->
  tail_of ls' = tail_of ls /\ length ls' = length ls.
Proof.
  induction fuel as [|fuel IH]; intros it lim ls wv t stop ls' wv' H; cbn [eql_loop] in H; [now injection H as <- <- <- <-|].
  destruct (calc_waves m ls) as [wv1|]; [|discriminate]. destruct (eql_pass P m lin wv1 ls) as [st|] eqn:Ep; [|discriminate].
  assert (K : tail_of (st_layers st) = tail_of ls).
  { unfold eql_pass in Ep. destruct (update_strains P m (length ls) wv1 lin 0 (removelast ls)) as [[u lm]|] eqn:E; [|discriminate].
    cbn [bind] in Ep. destruct (max_errors _); [|discriminate]. cbn [bind] in Ep. injection Ep as <-. cbn [st_layers].
    fold (tail_of ls). eapply tail_step, E. }
  assert (L : length (st_layers st) = length ls).
  { rewrite <- (map_length description), (pass_keeps _ _ _ _ _ _ Ep). apply map_length. }
  destruct (err_below _ _); [injection H as <- <- <- <-; now split|]. destruct (_ && _)%bool; [discriminate|].
  destruct (eql_loop P m lin fuel _ _ (st_layers st) wv1) as [t' out'] eqn:El. cbn [fst snd] in H. injection H as <- ->.
  destruct (IH _ _ _ _ _ _ _ _ El) as [A B]. split; congruence.
Qed.

(** The lines after the loop. *)
Definition finish (m : motion) (lin : wloc) (out : res (eql_stop * list layer * list (list wrow)))
    : res (eql_stop * list layer * list (list wrow)) :=
  bind out (fun '(stop, ls2, waves) =>
    bind (set_strain_maxs m (length ls2) waves lin 0 (removelast ls2)) (fun upd =>
      Ok (stop, upd ++ match last_opt ls2 with Some b => [b] | None => [] end, waves))).
Lemma finish_alike m lin stop ls ls' wv : Forall2 alike ls ls' -> tail_of ls = tail_of ls' ->
  finish m lin (Ok (stop, ls, wv)) = finish m lin (Ok (stop, ls', wv)).
Proof.
  intros H T. unfold finish. cbn [bind]. fold (tail_of ls) (tail_of ls').
  rewrite (alikes_length _ _ H), (alikes_maxs m _ wv lin _ _ (alikes_removelast _ _ H) 0), T. reflexivity.
Qed.

Lemma call_finish P m lin (reset : bool) ls wv0 : calc_waves m (if reset then map layer_reset ls else ls) = Ok wv0 ->
  eql_call P m lin reset ls =
    (fst (eql_loop P m lin (Z.to_nat (e_max P)) 0 (-2) (start_layers m reset ls) wv0),
     finish m lin (snd (eql_loop P m lin (Z.to_nat (e_max P)) 0 (-2) (start_layers m reset ls) wv0))).
Proof.
  intros H. destruct (eql_call P m lin reset ls) as [t r] eqn:E.
  destruct (call_loop P m lin reset ls t r E) as [(-> & e & -> & X)|(wv & out & X & El & ->)]; [congruence|].
  rewrite H in X. injection X as <-. now rewrite El.
Qed.

Theorem eql_continues P n1 n2 m lin reset ls t1 ls1 wv1 : (0 <= n1)%Z -> (0 < n2)%Z ->
  eql_call (with_max P n1) m lin reset ls = (t1, Ok (Exhausted, ls1, wv1)) ->
  (forall st, last_opt t1 = Some st -> st_limited st = false) ->
  exists t2, fst (eql_call (with_max P (n1 + n2)) m lin reset ls) = t1 ++ t2 /\
    Forall2 step_alike t2 (fst (eql_call (with_max P n2) m lin false ls1)) /\
    snd (eql_call (with_max P (n1 + n2)) m lin reset ls) = snd (eql_call (with_max P n2) m lin false ls1).
Proof.
  intros Hn1 Hn2 H Hlast.
  destruct (call_loop _ _ _ _ _ _ _ H) as [(_ & e & C0 & _)|(wv0 & out & Hw & El & Er)]; [discriminate|].
  fold (finish m lin out) in Er. rewrite (call_finish (with_max P (n1 + n2)) m lin reset ls wv0 Hw).
  cbn [with_max e_max] in El |- *. rewrite loop_max in El |- *.
  destruct out as [[[stop2 ls2] wv2]|]; [|discriminate].
  assert (Hs : stop2 = Exhausted /\ wv2 = wv1 /\ Forall2 alike ls1 ls2 /\ tail_of ls1 = tail_of ls2).
  { unfold finish in Er. cbn [bind] in Er. destruct (set_strain_maxs m (length ls2) wv2 lin 0 (removelast ls2)) as [upd|] eqn:Em; [|discriminate].
    cbn [bind] in Er. injection Er as E1 E2 E3. split; [easy|]. split; [easy|]. fold (tail_of ls2) in E2. split.
    - rewrite E2. rewrite <- (last_split ls2) at 2. fold (tail_of ls2). apply Forall2_app; [eapply maxs_alike, Em|].
      generalize (tail_of ls2) as q. induction q; constructor; [apply alike_refl|assumption].
    - rewrite E2, tail_of_app. destruct (tail_of ls2) eqn:E; [|reflexivity]. apply tail_of_nil in E. subst ls2. cbn in Em. now injection Em as <-. }
  destruct Hs as (-> & -> & Ha & Ht).
  replace (Z.to_nat (n1 + n2)) with (Z.to_nat n1 + Z.to_nat n2)%nat by lia.
  destruct (loop_split P m lin (Z.to_nat n2) _ _ _ _ _ _ _ _ El) as [Ln E]. rewrite E. cbn [fst snd].
  set (lim := lastlim 0 (-2) t1) in *.
  assert (Hlim : (lim < 0 + Z.of_nat (Z.to_nat n1))%Z) by (rewrite <- Ln; apply lastlim_bound; lia).
  assert (Hq : (lim =? 0 + Z.of_nat (Z.to_nat n1) - 1)%Z = false).
  { apply Z.eqb_neq. destruct (last_opt t1) as [st|] eqn:L.
    - pose proof (lastlim_clear st t1 0 (-2) ltac:(lia) L (Hlast _ eq_refl)) as X. rewrite Ln in X. fold lim in X. lia.
    - destruct t1 as [|s t1]; [cbn in Ln; unfold lim; cbn; lia|]. exfalso. clear -L. revert s L. induction t1; intros s L; [discriminate|]. apply (IHt1 _ L). }
  rewrite (loop_shift P m lin (Z.to_nat n2) _ _ 0 (-2) ls2 wv1 Hlim ltac:(lia) Hq).
  exists (fst (eql_loop P m lin (Z.to_nat n2) 0 (-2) ls2 wv1)). split; [reflexivity|].
  destruct (calc_waves m ls1) as [wvc|e] eqn:Ec.
  - rewrite (call_finish (with_max P n2) m lin false ls1 wvc Ec). cbn [fst snd start_layers with_max e_max]. rewrite loop_max.
    assert (Hwv : eql_loop P m lin (Z.to_nat n2) 0 (-2) ls1 wvc = eql_loop P m lin (Z.to_nat n2) 0 (-2) ls1 wv1).
    { destruct (Z.to_nat n2) eqn:En; [lia|]. cbn [eql_loop]. now rewrite Ec. }
    rewrite Hwv. 
    assert (Ha' : Forall2 alike ls2 ls1).
    { clear -Ha. induction Ha; constructor; [|assumption]. destruct H as (A & B & C & D). now repeat split. }
    destruct (alikes_loop P m lin (Z.to_nat n2) 0 (-2) _ _ wv1 Ha') as [A B]. split; [exact A|].
    destruct (eql_loop P m lin (Z.to_nat n2) 0 (-2) ls2 wv1) as [ta oa] eqn:Ea, (eql_loop P m lin (Z.to_nat n2) 0 (-2) ls1 wv1) as [tb ob] eqn:Eb.
    cbn [fst snd] in B |- *. destruct oa as [[[sa la] wa]|ea], ob as [[[sb lb] wb]|eb]; try contradiction.
    + destruct B as (B1 & B2 & B3). cbn [fst snd] in B1, B2, B3. subst sb wb. apply finish_alike; [exact B2|].
      destruct (loop_tail _ _ _ _ _ _ _ _ _ _ _ _ Ea) as [T1 _], (loop_tail _ _ _ _ _ _ _ _ _ _ _ _ Eb) as [T2 _]. congruence.
    + cbn in B. now subst eb.
  - assert (Ec2 : calc_waves m ls2 = Err e) by (now rewrite <- (alikes_waves m _ _ Ha)).
    unfold eql_call, le_call. rewrite Ec. cbn [fst snd]. destruct (Z.to_nat n2) eqn:En; [lia|]. cbn [eql_loop]. rewrite Ec2. cbn. split; [constructor|reflexivity].
Qed.
