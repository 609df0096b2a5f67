(** The equivalent-linear iteration: passes, stopping, limiting. *)
From Verif Require Import Common Proof.CommonFacts Model.Curve Model.Layer Model.Cplx Model.Waves Model.Eql
  Spec.LayerSpec Spec.EqlSpec Proof.LayerFacts.
Local Open Scope R_scope.

Lemma err_below_true e tol : err_below e tol = true <-> exists x, e = EFin x /\ x < tol.
Proof.
  destruct e as [x|]; cbn.
  - unfold Rltb. destruct (Rlt_dec x tol) as [H|H]; split; try discriminate; try reflexivity.
    + intros _. exists x. now split.
    + intros (y & E & Hy). injection E as <-. contradiction.
  - split; [discriminate|]. intros (y & E & _). discriminate.
Qed.

Lemma below_err tol s : below tol s <-> err_below (st_error s) tol = true.
Proof. symmetry. apply err_below_true. Qed.

Lemma not_below tol s : err_below (st_error s) tol = false -> ~ below tol s.
Proof. intros H B. apply below_err in B. congruence. Qed.

Lemma limit_strain_used P mx s b : limit_strain (e_limit P) (e_ratio P * mx) = (s, b) ->
  used_strain P mx s /\ (b = true <-> exists x, limit_on P x /\ x < e_ratio P * mx).
Proof.
  unfold limit_strain, used_strain, limit_on. destruct (e_limit P) as [x|].
  2:{ intros E. injection E as <- <-. split.
      - split; [intros x [E _]; discriminate|reflexivity].
      - split; [discriminate|]. intros (x & [E _] & _). discriminate. }
  destruct (Reqb x 0) eqn:E0.
  { apply Reqb_true in E0. intros E. injection E as <- <-. split.
    - split; [intros y [E N]; injection E as <-; contradiction|reflexivity].
    - split; [discriminate|]. intros (y & [E N] & _). injection E as <-. contradiction. }
  assert (N : x <> 0). { intros H. subst x. rewrite Reqb_refl in E0. discriminate. }
  unfold Rltb. destruct (Rlt_dec x (e_ratio P * mx)) as [H|H]; intros E; injection E as <- <-.
  - split.
    + split.
      * intros y [E _] _. injection E as <-. apply Rmin_right. lra.
      * intros G. specialize (G x (conj eq_refl N)). lra.
    + split; [|reflexivity]. intros _. exists x. now repeat split.
  - split.
    + split; [|reflexivity]. intros y [E _] Hy. injection E as <-. lra.
    + split; [discriminate|]. intros (y & [E _] & Hy). injection E as <-. lra.
Qed.

Lemma used_le P mx s x : used_strain P mx s -> limit_on P x -> s <= x.
Proof.
  intros [H1 H2] Hx. destruct (Rlt_dec x (e_ratio P * mx)) as [H|H].
  - rewrite (H1 x Hx H). lra.
  - rewrite H2; [lra|]. intros y [Ey _]. destruct Hx as [Ex _]. rewrite Ex in Ey. injection Ey as <-. lra.
Qed.

Lemma used_exists P mx : exists s, used_strain P mx s.
Proof.
  destruct (limit_strain (e_limit P) (e_ratio P * mx)) as [s b] eqn:E.
  exists s. now apply limit_strain_used in E.
Qed.

Lemma used_unique P mx s s' : used_strain P mx s -> used_strain P mx s' -> s = s'.
Proof.
  intros [A1 A2] [B1 B2].
  destruct (e_limit P) as [x|] eqn:E.
  - destruct (Req_dec x 0) as [Z|Z].
    + rewrite A2, B2; [reflexivity| |]; intros y [Ey Ny]; rewrite E in Ey; injection Ey as <-; contradiction.
    + destruct (Rlt_dec x (e_ratio P * mx)) as [H|H].
      * rewrite (A1 x), (B1 x); try assumption; [reflexivity| |]; now split.
      * rewrite A2, B2; [reflexivity| |]; intros y [Ey _]; rewrite E in Ey; injection Ey as <-; lra.
  - rewrite A2, B2; [reflexivity| |]; intros y [Ey _]; rewrite E in Ey; discriminate.
Qed.

(** One pass, layer by layer. *)
Lemma update_spec P m n waves lin ls : forall i upd lim,
  update_strains P m n waves lin i ls = Ok (upd, lim) ->
  length upd = length ls /\
  (forall j l, nth_error ls j = Some l -> exists mx s,
     calc_strain_max m n waves lin (i + j) l = Ok mx /\ used_strain P mx s /\
     nth_error upd j = Some (set_strain l s)) /\
  (lim = true <-> exists j l mx x, nth_error ls j = Some l /\
     calc_strain_max m n waves lin (i + j) l = Ok mx /\ limit_on P x /\ x < e_ratio P * mx).
Proof.
  induction ls as [|l ls IH]; intros i upd lim H; cbn [update_strains] in H.
  - injection H as <- <-. split; [reflexivity|]. split; [intros [|j] l Hl; discriminate|].
    split; [discriminate|]. intros ([|j] & l & _ & _ & E & _); discriminate.
  - destruct (calc_strain_max m n waves lin i l) as [mx|e] eqn:Em; [|discriminate]. cbn [bind] in H.
    destruct (limit_strain (e_limit P) (e_ratio P * mx)) as [s b] eqn:El.
    destruct (update_strains P m n waves lin (S i) ls) as [[upd' lim']|e] eqn:Eu; [|discriminate].
    cbn [bind] in H. injection H as <- <-.
    destruct (limit_strain_used P mx s b El) as [U HB].
    destruct (IH (S i) upd' lim' Eu) as (HL & HU & HLim).
    split; [cbn; now rewrite HL|]. split.
    + intros [|j] l' Hl'; cbn [nth_error] in *.
      * injection Hl' as <-. exists mx, s. rewrite Nat.add_0_r. split; [exact Em|]. split; [exact U|reflexivity].
      * destruct (HU j l' Hl') as (mx' & s' & E1 & E2 & E3).
        exists mx', s'. replace (i + S j)%nat with (S i + j)%nat by lia. split; [exact E1|]. split; assumption.
    + rewrite orb_true_iff, HB, HLim. split.
      * intros [(x & Hx & Hlt)|(j & l' & mx' & x & E1 & E2 & E3)].
        -- exists 0%nat, l, mx, x. rewrite Nat.add_0_r. split; [reflexivity|]. split; [exact Em|]. split; assumption.
        -- exists (S j), l', mx', x. cbn [nth_error]. replace (i + S j)%nat with (S i + j)%nat by lia.
           split; [exact E1|]. split; assumption.
      * intros ([|j] & l' & mx' & x & E1 & E2 & E3 & E4); cbn [nth_error] in E1.
        -- injection E1 as <-. rewrite Nat.add_0_r in E2. rewrite Em in E2. injection E2 as <-.
           left. exists x. now split.
        -- right. exists j, l', mx', x. replace (S i + j)%nat with (i + S j)%nat by lia.
           split; [exact E1|]. split; [assumption|]. now split.
Qed.

Lemma pass_spec P m lin waves ls b st : last_opt ls = Some b ->
  eql_pass P m lin waves ls = Ok st ->
  exists upd, st_layers st = upd ++ [b] /\ length upd = length (removelast ls) /\
    update_strains P m (length ls) waves lin 0 (removelast ls) = Ok (upd, st_limited st) /\
    max_errors (st_layers st) = Ok (st_error st).
Proof.
  intros Hb H. unfold eql_pass in H. rewrite Hb in H.
  destruct (update_strains P m (length ls) waves lin 0 (removelast ls)) as [[upd lim]|e] eqn:Eu; [|discriminate].
  cbn [bind] in H. destruct (max_errors (upd ++ [b])) as [e|e] eqn:Ee; [|discriminate].
  cbn [bind] in H. injection H as <-. cbn [st_layers st_limited st_error].
  exists upd. apply update_spec in Eu as HU. destruct HU as (HL & _ & _). now repeat split.
Qed.

(** How the loop ends. *)
Lemma loop_stop P m lin fuel : forall it lim ls waves t r,
  eql_loop P m lin fuel it lim ls waves = (t, r) ->
  (length t <= fuel)%nat /\
  match r with
  | Ok (Converged, ls', _) => exists t0 st, t = t0 ++ [st] /\ below (e_tol P) st /\
      Forall (fun s => ~ below (e_tol P) s) t0 /\ ls' = st_layers st
  | Ok (Exhausted, ls', _) => length t = fuel /\ Forall (fun s => ~ below (e_tol P) s) t /\
      last_opt (history ls t) = Some ls'
  | Err _ => Forall (fun s => ~ below (e_tol P) s) t
  end.
Proof.
  induction fuel as [|fuel IH]; intros it lim ls waves t r H; cbn [eql_loop] in H.
  - injection H as <- <-. split; [cbn; lia|]. split; [reflexivity|]. now split.
  - destruct (calc_waves m ls) as [wv|e]; [|injection H as <- <-; split; [cbn; lia|constructor]].
    destruct (eql_pass P m lin wv ls) as [st|e]; [|injection H as <- <-; split; [cbn; lia|constructor]].
    destruct (err_below (st_error st) (e_tol P)) eqn:Eb.
    { injection H as <- <-. split; [cbn; lia|]. exists [], st. apply below_err in Eb. now repeat split. }
    apply not_below in Eb.
    destruct (st_limited st && (lim =? it - 1)%Z)%bool eqn:El.
    { injection H as <- <-. split; [cbn; lia|]. now repeat constructor. }
    set (nl := if st_limited st then it else lim) in H.
    destruct (eql_loop P m lin fuel (it + 1) nl (st_layers st) wv) as [t' r'] eqn:E.
    cbn [fst snd] in H. injection H as <- <-.
    destruct (IH _ _ _ _ _ _ E) as [HL HR]. split; [cbn; lia|].
    destruct r' as [[[stop ls'] wv']|e].
    + destruct stop.
      * destruct HR as (t0 & s & -> & B & F & ->). exists (st :: t0), s.
        repeat split; auto.
      * destruct HR as (E1 & F & E2). split; [cbn; now rewrite E1|]. split; [now constructor|].
        unfold history in *. cbn [map]. exact E2.
    + now constructor.
Qed.

(** Exceptions other than the strain limit come from the kernels or the motion. *)
Lemma mapM_err {A B} (f : A -> res B) xs e : mapM f xs = Err e -> exists x, In x xs /\ f x = Err e.
Proof.
  induction xs as [|x xs IH]; intros H; cbn [mapM] in H; [discriminate|].
  destruct (f x) as [y|e'] eqn:E.
  - cbn [bind] in H. destruct (mapM f xs) as [ys|e'']; [discriminate|]. cbn [bind] in H. injection H as ->.
    destruct (IH eq_refl) as (x' & Hx & Ex). exists x'. split; [now right|exact Ex].
  - cbn [bind] in H. injection H as ->. exists x. split; [now left|exact E].
Qed.
Lemma mapM_ok {A B} (f : A -> res B) xs : (forall x, In x xs -> exists y, f x = Ok y) ->
  exists ys, mapM f xs = Ok ys.
Proof.
  induction xs as [|x xs IH]; intros H; [now exists []|]. cbn [mapM].
  destruct (H x (or_introl eq_refl)) as [y ->]. destruct IH as [ys ->]; [intros; apply H; now right|].
  now exists (y :: ys).
Qed.
Lemma mapM_nth {A B} (f : A -> res B) xs : forall ys, mapM f xs = Ok ys ->
  length ys = length xs /\ forall i x, nth_error xs i = Some x -> exists y, f x = Ok y /\ nth_error ys i = Some y.
Proof.
  induction xs as [|x xs IH]; intros ys H; cbn [mapM] in H.
  - injection H as <-. split; [reflexivity|]. intros [|i] y E; discriminate.
  - destruct (f x) as [y|] eqn:E; [|discriminate]. cbn [bind] in H.
    destruct (mapM f xs) as [ys'|]; [|discriminate]. cbn [bind] in H. injection H as <-.
    destruct (IH ys' eq_refl) as [HL HN]. split; [cbn; now rewrite HL|].
    intros [|i] x' Hx; cbn [nth_error] in *; [injection Hx as <-; exists y; now split|now apply HN].
Qed.

Lemma cdiv_nb_err x y e : cdiv_nb x y = Err e -> e = ZeroDivisionError.
Proof. unfold cdiv_nb. destruct (Complex.Ceq_dec y _); [|discriminate]. intros E. now injection E as <-. Qed.

Lemma wave_nums_nb_err w ls e : wave_nums_nb w ls = Err e -> e = ZeroDivisionError.
Proof.
  induction ls as [|l ls IH]; cbn [wave_nums_nb]; [discriminate|].
  destruct (cdiv_nb _ _) as [k|e'] eqn:E; cbn [bind].
  - destruct (wave_nums_nb w ls); cbn [bind]; [discriminate|]. intros H. apply IH. congruence.
  - apply cdiv_nb_err in E. intros H. congruence.
Qed.

Lemma calc_waves_err m ls e : calc_waves m ls = Err e -> kernel_exn e.
Proof.
  intros H. apply mapM_err in H. destruct H as (w & _ & E). unfold calc_waves_numba in E.
  destruct (map wlayer_of ls) as [|x xs]; [right; congruence|].
  destruct (wave_nums_nb w (x :: xs)) as [ks|e'] eqn:Ek; cbn [bind] in E; [discriminate|].
  left. apply wave_nums_nb_err in Ek. congruence.
Qed.

Lemma strain_max_err m n waves lin i l e : calc_strain_max m n waves lin i l = Err e ->
  kernel_exn e \/ exists tf, m_peak m tf = Err e.
Proof.
  unfold calc_strain_max, calc_strain_tfs; cbn [loc_field loc_index].
  destruct (_ && _)%bool; [|intros H; left; right; cbn in H; congruence].
  destruct (mapM _ _) as [tf|e'] eqn:E; cbn [bind]; intros H.
  - right. now exists tf.
  - left. injection H as ->. apply mapM_err in E. destruct E as (wr & _ & E).
    unfold strain_tf_row in E. destruct (nth_error (snd wr) _) as [o|]; [|right; congruence].
    destruct (nth_error (snd wr) _) as [j|]; [|right; congruence].
    destruct (r_k o); [|left; congruence]. destruct (r_k j); [|left; congruence].
    left. unfold strain_tf_numba in E. destruct (Rltb _ _); [discriminate|]. now apply cdiv_nb_err in E.
Qed.

Lemma update_err P m n waves lin ls : forall i e, update_strains P m n waves lin i ls = Err e ->
  kernel_exn e \/ exists tf, m_peak m tf = Err e.
Proof.
  induction ls as [|l ls IH]; intros i e H; cbn [update_strains] in H; [discriminate|].
  destruct (calc_strain_max m n waves lin i l) as [mx|e'] eqn:Em.
  - cbn [bind] in H. destruct (limit_strain _ _) as [s b].
    destruct (update_strains P m n waves lin (S i) ls) as [[u b']|e'] eqn:Eu; cbn [bind] in H; [discriminate|].
    injection H as ->. exact (IH _ _ Eu).
  - cbn [bind] in H. injection H as ->. exact (strain_max_err _ _ _ _ _ _ _ Em).
Qed.

Lemma max_errors_ok ls : ls <> [] -> exists e, max_errors ls = Ok e.
Proof.
  induction ls as [|l ls IH]; [congruence|]. intros _. cbn [max_errors].
  destruct ls as [|l' ls]; [now eexists|]. destruct IH as [e ->]; [discriminate|]. now eexists.
Qed.

Lemma pass_err P m lin waves ls e : ls <> [] -> eql_pass P m lin waves ls = Err e ->
  kernel_exn e \/ exists tf, m_peak m tf = Err e.
Proof.
  intros Hne H. unfold eql_pass in H.
  destruct (update_strains _ _ _ _ _ _ _) as [[upd lim]|e'] eqn:Eu; cbn [bind] in H.
  - exfalso. destruct (last_opt ls) as [b|] eqn:Eb.
    + destruct (max_errors_ok (upd ++ [b])) as [e' Ee]; [now destruct upd|]. rewrite Ee in H. discriminate.
    + apply last_opt_none in Eb. contradiction.
  - injection H as ->. exact (update_err _ _ _ _ _ _ _ _ Eu).
Qed.

Lemma pass_nonempty P m lin waves ls st : ls <> [] -> eql_pass P m lin waves ls = Ok st -> st_layers st <> [].
Proof.
  intros Hne H. destruct (last_opt ls) as [b|] eqn:Eb; [|apply last_opt_none in Eb; contradiction].
  destruct (pass_spec P m lin waves ls b st Eb H) as (upd & -> & _). now destruct upd.
Qed.

(** The strain-limit error. *)
Lemma loop_limit P m lin fuel : (forall tf, m_peak m tf <> Err RuntimeError) ->
  forall it lim ls waves t r (prev : bool), ls <> [] -> (lim <= it - 1)%Z ->
  (prev = true <-> lim = (it - 1)%Z) ->
  eql_loop P m lin fuel it lim ls waves = (t, r) ->
  (forall pre a b post, t = pre ++ a :: b :: post -> st_limited a = true -> st_limited b = true ->
     ~ below (e_tol P) b -> post = [] /\ r = Err RuntimeError) /\
  (forall b post, t = b :: post -> prev = true -> st_limited b = true -> ~ below (e_tol P) b ->
     post = [] /\ r = Err RuntimeError) /\
  (r = Err RuntimeError ->
     (exists pre a b, t = pre ++ [a; b] /\ st_limited a = true /\ st_limited b = true) \/
     (prev = true /\ exists b, t = [b] /\ st_limited b = true)).
Proof.
  intros Hpk. induction fuel as [|fuel IH]; intros it lim ls waves t r prev Hne Hle Hprev H; cbn [eql_loop] in H.
  { injection H as <- <-. split; [intros [|? ?]; discriminate|]. split; discriminate. }
  destruct (calc_waves m ls) as [wv|e] eqn:Ew.
  2:{ injection H as <- <-. split; [intros [|? ?]; discriminate|]. split; [discriminate|].
      intros E. injection E as ->. apply calc_waves_err in Ew. destruct Ew; discriminate. }
  destruct (eql_pass P m lin wv ls) as [st|e] eqn:Ep.
  2:{ injection H as <- <-. split; [intros [|? ?]; discriminate|]. split; [discriminate|].
      intros E. injection E as ->. apply pass_err in Ep; [|assumption].
      destruct Ep as [[E|E]|[tf E]]; try discriminate. now elim (Hpk tf). }
  destruct (err_below (st_error st) (e_tol P)) eqn:Eb.
  { injection H as <- <-. split; [intros [|x [|? ?]]; discriminate|]. split.
    - intros b post E _ _ N. injection E as <- <-. elim N. now apply below_err.
    - discriminate. }
  apply not_below in Eb.
  destruct (st_limited st && (lim =? it - 1)%Z)%bool eqn:El.
  { injection H as <- <-. apply andb_prop in El. destruct El as [L1 L2]. apply Z.eqb_eq in L2.
    split; [intros [|x [|? ?]]; discriminate|]. split.
    - intros b post E _ _ N. injection E as <- <-. now split.
    - intros _. right. split; [now apply Hprev|]. now exists st. }
  set (nl := if st_limited st then it else lim) in H.
  destruct (eql_loop P m lin fuel (it + 1) nl (st_layers st) wv) as [t' r'] eqn:E.
  cbn [fst snd] in H. injection H as <- <-.
  destruct (IH (it + 1)%Z nl (st_layers st) wv t' r' (st_limited st)) as (A1 & A2 & A3).
  { exact (pass_nonempty _ _ _ _ _ _ Hne Ep). }
  { unfold nl. destruct (st_limited st); lia. }
  { unfold nl. destruct (st_limited st); split; intros G; try discriminate; try lia. }
  { exact E. }
  split; [|split].
  - intros [|x pre] a b post Et La Lb Nb; cbn [app] in Et; injection Et as Ex Et'.
    + subst a. exact (A2 b post Et' La Lb Nb).
    + exact (A1 pre a b post Et' La Lb Nb).
  - intros b post Et Hp Lb Nb. injection Et as <- <-. rewrite Lb in El. cbn in El.
    apply Z.eqb_neq in El. elim El. now apply Hprev.
  - intros Hr. left. destruct (A3 Hr) as [(pre & a & b & -> & La & Lb)|(Hp & b & -> & Lb)].
    + exists (st :: pre), a, b. now repeat split.
    + exists [], st, b. now repeat split.
Qed.
