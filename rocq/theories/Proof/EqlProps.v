(** Theorems about the equivalent-linear calculator. *)
From Verif Require Import Common Proof.CommonFacts Model.Curve Model.Layer Model.Cplx Model.Waves Model.Eql
  Spec.CurveSpec Spec.LayerSpec Spec.WaveSpec Spec.EqlSpec Proof.CurveFacts Proof.LayerFacts Proof.CplxFacts
  Proof.WaveFacts Proof.WaveEnergy Proof.WaveProps Proof.EqlFacts.
From Coquelicot Require Import Complex.
Local Open Scope R_scope.

(** The layers with which the loop starts. *)
Definition start_layers (m : motion) (reset : bool) (ls : list layer) : list layer :=
  if reset then estimate_strains m (map layer_reset ls) else ls.

Lemma call_loop P m lin reset ls t r : eql_call P m lin reset ls = (t, r) ->
  (t = [] /\ exists e, r = Err e /\ calc_waves m (if reset then map layer_reset ls else ls) = Err e) \/
  exists wv0 out, calc_waves m (if reset then map layer_reset ls else ls) = Ok wv0 /\
    eql_loop P m lin (Z.to_nat (e_max P)) 0 (-2) (start_layers m reset ls) wv0 = (t, out) /\
    r = bind out (fun '(stop, ls2, waves) =>
         bind (set_strain_maxs m (length ls2) waves lin 0 (removelast ls2)) (fun upd =>
           Ok (stop, upd ++ match last_opt ls2 with Some b => [b] | None => [] end, waves))).
Proof.
  unfold eql_call, le_call. destruct (calc_waves m (if reset then map layer_reset ls else ls)) as [wv0|e] eqn:E.
  2:{ intros H. injection H as <- <-. left. split; [reflexivity|]. exists e. now split. }
  intros H. right. exists wv0.
  fold (start_layers m reset ls) in H.
  assert (ES : (if reset then estimate_strains m (if reset then map layer_reset ls else ls)
                else if reset then map layer_reset ls else ls) = start_layers m reset ls)
    by (now destruct reset).
  cbn zeta in H. rewrite ES in H.
  destruct (eql_loop P m lin (Z.to_nat (e_max P)) 0 (-2) (start_layers m reset ls) wv0) as [t' out].
  injection H as <- <-. exists out. now repeat split.
Qed.

(** The passes follow one another. *)
Fixpoint passes (P : eql_params) (m : motion) (lin : wloc) (ls : list layer) (t : list eql_step) : Prop :=
  match t with
  | [] => True
  | st :: t' => exists wv, calc_waves m ls = Ok wv /\ eql_pass P m lin wv ls = Ok st /\
                           passes P m lin (st_layers st) t'
  end.

Lemma loop_passes P m lin fuel : forall it lim ls waves t r,
  eql_loop P m lin fuel it lim ls waves = (t, r) -> passes P m lin ls t.
Proof.
  induction fuel as [|fuel IH]; intros it lim ls waves t r H; cbn [eql_loop] in H.
  { injection H as <- <-. exact I. }
  destruct (calc_waves m ls) as [wv|e] eqn:Ew; [|injection H as <- <-; exact I].
  destruct (eql_pass P m lin wv ls) as [st|e] eqn:Ep; [|injection H as <- <-; exact I].
  destruct (err_below _ _); [injection H as <- <-; exists wv; now repeat split|].
  destruct (_ && _)%bool; [injection H as <- <-; exists wv; now repeat split|].
  set (nl := if st_limited st then it else lim) in H.
  destruct (eql_loop P m lin fuel (it + 1) nl (st_layers st) wv) as [t' r'] eqn:E.
  injection H as <- <-. exists wv. split; [exact Ew|]. split; [exact Ep|]. exact (IH _ _ _ _ _ _ E).
Qed.

(** The last pass, with its waves. *)
Lemma loop_last P m lin fuel : forall it lim ls waves t stop ls' wv',
  eql_loop P m lin fuel it lim ls waves = (t, Ok (stop, ls', wv')) ->
  (t = [] /\ ls' = ls /\ wv' = waves) \/
  exists h0 lsp st, history ls t = h0 ++ [lsp; ls'] /\ last_opt t = Some st /\ st_layers st = ls' /\
    calc_waves m lsp = Ok wv' /\ eql_pass P m lin wv' lsp = Ok st.
Proof.
  induction fuel as [|fuel IH]; intros it lim ls waves t stop ls' wv' H; cbn [eql_loop] in H.
  { injection H as <- <- <- <-. left. now repeat split. }
  destruct (calc_waves m ls) as [wv|e] eqn:Ew; [|discriminate].
  destruct (eql_pass P m lin wv ls) as [st|e] eqn:Ep; [|discriminate].
  destruct (err_below _ _).
  { injection H as <- <- <- <-. right. exists [], ls, st. now repeat split. }
  destruct (_ && _)%bool; [discriminate|].
  set (nl := if st_limited st then it else lim) in H.
  destruct (eql_loop P m lin fuel (it + 1) nl (st_layers st) wv) as [t' r'] eqn:E.
  cbn [fst snd] in H. injection H as <- ->.
  destruct (IH _ _ _ _ _ _ _ _ E) as [(-> & -> & ->)|(h0 & lsp & s & E1 & E2 & E3 & E4 & E5)].
  - right. exists [], ls, st. now repeat split.
  - right. exists (ls :: h0), lsp, s. split; [|split; [|now repeat split]].
    + unfold history in *. cbn [map]. rewrite E1. reflexivity.
    + cbn [last_opt]. destruct t'; [discriminate|exact E2].
Qed.

(** Computing the strain again needs nothing new. *)
Lemma strain_max_thick m n waves lin i l l' : l_thick l = l_thick l' ->
  calc_strain_max m n waves lin i l = calc_strain_max m n waves lin i l'.
Proof. intros E. unfold calc_strain_max. now rewrite E. Qed.

Lemma set_maxs_spec m n waves lin ls : forall i,
  (forall j l, nth_error ls j = Some l -> exists mx, calc_strain_max m n waves lin (i + j) l = Ok mx) ->
  exists upd, set_strain_maxs m n waves lin i ls = Ok upd /\ length upd = length ls /\
    forall j l, nth_error ls j = Some l -> exists mx,
      calc_strain_max m n waves lin (i + j) l = Ok mx /\ nth_error upd j = Some (set_strain_max l mx).
Proof.
  induction ls as [|l ls IH]; intros i H.
  { exists []. split; [reflexivity|]. split; [reflexivity|]. intros [|j] l E; discriminate. }
  cbn [set_strain_maxs]. destruct (H 0%nat l eq_refl) as [mx E0]. rewrite Nat.add_0_r in E0.
  rewrite E0. cbn [bind].
  destruct (IH (S i)) as (upd & E1 & E2 & E3).
  { intros j l' Hj. replace (S i + j)%nat with (i + S j)%nat by lia. exact (H (S j) l' Hj). }
  rewrite E1. cbn [bind]. exists (set_strain_max l mx :: upd). split; [reflexivity|].
  split; [cbn; now rewrite E2|]. intros [|j] l' Hj; cbn [nth_error] in *.
  - injection Hj as <-. exists mx. rewrite Nat.add_0_r. now split.
  - replace (i + S j)%nat with (S i + j)%nat by lia. exact (E3 j l' Hj).
Qed.

Lemma set_maxs_nth m n waves lin ls : forall i upd, set_strain_maxs m n waves lin i ls = Ok upd ->
  length upd = length ls /\ forall j l, nth_error ls j = Some l -> exists mx,
      calc_strain_max m n waves lin (i + j) l = Ok mx /\ nth_error upd j = Some (set_strain_max l mx).
Proof.
  induction ls as [|l ls IH]; intros i upd H; cbn [set_strain_maxs] in H.
  { injection H as <-. split; [reflexivity|]. intros [|j] l E; discriminate. }
  destruct (calc_strain_max m n waves lin i l) as [mx|] eqn:E0; [|discriminate]. cbn [bind] in H.
  destruct (set_strain_maxs m n waves lin (S i) ls) as [u|] eqn:E1; [|discriminate]. cbn [bind] in H.
  injection H as <-. destruct (IH _ _ E1) as [HL HN]. split; [cbn; now rewrite HL|].
  intros [|j] l' Hj; cbn [nth_error] in *.
  - injection Hj as <-. exists mx. rewrite Nat.add_0_r. now split.
  - replace (i + S j)%nat with (S i + j)%nat by lia. exact (HN j l' Hj).
Qed.

Lemma removelast_app_1 {A} (l : list A) x : removelast (l ++ [x]) = l.
Proof. rewrite removelast_app by discriminate. cbn. apply app_nil_r. Qed.

Lemma last_some {A} (l : list A) : l <> [] -> exists b, last_opt l = Some b.
Proof. destruct l as [|x l]; [congruence|]. intros _. apply last_opt_some. Qed.

Lemma length_removelast {A} (l : list A) b : last_opt l = Some b -> length l = S (length (removelast l)).
Proof. intros H. rewrite (last_opt_inv l b H) at 1. rewrite app_length. cbn. lia. Qed.

Lemma nth_removelast {A} (l : list A) i x : nth_error (removelast l) i = Some x -> nth_error l i = Some x.
Proof.
  intros H. destruct (last_opt l) as [b|] eqn:E.
  - rewrite (last_opt_inv l b E). rewrite nth_error_app1; [exact H|]. apply nth_error_Some. congruence.
  - apply last_opt_none in E. subst l. destruct i; discriminate.
Qed.

Lemma nth_removelast_lt {A} (l : list A) i : (i < length l - 1)%nat -> nth_error (removelast l) i = nth_error l i.
Proof.
  intros H. destruct (last_opt l) as [b|] eqn:E.
  - rewrite (last_opt_inv l b E) at 2. rewrite nth_error_app1; [reflexivity|].
    pose proof (length_removelast l b E). lia.
  - apply last_opt_none in E. subst l. cbn in H. lia.
Qed.

Lemma pass_nth P m lin waves ls st b : last_opt ls = Some b -> eql_pass P m lin waves ls = Ok st ->
  length (st_layers st) = length ls /\ last_opt (st_layers st) = Some b /\
  forall i l, nth_error (removelast ls) i = Some l -> exists mx s,
    calc_strain_max m (length ls) waves lin i l = Ok mx /\ used_strain P mx s /\
    nth_error (removelast (st_layers st)) i = Some (set_strain l s).
Proof.
  intros Hb H. destruct (pass_spec P m lin waves ls b st Hb H) as (upd & E & HL & Eu & _).
  rewrite E, app_length, HL, (length_removelast ls b Hb), last_opt_app, removelast_app_1.
  split; [cbn; lia|]. split; [reflexivity|].
  apply update_spec in Eu. destruct Eu as (_ & HU & _). intros i l Hl.
  destruct (HU i l Hl) as (mx & s & E1 & E2 & E3). exists mx, s.
  rewrite (length_removelast ls b Hb) in E1. split; [exact E1|]. now split.
Qed.

Lemma start_nonempty m reset ls : ls <> [] -> start_layers m reset ls <> [].
Proof. intros H. unfold start_layers, estimate_strains. destruct reset; [|exact H]. now destruct ls. Qed.

(** ** C26 *)
Theorem eql_stops P m lin reset ls t r : eql_call P m lin reset ls = (t, r) ->
  (length t <= Z.to_nat (e_max P))%nat /\
  match r with
  | Ok (Converged, _, _) => exists t0 st, t = t0 ++ [st] /\ below (e_tol P) st /\
      Forall (fun s => ~ below (e_tol P) s) t0
  | Ok (Exhausted, _, _) => length t = Z.to_nat (e_max P) /\
      Forall (fun s => ~ below (e_tol P) s) t
  | Err e => Forall (fun s => ~ below (e_tol P) s) t
  end.
Proof.
  intros H. destruct (call_loop P m lin reset ls t r H) as [(-> & e & -> & _)|(wv0 & out & Ew & El & ->)].
  { split; [cbn; lia|constructor]. }
  pose proof (loop_stop _ _ _ _ _ _ _ _ _ _ El) as [HL HR]. split; [exact HL|].
  destruct out as [[[stop ls2] wv]|e]; [|exact HR]. cbn [bind].
  destruct stop.
  - destruct HR as (t0 & st & -> & B & F & ->).
    assert (HM : exists upd, set_strain_maxs m (length (st_layers st)) wv lin 0 (removelast (st_layers st)) = Ok upd).
    { destruct (loop_last _ _ _ _ _ _ _ _ _ _ _ _ El) as [(E & _)|(h0 & lsp & s & _ & E2 & _ & E4 & E5)].
      { now destruct t0. }
      rewrite last_opt_app in E2. injection E2 as <-.
      destruct (last_opt lsp) as [b|] eqn:Eb.
      - destruct (pass_nth _ _ _ _ _ _ _ Eb E5) as (L1 & L2 & L3).
        destruct (set_maxs_spec m (length (st_layers st)) wv lin (removelast (st_layers st)) 0) as (upd & E & _).
        + intros j l Hj. cbn [plus].
          assert (HJ : (j < length (removelast lsp))%nat).
          { assert (Hj' : (j < length (removelast (st_layers st)))%nat) by (apply nth_error_Some; congruence).
            pose proof (length_removelast _ _ L2).
            pose proof (length_removelast _ _ Eb). lia. }
          destruct (nth_error (removelast lsp) j) as [l0|] eqn:E0.
          2:{ apply nth_error_None in E0. lia. }
          destruct (L3 j l0 E0) as (mx & s & A1 & _ & A3). rewrite Hj in A3. injection A3 as ->.
          exists mx. rewrite L1. rewrite <- A1. now apply strain_max_thick.
        + now exists upd.
      - apply last_opt_none in Eb. subst lsp. unfold eql_pass in E5. discriminate. }
    destruct HM as [upd ->]. cbn [bind]. exists t0, st. now repeat split.
  - destruct HR as (E & F & _).
    destruct (set_strain_maxs m (length ls2) wv lin 0 (removelast ls2)) as [upd|e]; cbn [bind]; [now split|exact F].
Qed.

(** ** C28 *)
Theorem eql_limit_error P m lin reset ls t r : ls <> [] ->
  (forall tf, m_peak m tf <> Err RuntimeError) ->
  eql_call P m lin reset ls = (t, r) ->
  (r = Err RuntimeError <->
   exists pre a b post, t = pre ++ a :: b :: post /\ st_limited a = true /\ st_limited b = true /\
     ~ below (e_tol P) a /\ ~ below (e_tol P) b) /\
  (forall pre a b post, t = pre ++ a :: b :: post -> st_limited a = true -> st_limited b = true ->
     ~ below (e_tol P) b -> post = []).
Proof.
  intros Hne Hpk H. pose proof (eql_stops P m lin reset ls t r H) as [_ HS].
  destruct (call_loop P m lin reset ls t r H) as [(-> & e & -> & Ew)|(wv0 & out & Ew & El & ->)].
  { split; [|intros [|? ?]; discriminate]. split.
    - intros E. injection E as ->. apply calc_waves_err in Ew. destruct Ew; discriminate.
    - intros ([|? ?] & ? & ? & ? & E & _); discriminate. }
  destruct (loop_limit P m lin (Z.to_nat (e_max P)) Hpk 0%Z (-2)%Z (start_layers m reset ls) wv0 t out false)
    as (A1 & _ & A3); [now apply start_nonempty|lia|split; [discriminate|lia]|exact El|].
  split.
  - split.
    + intros E.
      assert (Eo : out = Err RuntimeError).
      { destruct out as [[[stop ls2] wv]|e]; [|cbn [bind] in E; congruence]. cbn [bind] in E.
        destruct (set_strain_maxs m (length ls2) wv lin 0 (removelast ls2)) as [u|e] eqn:Es; [discriminate|].
        cbn [bind] in E. injection E as ->. exfalso. clear -Es Hpk.
        revert Es. generalize (removelast ls2) as xs. generalize 0%nat as i. intros i xs; revert i.
        induction xs as [|x xs IH]; intros i Es; cbn [set_strain_maxs] in Es; [discriminate|].
        destruct (calc_strain_max m (length ls2) wv lin i x) as [mx|e] eqn:Em; cbn [bind] in Es.
        - destruct (set_strain_maxs _ _ _ _ (S i) xs) as [u|e] eqn:E2; cbn [bind] in Es; [discriminate|].
          injection Es as ->. exact (IH _ E2).
        - injection Es as ->. apply strain_max_err in Em.
          destruct Em as [[G|G]|[tf G]]; try discriminate. now elim (Hpk tf). }
      subst out. destruct (A3 eq_refl) as [(pre & a & b & -> & La & Lb)|(D & _)]; [|discriminate].
      cbn [bind] in HS. rewrite Forall_forall in HS.
      exists pre, a, b, []. split; [reflexivity|]. split; [exact La|]. split; [exact Lb|].
      split; apply HS; apply in_or_app; right; [left|right; left]; reflexivity.
    + intros (pre & a & b & post & Et & La & Lb & Na & Nb).
      destruct (A1 pre a b post Et La Lb Nb) as [_ ->]. reflexivity.
  - intros pre a b post Et La Lb Nb. now destruct (A1 pre a b post Et La Lb Nb).
Qed.

Lemma assignable_set l s : assignable l -> assignable (set_strain l s) /\ strain (set_strain l s) = s.
Proof.
  unfold assignable, set_strain, strain; cbn [l_soil l_strain]. intros H.
  destruct (is_nonlinear (l_soil l)) eqn:E.
  - destruct (H eq_refl) as [i ->]. split; [intros _; now eexists|reflexivity].
  - split; [discriminate|reflexivity].
Qed.

Lemma assignable_reset l : assignable (layer_reset l).
Proof. intros _. now eexists. Qed.

Lemma start_assignable m reset ls : (reset = false -> Forall assignable ls) ->
  Forall assignable (start_layers m reset ls).
Proof.
  intros H. unfold start_layers. destruct reset; [|now apply H]. unfold estimate_strains.
  rewrite map_map. apply Forall_forall. intros x Hx. apply in_map_iff in Hx. destruct Hx as (l & <- & _).
  apply assignable_set, assignable_reset.
Qed.

Lemma pass_assignable P m lin waves ls st : ls <> [] -> Forall assignable ls ->
  eql_pass P m lin waves ls = Ok st ->
  Forall assignable (st_layers st) /\
  forall i l, nth_error (removelast (st_layers st)) i = Some l ->
    exists l0 mx, nth_error (removelast ls) i = Some l0 /\
      calc_strain_max m (length ls) waves lin i l0 = Ok mx /\ used_strain P mx (strain l) /\
      l = set_strain l0 (strain l).
Proof.
  intros Hne HF H. destruct (last_some ls Hne) as [b Hb].
  destruct (pass_nth _ _ _ _ _ _ _ Hb H) as (L1 & L2 & L3).
  assert (HN : forall i l, nth_error (removelast (st_layers st)) i = Some l ->
    exists l0 mx, nth_error (removelast ls) i = Some l0 /\
      calc_strain_max m (length ls) waves lin i l0 = Ok mx /\ used_strain P mx (strain l) /\
      l = set_strain l0 (strain l)).
  { intros i l Hl.
    assert (HJ : (i < length (removelast ls))%nat).
    { assert (Hi : (i < length (removelast (st_layers st)))%nat) by (apply nth_error_Some; congruence).
      pose proof (length_removelast _ _ L2). pose proof (length_removelast _ _ Hb). lia. }
    destruct (nth_error (removelast ls) i) as [l0|] eqn:E0; [|apply nth_error_None in E0; lia].
    destruct (L3 i l0 E0) as (mx & s & A1 & A2 & A3). rewrite Hl in A3. injection A3 as ->.
    assert (As : assignable l0).
    { rewrite Forall_forall in HF. apply HF. apply nth_error_In with i. now apply nth_removelast. }
    destruct (assignable_set l0 s As) as [_ Es]. exists l0, mx. rewrite Es. split; [reflexivity|]. split; [exact A1|]. split; [exact A2|reflexivity]. }
  split; [|exact HN].
  rewrite (last_opt_inv _ _ L2). apply Forall_forall. intros x Hx. apply in_app_or in Hx. destruct Hx as [Hx|Hx].
  - apply In_nth_error in Hx. destruct Hx as [i Hi]. destruct (HN i x Hi) as (l0 & mx & E0 & _ & _ & ->).
    apply assignable_set. rewrite Forall_forall in HF. apply HF. apply nth_error_In with i. now apply nth_removelast.
  - destruct Hx as [<-|[]]. rewrite Forall_forall in HF. apply HF. now apply last_opt_In.
Qed.

Lemma passes_limited P m lin x t : limit_on P x -> forall ls, ls <> [] -> Forall assignable ls ->
  passes P m lin ls t ->
  forall st, In st t -> Forall (fun l => strain l <= x) (removelast (st_layers st)).
Proof.
  intros Hx. induction t as [|s t IH]; intros ls Hne HF HP st Hin; [contradiction|].
  destruct HP as (wv & Ew & Ep & HP).
  destruct (pass_assignable _ _ _ _ _ _ Hne HF Ep) as [HF' HN].
  destruct Hin as [<-|Hin].
  - apply Forall_forall. intros l Hl. apply In_nth_error in Hl. destruct Hl as [i Hi].
    destruct (HN i l Hi) as (l0 & mx & _ & _ & U & _). exact (used_le _ _ _ _ U Hx).
  - exact (IH _ (pass_nonempty _ _ _ _ _ _ Hne Ep) HF' HP st Hin).
Qed.

Theorem eql_limit_enforced P m lin reset ls t r x : ls <> [] -> limit_on P x ->
  (reset = false -> Forall assignable ls) ->
  eql_call P m lin reset ls = (t, r) ->
  forall st, In st t -> Forall (fun l => strain l <= x) (removelast (st_layers st)).
Proof.
  intros Hne Hx HA H st Hin.
  destruct (call_loop P m lin reset ls t r H) as [(-> & _)|(wv0 & out & Ew & El & _)]; [contradiction|].
  refine (passes_limited P m lin x t Hx _ _ _ (loop_passes _ _ _ _ _ _ _ _ _ _ El) st Hin).
  - now apply start_nonempty.
  - now apply start_assignable.
Qed.

(** When a pass is limited. *)
Theorem eql_limited_flag P m lin reset ls t r : ls <> [] -> (reset = false -> Forall assignable ls) ->
  eql_call P m lin reset ls = (t, r) ->
  forall st, In st t -> st_limited st = true ->
  exists x l, limit_on P x /\ In l (removelast (st_layers st)) /\ strain l = x.
Proof.
  intros Hne HA H st Hin HL.
  destruct (call_loop P m lin reset ls t r H) as [(-> & _)|(wv0 & out & Ew & El & _)]; [contradiction|].
  pose proof (loop_passes _ _ _ _ _ _ _ _ _ _ El) as HP.
  pose proof (start_nonempty m reset ls Hne) as Hne1. pose proof (start_assignable m reset ls HA) as HF.
  clear El. revert HP Hne1 HF. generalize (start_layers m reset ls) as ls1. clear H.
  induction t as [|s t IH]; intros ls1 HP Hne1 HF; [contradiction|].
  destruct HP as (wv & E1 & Ep & HP).
  destruct (pass_assignable _ _ _ _ _ _ Hne1 HF Ep) as [HF' HN].
  destruct Hin as [<-|Hin].
  - destruct (last_some ls1 Hne1) as [b Hb].
    destruct (pass_spec _ _ _ _ _ _ _ Hb Ep) as (upd & E & HLen & Eu & _).
    apply update_spec in Eu. destruct Eu as (_ & HU & HLim).
    destruct (proj1 HLim HL) as (j & l & mx & x & N1 & N2 & N3 & N4).
    destruct (HU j l N1) as (mx' & sv & M1 & M2 & M3). rewrite N2 in M1. injection M1 as <-.
    exists x, (set_strain l sv). split; [exact N3|]. split.
    + rewrite E, removelast_app_1. now apply nth_error_In with j.
    + assert (As : assignable l).
      { rewrite Forall_forall in HF. apply HF. apply nth_error_In with j. now apply nth_removelast. }
      rewrite (proj2 (assignable_set l sv As)). now apply (proj1 M2).
  - exact (IH Hin _ HP (pass_nonempty _ _ _ _ _ _ Hne1 Ep) HF').
Qed.

(** C71: the ratio proposed by Idriss and Sun (1992). *)
Theorem strain_ratio_line : calc_strain_ratio 7.5 = 0.65 /\ calc_strain_ratio 5 = 0.4 /\
  forall a b t, calc_strain_ratio (a + t * (b - a)) = calc_strain_ratio a + t * (calc_strain_ratio b - calc_strain_ratio a).
Proof. unfold calc_strain_ratio. split; [lra|]. split; [lra|]. intros a b t. field. Qed.
