(** Concrete programs on which the profile operations go wrong. *)
From Coq Require Import String Sorted.
From Verif Require Import Common Model.Curve Model.Layer Model.Profile
  Spec.CurveSpec Spec.LayerSpec Spec.ProfileSpec Spec.HistorySpec
  Proof.CommonFacts Proof.CurveFacts Proof.LayerFacts Proof.ProfileFacts Proof.ProfileOps.
Local Open Scope R_scope.

(** A linear soil. *)
Definition clay : soil := mkSoil 0 "clay" 18 None (DConst 0.05).
(** A nonlinear soil: modulus ratio 1/4 at and above 1 % strain. *)
Definition soft : soil :=
  mkSoil 0 "soft" 18 (Some (modulus_curve 1 [1e-4; 1e-2] [1; 0.25])) (DConst 0.05).

(** Run a concrete program: unfold everything but the arithmetic. *)
Ltac runw := cbv -[Reqb Rleb Rltb IZR Rplus Rmult Rminus Rdiv Rmax Rmin Ropp Rinv ln sqrt curve_call
                   GRAVITY Rabs pow Q2R Rpow_def.pow].

(** Three layers, the first equal to the last. *)
Definition twins : list op :=
  [ONewLayer clay 10 200 (Some 0.05); ONewLayer clay 5 300 (Some 0.05);
   ONewLayer clay 10 200 (Some 0.05); ONewProfile [0; 1; 2]%nat 0].


Ltac solvew := runw; rdec; cbv iota; try reflexivity; try lra.

Lemma twins_wrong : ~ depths_cumulative (view (run init_world twins) 0%nat).
Proof.
  intros H. set (w := run init_world twins) in *.
  specialize (H [w_heap w 0%nat] (w_heap w 1%nat) [w_heap w 2%nat] eq_refl).
  assert (E1 : l_depth (w_heap w 1%nat) = 0) by (unfold w; solvew).
  assert (E2 : total_thick [w_heap w 0%nat] = 10) by (unfold w; solvew).
  lra.
Qed.

(** [insert(-1, layer)] in a profile with a half-space of thickness 0. *)
Definition site3 : list op :=
  [ONewLayer clay 10 200 (Some 0.05); ONewLayer clay 5 300 (Some 0.05);
   ONewLayer clay 0 500 (Some 0.05); ONewProfile [0; 1; 2]%nat 0; ONewLayer clay 3 400 (Some 0.05)].

(** The world after [site3], computed, so that the next step starts from values. *)
Lemma site3_world : {w : world | run init_world site3 = w}.
Proof. eexists. runw. rdec. cbv iota. reflexivity. Defined.
Ltac after_site3 :=
  let w := eval cbv [proj1_sig site3_world] in (proj1_sig site3_world) in
  rewrite (proj2_sig site3_world : run init_world site3 = w).

Lemma insert_negative_wrong :
  let w := run init_world (site3 ++ [OInsert 0%nat (-1) 3%nat]) in
  layers_of w 0%nat = [0; 1; 3; 2]%nat /\
  l_depth (w_heap w 2%nat) = 0 /\ total_thick (map (w_heap w) [0; 1; 3]%nat) = 18 /\
  l_prof (w_heap w 3%nat) = None.
Proof.
  cbv zeta. unfold run. rewrite fold_left_app. fold (run init_world site3). after_site3.
  split; [reflexivity|]. split; [solvew|]. split; [solvew|solvew].
Qed.

Lemma insert_past_end_wrong :
  let w0 := run init_world site3 in
  snd (insert w0 0%nat 4 3%nat) = Ok tt /\
  let w := fst (insert w0 0%nat 4 3%nat) in
  layers_of w 0%nat = [0; 1; 2; 3]%nat /\
  l_depth (w_heap w 3%nat) = 0 /\ total_thick (map (w_heap w) [0; 1; 2]%nat) = 15 /\
  l_prof (w_heap w 3%nat) = None.
Proof.
  cbv zeta. after_site3.
  split; [solvew|]. split; [reflexivity|]. split; [solvew|]. split; [solvew|solvew].
Qed.

Lemma twins_world : {w : world | run init_world twins = w}.
Proof. eexists. runw. rdec. cbv iota. reflexivity. Defined.

(** [location(index=2)] finds the twin. *)
Lemma location_twin :
  snd (location (run init_world twins) 0%nat None (Some 2%Z)) = Ok (0%nat, 2%nat, 0).
Proof.
  let w := eval cbv [proj1_sig twins_world] in (proj1_sig twins_world) in
  rewrite (proj2_sig twins_world : run init_world twins = w).
  solvew.
Qed.

(** A copy made after a strain was assigned. *)
Definition strained : list op :=
  [ONewLayer soft 10 200 (Some 0.05); ONewLayer clay 0 500 (Some 0.05); ONewProfile [0; 1]%nat 0;
   OLayer 0%nat (LSetStrain 0.02); OCopy 0%nat].

Lemma soft_table : good_table [1e-4; 1e-2] [1; 0.25].
Proof.
  unfold good_table. split; [reflexivity|]. split; [discriminate|].
  split; [repeat constructor; lra|]. repeat constructor; lra.
Qed.
Lemma soft_curve : curve_call (modulus_curve 1 [1e-4; 1e-2] [1; 0.25]) 0.02 = Ok 0.25.
Proof.
  rewrite (curve_last _ 1e-2 0.25); [|exact soft_table|split; reflexivity|lra|lra].
  cbn. rewrite clip_id by lra. reflexivity.
Qed.

Lemma soft_vel : sqrt (density soft * 200 ^ 2 * 0.25 / density soft) = 100.
Proof.
  assert (0 < density soft) by (apply density_pos; cbn; lra).
  assert (E : forall d x y, 0 < d -> d * x * y / d = x * y) by (intros; field; lra).
  rewrite E by assumption. replace (200 ^ 2 * 0.25) with (100 * 100) by lra.
  apply sqrt_square; lra.
Qed.
Lemma strained_world : {w : world | run init_world (firstn 3 strained) = w}.
Proof. eexists. runw. rdec. cbv iota. reflexivity. Defined.
Lemma copy_strained :
  let w := run init_world strained in
  map l_vs (view w 0%nat) = [200; 500] /\
  exists x, map l_vs (view w 1%nat) = [100; x].
Proof.
  cbn zeta. change (run init_world strained) with (run (run init_world (firstn 3 strained)) (skipn 3 strained)).
  let w := eval cbv [proj1_sig strained_world] in (proj1_sig strained_world) in
  rewrite (proj2_sig strained_world : run init_world (firstn 3 strained) = w).
  match goal with |- context [run ?w0 (skipn 3 strained)] => set (w := run w0 (skipn 3 strained)) end.
  split; [unfold w; solvew|].
  exists (l_vs (w_heap w 3%nat)). unfold view.
  change (layers_of w 1%nat) with [2; 3]%nat. cbn [map]. f_equal.
  etransitivity; [|exact soft_vel].
  transitivity (shear_vel (set_strain (layer_make soft 10 200 0.05) 0.02)); [unfold w; solvew|].
  unfold shear_vel, shear_mod, set_strain, compute_mod. cbn [l_G it_value iter_set l_soil layer_make layer_reset s_mod soft].
  rewrite soft_curve. reflexivity.
Qed.

(** Auto-discretisation takes the kept layers away from the input profile. *)
Definition kept (nl : bool) (l : layer) : bool := nl && negb (is_nonlinear (l_soil l)).

Lemma discretize_kept addrs f wf nl : forall w,
  (forall a, In a addrs -> (a < w_next w)%nat) ->
  forall a, (a < w_next w)%nat ->
  (In a (snd (discretize_loop w addrs f wf nl)) <-> In a addrs /\ kept nl (w_heap w a) = true).
Proof.
  induction addrs as [|b addrs IH]; intros w Hal a Ha; [cbn; tauto|].
  cbn [discretize_loop].
  set (first := if negb nl || is_nonlinear (l_soil (w_heap w b))
                then alloc_layers w (split_layer (w_heap w b) f wf) else (w, [b])).
  assert (H1 : (w_next w <= w_next (fst first))%nat /\
               (forall c, (c < w_next w)%nat -> w_heap (fst first) c = w_heap w c) /\
               (In a (snd first) <-> a = b /\ kept nl (w_heap w a) = true)).
  { unfold first, kept. destruct (negb nl || is_nonlinear (l_soil (w_heap w b))) eqn:E.
    - destruct (alloc_raw (split_layer (w_heap w b) f wf) w) as (B & C & D & E' & F & G & H).
      split; [exact H|]. split; [exact E'|]. split.
      + intros Hi. apply D in Hi. lia.
      + intros [-> Hk]. destruct nl, (is_nonlinear (l_soil (w_heap w b))); cbn in *; discriminate.
    - cbn [fst snd]. split; [lia|]. split; [reflexivity|]. split.
      + intros [<-|[]]. split; [reflexivity|].
        destruct nl, (is_nonlinear (l_soil (w_heap w b))); cbn in *; congruence.
      + intros [-> _]. now left. }
  destruct first as [w1 here]. cbn [fst snd] in H1. destruct H1 as (N & K & Hh).
  specialize (IH w1).
  assert (Hal1 : forall c, In c addrs -> (c < w_next w1)%nat).
  { intros c Hc. assert ((c < w_next w)%nat) by (apply Hal; now right). lia. }
  specialize (IH Hal1 a). assert (Ha1 : (a < w_next w1)%nat) by lia. specialize (IH Ha1).
  destruct (discretize_loop w1 addrs f wf nl) as [w2 below]. cbn [snd] in *.
  rewrite in_app_iff, Hh, IH, K by exact Ha. cbn [In]. intuition congruence.
Qed.

Lemma auto_discretize_owner w p f wf nl a :
  (forall a, In a (layers_of w p) -> (a < w_next w)%nat) -> NoDup (layers_of w p) ->
  In a (layers_of w p) ->
  (kept nl (w_heap w a) = true \/ last_opt (layers_of w p) = Some a) ->
  forall w' q, auto_discretize w p f wf nl = (w', Ok q) ->
  In a (layers_of w' q) /\ l_prof (w_heap w' a) = Some q.
Proof.
  intros Hal Hnd Hin Hk w' q. unfold auto_discretize.
  destruct (last_opt (layers_of w p)) as [bot|] eqn:Eb; [|discriminate].
  pose proof (last_opt_inv _ _ Eb) as Hinv.
  assert (Hal' : forall a, In a (removelast (layers_of w p)) -> (a < w_next w)%nat).
  { intros x Hx. apply Hal. rewrite Hinv. apply in_or_app; now left. }
  assert (Hnd' : NoDup (removelast (layers_of w p)) /\ ~ In bot (removelast (layers_of w p))).
  { rewrite Hinv in Hnd. split.
    - apply NoDup_remove_1 in Hnd. now rewrite app_nil_r in Hnd.
    - apply NoDup_remove_2 in Hnd. now rewrite app_nil_r in Hnd. }
  destruct Hnd' as [Hnd' Hbn].
  pose proof (discretize_kept (removelast (layers_of w p)) f wf nl w Hal' a (Hal a Hin)) as Hkept.
  pose proof (discretize_loop_spec (removelast (layers_of w p)) f wf nl w Hal' Hnd') as Hloop.
  destruct (discretize_loop w (removelast (layers_of w p)) f wf nl) as [w1 addrs].
  cbn [fst snd] in *. destruct Hloop as (_ & _ & _ & _ & _ & B6 & B7).
  pose proof (new_profile_frame w1 (addrs ++ [bot]) (p_wt (w_profs w p))) as Hn.
  intros E.
  assert (Hina : In a (addrs ++ [bot])).
  { apply in_or_app. destruct Hk as [Hk|Hk].
    - rewrite Hinv in Hin. apply in_app_or in Hin. destruct Hin as [Hin|[->|[]]]; [|right; now left].
      left. apply Hkept. auto.
    - injection Hk as ->. right; now left. }
  assert (Hnb : NoDup (addrs ++ [bot])).
  { apply NoDup_app_one; [exact B7|]. intros Hi. apply B6 in Hi.
    destruct Hi as [_ [Hi|Hi]]; [contradiction|].
    assert ((bot < w_next w)%nat) by (apply Hal; rewrite Hinv; apply in_or_app; right; now left). lia. }
  assert (Hp : l_prof (w_heap (fst (new_profile w1 (addrs ++ [bot]) (p_wt (w_profs w p)))) a) = Some (w_pnext w1)).
  { unfold new_profile, update_layers; cbn [fst].
    set (w2 := mkWorld _ _ _ _).
    replace (layers_of w2 (w_pnext w1)) with (addrs ++ [bot]) by (unfold layers_of, w2; cbn; now rewrite Nat.eqb_refl).
    rewrite last_opt_app. cbn [Z.ltb Z.compare fst set_heap w_heap py_slice_start].
    replace (Z.of_nat (length (addrs ++ [bot])) <? 0)%Z with false by (symmetry; apply Z.ltb_ge; lia).
    cbn [Z.to_nat skipn]. apply update_loop_prof; assumption. }
  destruct (new_profile w1 (addrs ++ [bot]) (p_wt (w_profs w p))) as [w2 q'].
  injection E as <- <-. cbn [fst snd] in *. destruct Hn as (N1 & N2 & _).
  split; [now rewrite N2|]. now rewrite Hp, N1.
Qed.

Lemma set_thickness_frame w a t b :
  b <> a -> (forall q, l_prof (w_heap w a) = Some q -> ~ In b (layers_of w q)) ->
  w_heap (fst (set_thickness w a t)) b = w_heap w b.
Proof.
  intros Hba Hni. unfold set_thickness. set (w1 := set_heap w _).
  assert (E1 : w_heap w1 b = w_heap w b) by (unfold w1; cbn; now apply hset_other).
  assert (E2 : l_prof (w_heap w1 a) = l_prof (w_heap w a)) by (unfold w1; cbn; now rewrite hset_same).
  rewrite E2. destruct (l_prof (w_heap w a)) as [q|]; [|exact E1].
  destruct (profile_index w1 q a) as [i|e]; [|exact E1].
  rewrite update_layers_other; [exact E1|]. apply (Hni q eq_refl).
Qed.

Lemma set_thickness_thick w a t : l_thick (w_heap (fst (set_thickness w a t)) a) = t.
Proof.
  unfold set_thickness. set (w1 := set_heap w _).
  assert (E1 : l_thick (w_heap w1 a) = t) by (unfold w1; cbn; now rewrite hset_same).
  destruct (l_prof (w_heap w1 a)) as [q|]; [|exact E1].
  destruct (profile_index w1 q a) as [i|e]; [|exact E1].
  cbn [fst]. destruct (update_layers_core w1 q (Z.of_nat i + 1) a) as (_ & <- & _). exact E1.
Qed.
Lemma set_thickness_profs w a t : w_profs (fst (set_thickness w a t)) = w_profs w.
Proof.
  unfold set_thickness. set (w1 := set_heap w _).
  destruct (l_prof (w_heap w1 a)) as [q|]; [|reflexivity].
  destruct (profile_index w1 q a) as [i|e]; [|reflexivity].
  destruct (update_layers_frame w1 q (Z.of_nat i + 1)) as (_ & -> & _). reflexivity.
Qed.

(** Every profile with a linear layer above a nonlinear one: changing the linear
    layer's thickness after auto-discretisation leaves the nonlinear layer where
    it was. *)
Lemma auto_discretize_detaches w p f wf a b t w' q :
  (p < w_pnext w)%nat ->
  (forall a, In a (layers_of w p) -> (a < w_next w)%nat) -> NoDup (layers_of w p) ->
  In a (removelast (layers_of w p)) -> In b (removelast (layers_of w p)) ->
  is_nonlinear (l_soil (w_heap w a)) = false -> is_nonlinear (l_soil (w_heap w b)) = true ->
  auto_discretize w p f wf true = (w', Ok q) ->
  let w2 := fst (set_thickness w' a t) in
  layers_of w2 p = layers_of w p /\
  l_thick (w_heap w2 a) = t /\ w_heap w2 b = w_heap w b.
Proof.
  intros Hp Hal Hnd Ha Hb La Lb E w2.
  assert (Hne : layers_of w p <> []) by (intros E0; rewrite E0 in Ha; destruct Ha).
  assert (Hsub : forall x, In x (removelast (layers_of w p)) -> In x (layers_of w p)).
  { destruct (last_opt (layers_of w p)) as [bot|] eqn:Eb; [|apply last_opt_none in Eb; contradiction].
    intros x Hx. rewrite (last_opt_inv _ _ Eb). apply in_or_app; now left. }
  destruct (auto_discretize_spec w p f wf true Hal Hnd Hne)
    as (w'' & q' & groups & bottom & E' & Eq & _ & _ & _ & _ & _ & _ & Hprofs & _ & Hunch).
  rewrite E in E'. injection E' as <- <-.
  destruct (auto_discretize_owner w p f wf true a Hal Hnd (Hsub a Ha)) with (w' := w') (q := q) as [Hina Hown]; auto.
  { left. unfold kept. rewrite La. reflexivity. }
  assert (Hnb : ~ In b (layers_of w' q)).
  { unfold auto_discretize in E.
    destruct (last_opt (layers_of w p)) as [bot|] eqn:Eb; [|discriminate].
    pose proof (last_opt_inv _ _ Eb) as Hinv.
    pose proof (discretize_kept (removelast (layers_of w p)) f wf true w
                  (fun x Hx => Hal x (Hsub x Hx)) b (Hal b (Hsub b Hb))) as Hk.
    destruct (discretize_loop w (removelast (layers_of w p)) f wf true) as [w1 addrs]. cbn [snd] in Hk.
    pose proof (new_profile_frame w1 (addrs ++ [bot]) (p_wt (w_profs w p))) as Hn.
    destruct (new_profile w1 (addrs ++ [bot]) (p_wt (w_profs w p))) as [w3 q3].
    injection E as <- <-. cbn [fst snd] in Hn. destruct Hn as (_ & N2 & _). rewrite N2.
    intros Hi. apply in_app_or in Hi. destruct Hi as [Hi|[<-|[]]].
    - apply Hk in Hi. destruct Hi as [_ Hi]. unfold kept in Hi. rewrite Lb in Hi. discriminate.
    - rewrite Hinv in Hnd. apply NoDup_remove_2 in Hnd. rewrite app_nil_r in Hnd. contradiction. }
  split.
  - unfold layers_of, w2. rewrite set_thickness_profs, Hprofs by exact Hp. reflexivity.
  - split; [apply set_thickness_thick|]. unfold w2. rewrite set_thickness_frame.
    + apply Hunch; auto.
    + intros ->. congruence.
    + intros q0 Hq0. rewrite Hown in Hq0. injection Hq0 as <-. exact Hnb.
Qed.
