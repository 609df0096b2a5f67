(** The motion of a layered site is determined by its value at one place. *)
From Verif Require Import Common Model.Curve Model.Layer Model.Cplx Model.Waves Spec.WaveSpec Proof.CplxFacts Proof.WaveFacts Proof.WaveProps.
From Coquelicot Require Import Coquelicot.
Local Open Scope R_scope.

Lemma cderive_mult u v z du dv : cderive u z du -> cderive v z dv ->
  cderive (fun x => Cmult (u x) (v x)) z (Cplus (Cmult du (v z)) (Cmult (u z) dv)).
Proof.
  intros [A1 A2] [B1 B2]. split.
  - apply (is_derive_ext (fun x => minus (mult (Re (u x)) (Re (v x))) (mult (Im (u x)) (Im (v x))))); [intros; reflexivity|].
    match goal with |- is_derive _ _ ?t => replace t with
      (minus (plus (mult (Re du) (Re (v z))) (mult (Re (u z)) (Re dv))) (plus (mult (Im du) (Im (v z))) (mult (Im (u z)) (Im dv)))) end.
    + apply (is_derive_minus (V := R_NormedModule)).
      * apply (is_derive_mult (fun x => Re (u x)) (fun x => Re (v x))); [exact A1|exact B1|intros; apply Rmult_comm].
      * apply (is_derive_mult (fun x => Im (u x)) (fun x => Im (v x))); [exact A2|exact B2|intros; apply Rmult_comm].
    + unfold minus, plus, mult, opp, Cplus, Cmult, Re, Im; cbn. ring.
  - apply (is_derive_ext (fun x => plus (mult (Re (u x)) (Im (v x))) (mult (Im (u x)) (Re (v x))))); [intros; reflexivity|].
    match goal with |- is_derive _ _ ?t => replace t with
      (plus (plus (mult (Re du) (Im (v z))) (mult (Re (u z)) (Im dv))) (plus (mult (Im du) (Re (v z))) (mult (Im (u z)) (Re dv)))) end.
    + apply (is_derive_plus (V := R_NormedModule)).
      * apply (is_derive_mult (fun x => Re (u x)) (fun x => Im (v x))); [exact A1|exact B2|intros; apply Rmult_comm].
      * apply (is_derive_mult (fun x => Im (u x)) (fun x => Re (v x))); [exact A2|exact B1|intros; apply Rmult_comm].
    + unfold minus, plus, mult, opp, Cplus, Cmult, Re, Im; cbn. ring.
Qed.
Lemma cderive_value u z d d' : d = d' -> cderive u z d -> cderive u z d'.
Proof. now intros ->. Qed.
Lemma zero_derive (f : R -> R) : (forall t, is_derive f t 0) -> forall x, f x = f 0.
Proof.
  intros H x. destruct (Rtotal_order x 0) as [L|[->|L]]; [|reflexivity|symmetry]; apply (eq_is_derive f); auto.
Qed.
Lemma zero_cderive (u : R -> C) : (forall z, cderive u z (RtoC 0)) -> forall z, u z = u 0.
Proof.
  intros H z. apply C_ext.
  - apply (zero_derive (fun x => Re (u x))). intros t. exact (proj1 (H t)).
  - apply (zero_derive (fun x => Im (u x))). intros t. exact (proj2 (H t)).
Qed.

(** Every solution of the wave equation is a pair of plane waves. *)
Lemma wave_equation_plane c w u : w <> 0 -> c <> RtoC 0 -> wave_equation c w u ->
  exists a b, forall z, u z = plane (Cdiv (RtoC w) c) a b z.
Proof.
  intros Hw Hc (du & ddu & H). set (k := Cdiv (RtoC w) c). set (j := Cmult Ci k).
  assert (K : k <> RtoC 0) by (apply Cdiv_neq_0; [now apply RtoC_neq_0|exact Hc]).
  assert (J : j <> RtoC 0).
  { intros E. unfold j in E. assert (k = Cmult (Copp Ci) (Cmult Ci k)) as X.
    { transitivity (Cmult (Copp (Cmult Ci Ci)) k); [|ring]. rewrite Ci_sqr. apply C_ext; unfold Copp, RtoC, Cmult, Re, Im; cbn; ring. }
    rewrite E in X. apply K. rewrite X. ring. }
  assert (JJ : Cmult j j = Copp (Cmult k k)).
  { transitivity (Cmult (Cmult Ci Ci) (Cmult k k)); [unfold j; ring|]. rewrite Ci_sqr. apply C_ext; unfold Copp, RtoC, Cmult, Re, Im; cbn; ring. }
  assert (D2 : forall z, ddu z = Cmult (Cmult j j) (u z)).
  { intros z. destruct (H z) as (_ & _ & E). rewrite JJ. apply (f_equal (Cmult (Cinv (Cmult c c)))) in E.
    transitivity (Cmult (Cinv (Cmult c c)) (Cmult (Cmult c c) (ddu z))).
    - field. exact Hc.
    - rewrite E. unfold k. rewrite RtoC_opp, RtoC_mult. field. exact Hc. }
  set (p := fun z => Cmult (Cplus (du z) (Cmult j (u z))) (Cexp (Copp (cterm k z)))).
  set (q := fun z => Cmult (Cplus (du z) (Cmult (Copp j) (u z))) (Cexp (cterm k z))).
  assert (P : forall z, p z = p 0).
  { apply zero_cderive. intros z. destruct (H z) as (H1 & H2 & _).
    pose proof (cderive_mult _ _ z _ _ (cderive_plus _ _ z _ _ H2 (cderive_mult_l j _ z _ H1)) (cderive_cexp_opp k z)) as X.
    refine (cderive_value _ z _ _ _ X). cbv beta. rewrite (D2 z). fold j. ring. }
  assert (Q : forall z, q z = q 0).
  { apply zero_cderive. intros z. destruct (H z) as (H1 & H2 & _).
    pose proof (cderive_mult _ _ z _ _ (cderive_plus _ _ z _ _ H2 (cderive_mult_l (Copp j) _ z _ H1)) (cderive_cexp k z)) as X.
    refine (cderive_value _ z _ _ _ X). cbv beta. rewrite (D2 z). fold j. ring. }
  assert (T : RtoC 2 <> RtoC 0) by (apply RtoC_neq_0; lra).
  exists (Cdiv (p 0) (Cmult (RtoC 2) j)), (Copp (Cdiv (q 0) (Cmult (RtoC 2) j))). intros z. unfold plane.
  rewrite <- (P z), <- (Q z). unfold p, q. rewrite Cexp_opp. pose proof (Cexp_neq_0 (cterm k z)) as N.
  replace (u z) with (Cdiv (Cmult (Cmult (RtoC 2) j) (u z)) (Cmult (RtoC 2) j)) at 1 by (field; split; assumption).
  replace (RtoC 2) with (Cplus (RtoC 1) (RtoC 1)) by (rewrite <- RtoC_plus; apply f_equal; lra).
  field. repeat split; try assumption. intros E. apply (f_equal fst) in E. cbn in E. lra.
Qed.

Lemma plane_scaled k a b c z : plane k (Cmult c a) (Cmult c b) z = Cmult c (plane k a b z).
Proof. unfold plane. ring. Qed.

(** The computed fields are a motion of the site, and any other one is a multiple of it. *)
Theorem motion_exists w ls rs : 1e-8 < Rabs w -> ls <> nil -> List.Forall carries ls -> calc_waves_python w ls = Ok rs ->
  exists us, site_motion w ls us /\ us 0%nat 0 = RtoC 2 /\ forall i, (i < length ls)%nat -> field_in rs i (us i).
Proof.
  intros Hw Hne HF H. rewrite List.Forall_forall in HF.
  set (us := fun i z => match wave_at_location rs (mkLoc i z Within) with Ok (Some x) => x | _ => RtoC 0 end).
  assert (F : forall i u, field_in rs i u -> us i = us i /\ forall z, us i z = u z).
  { intros i u Hu. split; [reflexivity|]. intros z. unfold us. now rewrite (Hu z). }
  assert (G : forall i l, nth_error ls i = Some l -> exists ab, nth_error (waves_from w ls (c_one, c_one)) i = Some ab /\
     forall z, us i z = plane (Cdiv (RtoC w) (wl_vel l)) (fst ab) (snd ab) z).
  { intros i l Hl. destruct (field_plane w ls rs i l Hw H Hl (proj1 (HF l (nth_error_In _ _ Hl)))) as (ab & E & _ & Fi).
    exists ab. split; [exact E|]. now apply F. }
  exists us. split; [split; [|split]|split].
  - intros i l Hl. destruct (layer_wave_equation w ls rs i l Hw (proj1 (HF l (nth_error_In _ _ Hl))) H Hl) as (u & Fu & du & ddu & W).
    destruct (F i u Fu) as [_ E]. exists du, ddu. intros z. destruct (W z) as (W1 & W2 & W3). split; [|split; [exact W2|]].
    + apply (cderive_ext u); [intros x; now rewrite E|exact W1].
    + now rewrite E.
  - intros i l l' Hl Hl'. destruct (interface_welded w ls rs i l l' Hw (proj2 (List.Forall_forall _ _) HF) H Hl Hl') as (u & u' & Fu & Fu' & W1 & du & du' & W2 & W3 & W4).
    destruct (F i u Fu) as [_ E]. destruct (F (S i) u' Fu') as [_ E']. split; [now rewrite E, E'|].
    exists du, du'. split; [apply (cderive_ext u); [intros x; now rewrite E|exact W2]|].
    split; [apply (cderive_ext u'); [intros x; now rewrite E'|exact W3]|exact W4].
  - destruct ls as [|l ls]; [contradiction|].
    destruct (surface_free w l ls rs Hw (proj1 (HF l (or_introl eq_refl))) H) as (u & Fu & _ & W).
    destruct (F 0%nat u Fu) as [_ E]. apply (cderive_ext u); [intros x; now rewrite E|exact W].
  - destruct ls as [|l ls]; [contradiction|].
    destruct (surface_free w l ls rs Hw (proj1 (HF l (or_introl eq_refl))) H) as (u & Fu & W & _).
    destruct (F 0%nat u Fu) as [_ E]. now rewrite E.
  - intros i Hi. destruct (nth_error ls i) as [l|] eqn:El; [|apply nth_error_None in El; lia].
    destruct (field_plane w ls rs i l Hw H El (proj1 (HF l (nth_error_In _ _ El)))) as (ab & _ & _ & Fi).
    intros z. rewrite (Fi z). do 2 f_equal. symmetry. now apply (F i _ Fi).
Qed.

Theorem motion_unique w ls rs us : 1e-8 < Rabs w -> List.Forall carries ls -> calc_waves_python w ls = Ok rs ->
  site_motion w ls us ->
  exists A, forall i u, (i < length ls)%nat -> field_in rs i u -> forall z, us i z = Cmult A (u z).
Proof.
  intros Hw HF H (W1 & W2 & W3). pose proof (awake_neq w Hw) as Nw. rewrite List.Forall_forall in HF.
  assert (PL : forall i l, nth_error ls i = Some l -> exists a b, forall z, us i z = plane (Cdiv (RtoC w) (wl_vel l)) a b z).
  { intros i l Hl. apply wave_equation_plane; [exact Nw|exact (proj1 (HF l (nth_error_In _ _ Hl)))|now apply W1]. }
  assert (KN : forall l, carries l -> Cdiv (RtoC w) (wl_vel l) <> RtoC 0).
  { intros l [V _]. apply Cdiv_neq_0; [now apply RtoC_neq_0|exact V]. }
  assert (JN : forall k, k <> RtoC 0 -> Cmult Ci k <> RtoC 0) by (intros k K; apply Cmult_neq_0; [exact Ci_neq_0|exact K]).
  assert (SD : forall x y s d : C, Cplus x y = s -> Cminus x y = d -> x = Cmult c_half (Cplus s d) /\ y = Cmult c_half (Cminus s d)).
  { intros x y s d <- <-. pose proof half_double as HD. split.
    - transitivity (Cmult (Cplus c_half c_half) x); [rewrite HD; unfold c_one; ring|ring].
    - transitivity (Cmult (Cplus c_half c_half) y); [rewrite HD; unfold c_one; ring|ring]. }
  destruct ls as [|l0 rest]; [exists (RtoC 0); intros i u Hi; cbn in Hi; lia|].
  destruct (PL 0%nat l0 eq_refl) as (a0 & b0 & P0).
  assert (EQ : a0 = b0).
  { set (k := Cdiv (RtoC w) (wl_vel l0)) in *.
    assert (X : cderive (us 0%nat) 0 (plane' k a0 b0 0)) by (apply (cderive_ext (plane k a0 b0)); [intros x; now rewrite P0|apply plane_derive]).
    pose proof (cderive_unique _ _ _ _ X W3) as E. rewrite plane'_0 in E.
    assert (N : Cmult Ci k <> RtoC 0) by (apply JN, KN, HF; now left).
    transitivity (Cplus b0 (Cmult (Cinv (Cmult Ci k)) (Cmult (Cmult Ci k) (Cminus a0 b0)))); [field; repeat split; try exact Ci_neq_0; apply KN, HF; now left|].
    rewrite E. ring. }
  exists a0.
  assert (ALL : forall i l, nth_error (l0 :: rest) i = Some l -> exists ab, nth_error (waves_from w (l0 :: rest) (c_one, c_one)) i = Some ab /\
     forall z, us i z = plane (Cdiv (RtoC w) (wl_vel l)) (Cmult a0 (fst ab)) (Cmult a0 (snd ab)) z).
  { induction i as [|i IH]; intros l Hl.
    - injection Hl as <-. exists (c_one, c_one). split; [reflexivity|]. intros z. rewrite P0, <- EQ. cbn [fst snd]. unfold c_one. now rewrite Cmult_1_r.
    - assert (exists l1, nth_error (l0 :: rest) i = Some l1) as [l1 Hl1].
      { destruct (nth_error (l0 :: rest) i) eqn:E; [eauto|]. apply nth_error_None in E. assert (S i < length (l0 :: rest))%nat by (apply nth_error_Some; congruence). lia. }
      destruct (IH l1 Hl1) as (ab & E & P). pose proof (waves_from_next w _ _ i l1 l ab Hl1 Hl E) as E'.
      pose proof (HF l1 (nth_error_In _ _ Hl1)) as C1. pose proof (HF l (nth_error_In _ _ Hl)) as C2.
      rewrite step_carry in E' by assumption. eexists. split; [exact E'|].
      destruct (PL (S i) l Hl) as (a & b & P').
      destruct (W2 i l1 l Hl1 Hl) as (D1 & du & du' & D2 & D3 & D4).
      set (k := Cdiv (RtoC w) (wl_vel l1)) in *. set (k' := Cdiv (RtoC w) (wl_vel l)) in *.
      pose proof (KN l1 C1) as K1. pose proof (KN l C2) as K2. fold k in K1. fold k' in K2.
      set (ct := cterm k (wl_thick l1)) in *. set (c := Cdiv (Cmult k (wl_mod l1)) (Cmult k' (wl_mod l))) in *.
      rewrite P, P', plane_scaled, plane_0 in D1.
      assert (X1 : cderive (us i) (wl_thick l1) (Cmult a0 (plane' k (fst ab) (snd ab) (wl_thick l1)))).
      { apply (cderive_ext (fun x => Cmult a0 (plane k (fst ab) (snd ab) x))); [intros x; now rewrite P, plane_scaled|apply cderive_mult_l, plane_derive]. }
      assert (X2 : cderive (us (S i)) 0 (plane' k' a b 0)) by (apply (cderive_ext (plane k' a b)); [intros x; now rewrite P'|apply plane_derive]).
      rewrite <- (cderive_unique _ _ _ _ X1 D2), <- (cderive_unique _ _ _ _ X2 D3), plane'_0 in D4.
      set (t := transmit c ct (fst ab) (snd ab)).
      assert (S1 : Cplus a b = Cmult a0 (Cplus (fst t) (snd t))).
      { unfold t. rewrite transmit_sum. rewrite <- D1. reflexivity. }
      assert (S2 : Cminus a b = Cmult a0 (Cminus (fst t) (snd t))).
      { unfold t. rewrite transmit_diff. unfold plane' in D4. fold ct in D4.
        set (m := Cminus (Cmult (fst ab) (Cexp ct)) (Cmult (snd ab) (Cexp (Copp ct)))) in *.
        transitivity (Cmult (Cinv (Cmult (wl_mod l) (Cmult Ci k'))) (Cmult (wl_mod l) (Cmult (Cmult Ci k') (Cminus a b)))).
        - field. repeat split; [exact K2|exact Ci_neq_0|exact (proj2 C2)].
        - rewrite <- D4. unfold c. field. repeat split; [exact (proj2 C2)|exact K2|exact Ci_neq_0]. }
      destruct (SD _ _ _ _ S1 S2) as [Ea Eb]. intros z. rewrite P'. f_equal.
      + rewrite Ea. destruct (SD (Cmult a0 (fst t)) (Cmult a0 (snd t)) _ _ eq_refl eq_refl) as [Z _]. rewrite Z. f_equal. ring.
      + rewrite Eb. destruct (SD (Cmult a0 (fst t)) (Cmult a0 (snd t)) _ _ eq_refl eq_refl) as [_ Z]. rewrite Z. f_equal. ring. }
  intros i u Hi Hu z. destruct (nth_error (l0 :: rest) i) as [l|] eqn:El; [|apply nth_error_None in El; lia].
  destruct (ALL i l El) as (ab & E & P).
  destruct (field_plane w _ rs i l Hw H El (proj1 (HF l (nth_error_In _ _ El)))) as (ab' & E' & _ & Fi).
  rewrite E in E'. injection E' as <-. rewrite P, plane_scaled. now rewrite (field_in_unique _ _ _ _ Hu Fi z).
Qed.

(** So the transfer function between two points is the ratio of their motions in any
    motion of the site. *)
Theorem tf_any_motion w ls rs us i j zi zj : 1e-8 < Rabs w -> List.Forall carries ls -> calc_waves_python w ls = Ok rs ->
  site_motion w ls us -> (i < length ls)%nat -> (j < length ls)%nat -> us i zi <> RtoC 0 ->
  calc_accel_tf rs (mkLoc i zi Within) (mkLoc j zj Within) = Ok (Some (Cdiv (us j zj) (us i zi))) /\
  exists du, cderive (us j) zj du /\
  calc_strain_tf rs w (mkLoc i zi Within) (mkLoc j zj Within) = Ok (Some (Cdiv (Cmult (RtoC (GRAVITY / - w ^ 2)) du) (us i zi))).
Proof.
  intros Hw HF H HM Hi Hj Hu. assert (Hne : ls <> nil) by (destruct ls; [cbn in Hi; lia|discriminate]).
  destruct (motion_unique w ls rs us Hw HF H HM) as (A & U).
  destruct (motion_exists w ls rs Hw Hne HF H) as (vs & _ & _ & FV).
  pose proof (U i (vs i) Hi (FV i Hi)) as Ei. pose proof (U j (vs j) Hj (FV j Hj)) as Ej.
  assert (NA : A <> RtoC 0) by (intros X; apply Hu; rewrite Ei, X; ring).
  assert (NV : vs i zi <> RtoC 0) by (intros X; apply Hu; rewrite Ei, X; ring).
  split.
  - rewrite (tf_some rs _ _ (vs j zj) (vs i zi) (FV j Hj zj) (FV i Hi zi) NV). do 2 f_equal. rewrite Ei, Ej. field. split; assumption.
  - destruct (nth_error ls j) as [l|] eqn:El; [|apply nth_error_None in El; lia].
    rewrite List.Forall_forall in HF. pose proof (HF l (nth_error_In _ _ El)) as C1.
    destruct (field_plane w ls rs j l Hw H El (proj1 C1)) as (ab & _ & R & Fj). set (k := Cdiv (RtoC w) (wl_vel l)) in *.
    exists (Cmult A (plane' k (fst ab) (snd ab) zj)). split.
    + apply (cderive_ext (fun x => Cmult A (plane k (fst ab) (snd ab) x))); [|apply cderive_mult_l, plane_derive].
      intros x. rewrite Ej. now rewrite (field_in_unique _ _ _ _ (FV j Hj) Fj x).
    + unfold calc_strain_tf. cbn [loc_field loc_index loc_within]. rewrite R.
      pose proof (FV i Hi zi) as Vi. unfold wave_at_location in Vi. cbn [loc_field loc_index loc_within] in Vi.
      destruct (nth_error rs i) as [ri|]; [|discriminate]. injection Vi as Vi. unfold strain_tf_python. rewrite isclose_zero_false by exact Hw.
      cbn [r_k r_a r_b]. rewrite Vi. pose proof (awake_neq w Hw) as Nw.
      assert (N2 : RtoC (- w ^ 2) <> RtoC 0) by (apply RtoC_neq_0; cbn; nra).
      rewrite cdivx_some by (apply Cmult_neq_0; assumption). do 2 f_equal.
      rewrite Ei. rewrite RtoC_div by (cbn; nra). change (strain_numer k (fst ab) (snd ab) zj) with (plane' k (fst ab) (snd ab) zj). field. repeat split; assumption.
Qed.
