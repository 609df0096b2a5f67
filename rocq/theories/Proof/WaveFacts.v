(** Facts about the wave kernels: interface algebra, continuity, splitting. *)
From Verif Require Import Common Proof.CommonFacts Model.Curve Model.Layer Model.Cplx Model.Waves
  Spec.WaveSpec Proof.CplxFacts.
From Coquelicot Require Import Coquelicot.
Local Open Scope R_scope.

Lemma Ok_inj {A} (a b : A) : Ok a = Ok b -> a = b.
Proof. intros H. now injection H. Qed.

Lemma cdivx_some x y : y <> RtoC 0 -> cdivx x y = Some (Cdiv x y).
Proof. intros H. unfold cdivx. destruct (Ceq_dec y (RtoC 0)); [contradiction|reflexivity]. Qed.

Lemma wave_num_some w l : wl_vel l <> RtoC 0 -> wave_num w l = Some (Cdiv (RtoC w) (wl_vel l)).
Proof. intros H. unfold wave_num. now apply cdivx_some. Qed.

Lemma RtoC_neq_0 w : w <> 0 -> RtoC w <> RtoC 0.
Proof. intros H E. apply RtoC_inj in E. contradiction. Qed.

Lemma Cdiv_neq_0 x y : x <> RtoC 0 -> y <> RtoC 0 -> Cdiv x y <> RtoC 0.
Proof.
  intros Hx Hy E. apply Hx. rewrite <- (Cmult_1_r x), <- (Cinv_l y Hy), Cmult_assoc.
  fold (Cdiv x y). rewrite E. ring.
Qed.

Lemma step_carry w l l' ab : w <> 0 -> carries l -> carries l' ->
  step_py w l l' ab =
  transmit (Cdiv (Cmult (Cdiv (RtoC w) (wl_vel l)) (wl_mod l))
                 (Cmult (Cdiv (RtoC w) (wl_vel l')) (wl_mod l')))
    (cterm (Cdiv (RtoC w) (wl_vel l)) (wl_thick l)) (fst ab) (snd ab).
Proof.
  intros Hw [Hv Hm] [Hv' Hm']. unfold step_py, cimped.
  rewrite !wave_num_some by assumption. rewrite cdivx_some; [reflexivity|].
  apply Cmult_neq_0; [|assumption]. apply Cdiv_neq_0; [now apply RtoC_neq_0|assumption].
Qed.

(** What the interface update achieves. *)
Lemma transmit_sum c ct a b :
  Cplus (fst (transmit c ct a b)) (snd (transmit c ct a b)) =
  Cplus (Cmult a (Cexp ct)) (Cmult b (Cexp (Copp ct))).
Proof.
  unfold transmit; cbn [fst snd].
  transitivity (Cmult (Cplus c_half c_half) (Cplus (Cmult a (Cexp ct)) (Cmult b (Cexp (Copp ct))))).
  - unfold c_one. ring.
  - rewrite half_double. unfold c_one. ring.
Qed.

Lemma transmit_diff c ct a b :
  Cminus (fst (transmit c ct a b)) (snd (transmit c ct a b)) =
  Cmult c (Cminus (Cmult a (Cexp ct)) (Cmult b (Cexp (Copp ct)))).
Proof.
  unfold transmit; cbn [fst snd].
  transitivity (Cmult (Cplus c_half c_half)
     (Cmult c (Cminus (Cmult a (Cexp ct)) (Cmult b (Cexp (Copp ct)))))).
  - unfold c_one. ring.
  - rewrite half_double. unfold c_one. ring.
Qed.

Lemma transmit_one ct a b :
  transmit (RtoC 1) ct a b = (Cmult a (Cexp ct), Cmult b (Cexp (Copp ct))).
Proof.
  unfold transmit. f_equal.
  - transitivity (Cmult (Cplus c_half c_half) (Cmult a (Cexp ct))); [unfold c_one; ring|].
    rewrite half_double. unfold c_one. ring.
  - transitivity (Cmult (Cplus c_half c_half) (Cmult b (Cexp (Copp ct)))); [unfold c_one; ring|].
    rewrite half_double. unfold c_one. ring.
Qed.

(** Shape of the wave lists. *)
Lemma waves_from_length w ls ab : length (waves_from w ls ab) = length ls.
Proof.
  revert ab; induction ls as [|l rest IH]; intros ab; [reflexivity|].
  cbn [waves_from length]. f_equal. destruct rest as [|l' rest']; [reflexivity|apply IH].
Qed.

Lemma waves_from_head w l rest ab :
  nth_error (waves_from w (l :: rest) ab) 0 = Some ab.
Proof. reflexivity. Qed.

Lemma waves_from_next w ls ab i l l' x :
  nth_error ls i = Some l -> nth_error ls (S i) = Some l' ->
  nth_error (waves_from w ls ab) i = Some x ->
  nth_error (waves_from w ls ab) (S i) = Some (step_py w l l' x).
Proof.
  revert ls ab; induction i as [|i IH]; intros ls ab H1 H2 H3.
  - destruct ls as [|m [|m' r]]; try discriminate.
    cbn in H1, H2, H3. injection H1 as <-. injection H2 as <-. injection H3 as <-. reflexivity.
  - destruct ls as [|m [|m' r]]; [discriminate|destruct i; discriminate|].
    exact (IH (m' :: r) (step_py w m m' ab) H1 H2 H3).
Qed.

Lemma set_last_ones_length xs : length (set_last_ones xs) = length xs.
Proof.
  induction xs as [|x [|y r] IH]; [reflexivity|reflexivity|].
  cbn [set_last_ones length] in *. now rewrite IH.
Qed.

Lemma set_last_ones_app xs y ys :
  set_last_ones (xs ++ y :: ys) = xs ++ set_last_ones (y :: ys).
Proof.
  induction xs as [|x xs IH]; [reflexivity|].
  cbn [app]. destruct xs as [|z zs]; cbn [app set_last_ones] in *; now rewrite ?IH.
Qed.

Lemma rows_nth w ls abs i :
  nth_error (rows w ls abs) i =
  match nth_error ls i, nth_error abs i with
  | Some l, Some ab => Some (mkRow (wave_num w l) (fst ab) (snd ab))
  | _, _ => None
  end.
Proof.
  unfold rows. revert ls abs; induction i as [|i IH]; intros [|l ls] [|ab abs]; try reflexivity.
  - cbn. now destruct (nth_error ls i).
  - cbn [combine map nth_error]. apply IH.
Qed.

Lemma rows_app w ls1 ls2 abs1 abs2 : length ls1 = length abs1 ->
  rows w (ls1 ++ ls2) (abs1 ++ abs2) = rows w ls1 abs1 ++ rows w ls2 abs2.
Proof.
  intros H. unfold rows. rewrite <- map_app. f_equal.
  revert abs1 H; induction ls1 as [|l ls1 IH]; intros [|a abs1] H; try discriminate; [reflexivity|].
  cbn. f_equal. apply IH. now injection H.
Qed.

(** A frequency away from zero. *)
Lemma isclose_zero_false w : 1e-8 < Rabs w -> isclose w 0 = false.
Proof.
  intros H. unfold isclose, Rleb. rewrite Rabs_R0, Rminus_0_r.
  destruct (Rle_dec _ _); [lra|reflexivity].
Qed.

Lemma isclose_zero_true w : Rabs w <= 1e-8 -> isclose w 0 = true.
Proof.
  intros H. unfold isclose, Rleb. rewrite Rabs_R0, Rminus_0_r.
  destruct (Rle_dec _ _); [reflexivity|lra].
Qed.

Lemma awake_neq w : 1e-8 < Rabs w -> w <> 0.
Proof. intros H E. subst. rewrite Rabs_R0 in H. lra. Qed.

Lemma calc_waves_nth w ls rs i l : 1e-8 < Rabs w ->
  calc_waves_python w ls = Ok rs -> nth_error ls i = Some l ->
  exists ab, nth_error (waves_from w ls (c_one, c_one)) i = Some ab /\
    nth_error rs i = Some (mkRow (wave_num w l) (fst ab) (snd ab)).
Proof.
  intros Hw H Hl. destruct ls as [|l0 ls]; [discriminate|].
  unfold calc_waves_python in H. rewrite isclose_zero_false in H by assumption.
  apply Ok_inj in H. subst rs. rewrite rows_nth, Hl.
  destruct (nth_error (waves_from w (l0 :: ls) (c_one, c_one)) i) as [ab|] eqn:E.
  - exists ab. split; [first [exact E|reflexivity]|reflexivity].
  - apply nth_error_None in E. rewrite waves_from_length in E.
    assert (N : (i < length (l0 :: ls))%nat) by (apply nth_error_Some; congruence). lia.
Qed.

(** The field inside a layer. *)
Definition plane (k a b : C) (z : R) : C :=
  Cplus (Cmult a (Cexp (cterm k z))) (Cmult b (Cexp (Copp (cterm k z)))).
Definition plane' (k a b : C) (z : R) : C :=
  Cmult (Cmult Ci k)
    (Cminus (Cmult a (Cexp (cterm k z))) (Cmult b (Cexp (Copp (cterm k z))))).

Lemma cterm_0 k : cterm k 0 = RtoC 0.
Proof. unfold cterm. ring. Qed.

Lemma plane_0 k a b : plane k a b 0 = Cplus a b.
Proof. unfold plane. rewrite cterm_0. replace (Copp (RtoC 0)) with (RtoC 0) by ring.
  rewrite Cexp_0. ring. Qed.

Lemma plane'_0 k a b : plane' k a b 0 = Cmult (Cmult Ci k) (Cminus a b).
Proof. unfold plane'. rewrite cterm_0. replace (Copp (RtoC 0)) with (RtoC 0) by ring.
  rewrite Cexp_0. ring. Qed.

Lemma plane_derive k a b z : cderive (plane k a b) z (plane' k a b z).
Proof.
  unfold plane, plane'.
  replace (Cmult (Cmult Ci k)
    (Cminus (Cmult a (Cexp (cterm k z))) (Cmult b (Cexp (Copp (cterm k z))))))
    with (Cplus (Cmult a (Cmult (Cmult Ci k) (Cexp (cterm k z))))
            (Cmult b (Copp (Cmult (Cmult Ci k) (Cexp (Copp (cterm k z))))))) by ring.
  apply cderive_plus; apply cderive_mult_l; [apply cderive_cexp|apply cderive_cexp_opp].
Qed.

Lemma Ci_sqr : Cmult Ci Ci = RtoC (-1).
Proof. apply C_ext; unfold Ci, RtoC, Cmult, Re, Im; cbn; ring. Qed.

Lemma plane'_derive k a b z :
  cderive (plane' k a b) z (Cmult (Copp (Cmult k k)) (plane k a b z)).
Proof.
  apply (cderive_ext (plane k (Cmult (Cmult Ci k) a) (Copp (Cmult (Cmult Ci k) b)))).
  { intros x. unfold plane, plane'. ring. }
  replace (Cmult (Copp (Cmult k k)) (plane k a b z))
    with (plane' k (Cmult (Cmult Ci k) a) (Copp (Cmult (Cmult Ci k) b)) z).
  { apply plane_derive. }
  unfold plane, plane'.
  transitivity (Cmult (Cmult (Cmult Ci Ci) (Cmult k k))
    (Cplus (Cmult a (Cexp (cterm k z))) (Cmult b (Cexp (Copp (cterm k z)))))); [ring|].
  rewrite Ci_sqr. replace (RtoC (-1)) with (Copp (RtoC 1)) by (now rewrite <- RtoC_opp).
  ring.
Qed.

Lemma field_plane w ls rs i l : 1e-8 < Rabs w ->
  calc_waves_python w ls = Ok rs -> nth_error ls i = Some l -> wl_vel l <> RtoC 0 ->
  exists ab, nth_error (waves_from w ls (c_one, c_one)) i = Some ab /\
    nth_error rs i = Some (mkRow (Some (Cdiv (RtoC w) (wl_vel l))) (fst ab) (snd ab)) /\
    field_in rs i (plane (Cdiv (RtoC w) (wl_vel l)) (fst ab) (snd ab)).
Proof.
  intros Hw H Hl Hv. destruct (calc_waves_nth w ls rs i l Hw H Hl) as (ab & E1 & E2).
  rewrite wave_num_some in E2 by assumption.
  exists ab. repeat split; try assumption.
  intros z. unfold wave_at_location. cbn [loc_index]. rewrite E2. reflexivity.
Qed.

Lemma field_in_unique rs i u v : field_in rs i u -> field_in rs i v -> forall z, u z = v z.
Proof.
  intros H1 H2 z. specialize (H1 z). specialize (H2 z). rewrite H1 in H2. now injection H2.
Qed.

(** Interface conditions (C21). *)
Theorem interface_welded w ls rs i l l' : 1e-8 < Rabs w -> List.Forall carries ls ->
  calc_waves_python w ls = Ok rs ->
  nth_error ls i = Some l -> nth_error ls (S i) = Some l' ->
  exists u u', field_in rs i u /\ field_in rs (S i) u' /\ welded l l' u u'.
Proof.
  intros Hw HF H Hl Hl'. rewrite List.Forall_forall in HF.
  pose proof (HF l (nth_error_In _ _ Hl)) as C1. pose proof (HF l' (nth_error_In _ _ Hl')) as C2.
  destruct (field_plane w ls rs i l Hw H Hl (proj1 C1)) as (ab & E1 & _ & F1).
  destruct (field_plane w ls rs (S i) l' Hw H Hl' (proj1 C2)) as (ab' & E1' & _ & F1').
  rewrite (waves_from_next w ls _ i l l' ab Hl Hl' E1) in E1'. injection E1' as <-.
  pose proof (awake_neq w Hw) as Nw.
  rewrite step_carry in F1' by assumption.
  set (k := Cdiv (RtoC w) (wl_vel l)) in *. set (k' := Cdiv (RtoC w) (wl_vel l')) in *.
  set (c := Cdiv (Cmult k (wl_mod l)) (Cmult k' (wl_mod l'))) in *.
  set (ct := cterm k (wl_thick l)) in *.
  do 2 eexists. split; [exact F1|]. split; [exact F1'|]. split.
  - rewrite plane_0, transmit_sum. reflexivity.
  - do 2 eexists. split; [apply plane_derive|]. split; [apply plane_derive|].
    rewrite plane'_0, transmit_diff. unfold plane'. fold ct.
    unfold c. destruct C1 as [V1 M1]. destruct C2 as [V2 M2].
    assert (K2 : k' <> RtoC 0) by (apply Cdiv_neq_0; [now apply RtoC_neq_0|assumption]).
    field. split; assumption.
Qed.

Theorem layer_wave_equation w ls rs i l : 1e-8 < Rabs w -> wl_vel l <> RtoC 0 ->
  calc_waves_python w ls = Ok rs -> nth_error ls i = Some l ->
  exists u, field_in rs i u /\ wave_equation (wl_vel l) w u.
Proof.
  intros Hw Hv H Hl.
  destruct (field_plane w ls rs i l Hw H Hl Hv) as (ab & _ & _ & F).
  eexists. split; [exact F|].
  exists (plane' (Cdiv (RtoC w) (wl_vel l)) (fst ab) (snd ab)).
  eexists (fun z => _). intros z. split; [apply plane_derive|]. split; [apply plane'_derive|].
  rewrite RtoC_opp, RtoC_mult. field. exact Hv.
Qed.

Theorem surface_free w l ls rs : 1e-8 < Rabs w -> wl_vel l <> RtoC 0 ->
  calc_waves_python w (l :: ls) = Ok rs ->
  exists u, field_in rs 0 u /\ u 0 = RtoC 2 /\ stress_free_top u.
Proof.
  intros Hw Hv H.
  destruct (field_plane w (l :: ls) rs 0 l Hw H eq_refl Hv) as (ab & E & _ & F).
  cbn in E. injection E as <-. eexists. split; [exact F|]. cbn [fst snd]. split.
  - rewrite plane_0. unfold c_one. rewrite <- RtoC_plus. apply f_equal. lra.
  - unfold stress_free_top.
    replace (RtoC 0) with (plane' (Cdiv (RtoC w) (wl_vel l)) c_one c_one 0).
    + apply plane_derive.
    + rewrite plane'_0. ring.
Qed.
