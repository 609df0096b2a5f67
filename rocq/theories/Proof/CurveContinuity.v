(** Curves are continuous in the strain and constant outside their table. *)
From Verif Require Import Common Proof.CommonFacts Model.Curve Model.Layer Spec.CurveSpec Spec.LayerSpec Spec.CompatibleSpec Proof.CurveFacts Proof.LayerFacts.
From Coq Require Import Sorted.
Local Open Scope R_scope.

Lemma continuity_lip1 f : (forall x y, Rabs (f x - f y) <= Rabs (x - y)) -> continuity f.
Proof.
  intros H x eps He. exists eps. split; [exact He|]. intros y [_ Hy]. unfold dist in *; cbn in *; unfold R_dist in *.
  eapply Rle_lt_trans; [apply H|exact Hy].
Qed.
Lemma continuity_max a : continuity (fun x => Rmax a x).
Proof.
  apply continuity_lip1. intros x y. unfold Rmax. destruct (Rle_dec a x), (Rle_dec a y); unfold Rabs; repeat destruct (Rcase_abs _); lra.
Qed.
Lemma continuity_min a : continuity (fun x => Rmin a x).
Proof.
  apply continuity_lip1. intros x y. unfold Rmin. destruct (Rle_dec a x), (Rle_dec a y); unfold Rabs; repeat destruct (Rcase_abs _); lra.
Qed.
Lemma continuity_constant (a : R) : continuity (fun _ => a).
Proof. intros x. apply continuity_pt_const. intros ? ?. reflexivity. Qed.
Lemma continuity_id : continuity (fun x => x).
Proof. apply continuity_lip1. intros x y. lra. Qed.
Lemma continuity_eq f g : (forall x, f x = g x) -> continuity g -> continuity f.
Proof.
  intros E H x eps He. destruct (H x eps He) as (d & Hd & HH). exists d. split; [exact Hd|]. intros y Hy. rewrite !E. now apply HH.
Qed.
Lemma continuity_compose f g : continuity f -> continuity g -> continuity (fun x => g (f x)).
Proof. intros Hf Hg x. apply (continuity_pt_comp f g); [apply Hf|apply Hg]. Qed.
Lemma continuity_add f g : continuity f -> continuity g -> continuity (fun x => f x + g x).
Proof. intros Hf Hg x. apply (continuity_pt_plus f g); [apply Hf|apply Hg]. Qed.
Lemma continuity_scale a f : continuity f -> continuity (fun x => a * f x).
Proof. intros Hf x. apply (continuity_pt_mult (fun _ => a) f); [apply continuity_constant|apply Hf]. Qed.

Lemma np_interp_split x x0 y0 x1 y1 rest : xsorted ((x0, y0) :: (x1, y1) :: rest) ->
  np_interp x ((x0, y0) :: (x1, y1) :: rest) =
  ((y1 - y0) / (x1 - x0) * (Rmin x1 (Rmax x0 x) + - x0) + (y0 - y1)) + np_interp x ((x1, y1) :: rest).
Proof.
  intros HS. inversion HS as [|? ? HS' HF]; subst. inversion HF as [|? ? H01 _]; subst. unfold xlt in H01; cbn in H01.
  rewrite np_interp_cons2. destruct (Rltb x x1) eqn:L; [apply Rltb_true in L|apply Rltb_false in L].
  - rewrite (np_interp_left x x1 y1 rest HS') by lra. unfold Rleb. destruct (Rle_dec x x0) as [Q|Q].
    + rewrite (Rmax_left x0 x), Rmin_right by lra. field. lra.
    + rewrite (Rmax_right x0 x), Rmin_right by lra. field. lra.
  - rewrite (Rmax_right x0 x), Rmin_left by lra. field. lra.
Qed.
Lemma continuity_interp pts : xsorted pts -> continuity (fun x => np_interp x pts).
Proof.
  induction pts as [|[x0 y0] pts IH]; intros HS; [exact (continuity_constant 0)|].
  destruct pts as [|[x1 y1] rest]; [exact (continuity_constant y0)|].
  apply (continuity_eq _ _ (fun x => np_interp_split x x0 y0 x1 y1 rest HS)). apply continuity_add.
  - apply continuity_add; [|apply continuity_constant]. apply continuity_scale. apply continuity_add; [|apply continuity_constant].
    apply (continuity_compose (fun x => Rmax x0 x) (fun x => Rmin x1 x)); [apply continuity_max|apply continuity_min].
  - apply IH. now inversion HS.
Qed.
Lemma continuity_clip lo hi : continuity (fun x => clip x lo hi).
Proof.
  unfold clip. apply (continuity_compose (fun x => Rmax x lo) (fun x => Rmin x hi)).
  - apply (continuity_eq _ (fun x => Rmax lo x)); [intros; apply Rmax_comm|apply continuity_max].
  - apply (continuity_eq _ (fun x => Rmin hi x)); [intros; apply Rmin_comm|apply continuity_min].
Qed.
Lemma continuity_floor : continuity (fun s => ln (Rmax 1e-9 s)).
Proof.
  intros s. apply (continuity_pt_comp (fun s => Rmax 1e-9 s) ln); [apply continuity_max|].
  apply derivable_continuous_pt. exists (/ Rmax 1e-9 s). apply derivable_pt_lim_ln.
  apply Rlt_le_trans with 1e-9; [lra|apply Rmax_l].
Qed.
Definition value_at (c : curve) (s : R) : R := match curve_call c s with Ok v => v | Err _ => 0 end.
Lemma value_at_call c s : good_table (c_strains c) (c_values c) -> curve_call c s = Ok (value_at c s).
Proof. intros H. unfold value_at. now rewrite curve_call_good. Qed.
Lemma continuity_curve c : good_table (c_strains c) (c_values c) -> continuity (value_at c).
Proof.
  intros H. apply (continuity_eq _ (fun s => clip (np_interp (ln (Rmax 1e-9 s)) (ln_table c)) (c_lo c) (c_hi c))).
  - intros s. unfold value_at. now rewrite curve_call_good.
  - apply (continuity_compose (fun s => np_interp (ln (Rmax 1e-9 s)) (ln_table c)) (fun x => clip x (c_lo c) (c_hi c))); [|apply continuity_clip].
    apply (continuity_compose _ (fun x => np_interp x (ln_table c))); [apply continuity_floor|].
    apply continuity_interp. now apply good_table_ln.
Qed.

(** Constant up to the floor and from some strain on. *)
Lemma curve_low c s : s <= 1e-9 -> curve_call c s = curve_call c 1e-9.
Proof. intros H. unfold curve_call. now rewrite (Rmax_left 1e-9 s), (Rmax_left 1e-9 1e-9) by lra. Qed.
Lemma curve_high c : good_table (c_strains c) (c_values c) -> exists S0, forall s, S0 <= s -> curve_call c s = curve_call c S0.
Proof.
  intros H. pose proof H as (HL & Hne & HP & _).
  destruct (nth_error (c_strains c) (length (c_strains c) - 1)) as [sl|] eqn:E1.
  2:{ apply nth_error_None in E1. destruct (c_strains c); [contradiction|cbn in E1; lia]. }
  destruct (nth_error (c_values c) (length (c_strains c) - 1)) as [vl|] eqn:E2.
  2:{ apply nth_error_None in E2. destruct (c_strains c); [contradiction|cbn in E2, HL; lia]. }
  exists (Rmax 1e-9 sl). pose proof (Rmax_l 1e-9 sl). pose proof (Rmax_r 1e-9 sl). intros s Hs.
  rewrite (curve_last c sl vl s), (curve_last c sl vl (Rmax 1e-9 sl)); auto; try (now split); lra.
Qed.

(** Modulus and damping of a layer as functions of the strain. *)
Lemma mod_continuous l : tabulated (l_soil l) -> continuity (compute_mod l).
Proof.
  intros [H _]. unfold compute_mod. destruct (s_mod (l_soil l)) as [c|] eqn:E; [|apply continuity_constant].
  apply (continuity_eq _ (fun s => initial_shear_mod l * value_at c s)).
  - intros s. rewrite (value_at_call c s) by now apply H. reflexivity.
  - apply continuity_scale, continuity_curve. now apply H.
Qed.
Lemma damping_continuous l : tabulated (l_soil l) -> continuity (compute_damping l).
Proof.
  intros [_ H]. unfold compute_damping. destruct (s_damp (l_soil l)) as [d|c] eqn:E; [apply continuity_constant|].
  destruct (soil_damping_min (l_soil l)) as [dm|] eqn:Em.
  - apply (continuity_eq _ (fun s => value_at c s + (- dm + l_dmin l))).
    + intros s. rewrite (value_at_call c s) by now apply H. ring.
    + apply continuity_add; [apply continuity_curve; now apply H|apply continuity_constant].
  - apply (continuity_eq _ (fun _ => 0 + l_dmin l)); [|apply continuity_constant]. intros s. now destruct (curve_call c s).
Qed.
Lemma layer_low l s : s <= 1e-9 -> compute_mod l s = compute_mod l 1e-9 /\ compute_damping l s = compute_damping l 1e-9.
Proof.
  intros H. unfold compute_mod, compute_damping. split.
  - destruct (s_mod (l_soil l)); [now rewrite curve_low|reflexivity].
  - destruct (s_damp (l_soil l)); [reflexivity|now rewrite curve_low].
Qed.
Lemma layer_high l : tabulated (l_soil l) -> exists S0, forall s, S0 <= s ->
  compute_mod l s = compute_mod l S0 /\ compute_damping l s = compute_damping l S0.
Proof.
  intros [H1 H2].
  assert (A : exists S1, forall s, S1 <= s -> compute_mod l s = compute_mod l S1).
  { unfold compute_mod. destruct (s_mod (l_soil l)) as [c|]; [|exists 0; reflexivity].
    destruct (curve_high c (H1 c eq_refl)) as [S1 HS]. exists S1. intros s Hs. now rewrite HS. }
  assert (B : exists S2, forall s, S2 <= s -> compute_damping l s = compute_damping l S2).
  { unfold compute_damping. destruct (s_damp (l_soil l)) as [d|c]; [exists 0; reflexivity|].
    destruct (curve_high c (H2 c eq_refl)) as [S2 HS]. exists S2. intros s Hs. now rewrite HS. }
  destruct A as [S1 A]. destruct B as [S2 B]. exists (Rmax S1 S2). pose proof (Rmax_l S1 S2). pose proof (Rmax_r S1 S2). intros s Hs.
  split; [rewrite (A s), (A (Rmax S1 S2)) by lra; reflexivity|rewrite (B s), (B (Rmax S1 S2)) by lra; reflexivity].
Qed.
