(** Transfer functions depend continuously on frequency, site and depths. *)
From Coq Require Import List.
From Verif Require Import Common Proof.CommonFacts Model.Curve Model.Layer Model.Cplx Model.Waves
  Spec.WaveSpec Spec.ContinuitySpec Proof.LayerFacts Proof.CplxFacts Proof.WaveFacts Proof.WaveEnergy.
From Coquelicot Require Import Hierarchy Continuity ElemFct Complex.
Local Open Scope R_scope.

Lemma sqr_pos x : x <> 0 -> 0 < x ^ 2.
Proof. intros H. cbn [pow]. rewrite Rmult_1_r. now apply Rsqr_pos_lt. Qed.

(** Wave numbers, amplitudes and motions as functions of frequency and layers. *)
Definition num (dl : layer) (w : R) (ls : list layer) (i : nat) : C := Cdiv (RtoC w) (comp_shear_vel (nth i ls dl)).
Definition imp (dl : layer) (w : R) (ls : list layer) (i : nat) : C := Cmult (num dl w ls i) (comp_shear_mod (nth i ls dl)).
Fixpoint amps (dl : layer) (w : R) (ls : list layer) (i : nat) : C * C :=
  match i with
  | O => (c_one, c_one)
  | S j => transmit (Cdiv (imp dl w ls j) (imp dl w ls (S j))) (cterm (num dl w ls j) (l_thick (nth j ls dl)))
             (fst (amps dl w ls j)) (snd (amps dl w ls j))
  end.
Definition motion_at (dl : layer) (w : R) (ls : list layer) (i : nat) (z : R) (f : wave_field) : C :=
  let ct := cterm (num dl w ls i) z in
  match f with
  | Within => Cplus (Cmult (fst (amps dl w ls i)) (Cexp ct)) (Cmult (snd (amps dl w ls i)) (Cexp (Copp ct)))
  | Outcrop => Cmult (Cmult (RtoC 2) (fst (amps dl w ls i))) (Cexp ct)
  | IncomingOnly => Cmult (fst (amps dl w ls i)) (Cexp ct)
  end.
Definition carried (dl : layer) (ls : list layer) (n : nat) : Prop :=
  forall i, (i < n)%nat -> carries (wlayer_of (nth i ls dl)).

Lemma nth_layer (dl : layer) ls i : (i < length ls)%nat -> nth_error (map wlayer_of ls) i = Some (wlayer_of (nth i ls dl)).
Proof. intros H. apply map_nth_error. now apply nth_error_nth'. Qed.

Lemma rows_amps dl w ls : 1e-8 < Rabs w -> ls <> [] -> carried dl ls (length ls) ->
  exists rs, calc_waves_python w (map wlayer_of ls) = Ok rs /\
  forall i, (i < length ls)%nat ->
    nth_error rs i = Some (mkRow (Some (num dl w ls i)) (fst (amps dl w ls i)) (snd (amps dl w ls i))).
Proof.
  intros Hw Hne HC. assert (W0 : w <> 0) by (intros ->; rewrite Rabs_R0 in Hw; lra).
  assert (HA : forall i, (i < length ls)%nat -> nth_error (waves_from w (map wlayer_of ls) (c_one, c_one)) i = Some (amps dl w ls i)).
  { induction i as [|i IH]; intros Hi.
    - destruct ls as [|l ls']; [contradiction|]. reflexivity.
    - rewrite (waves_from_next w (map wlayer_of ls) (c_one, c_one) i (wlayer_of (nth i ls dl)) (wlayer_of (nth (S i) ls dl)) (amps dl w ls i));
        [|apply nth_layer; lia|apply nth_layer; lia|apply IH; lia].
      rewrite step_carry by (try exact W0; apply HC; lia). reflexivity. }
  destruct ls as [|l0 ls'] eqn:El; [contradiction|]. rewrite <- El in *.
  exists (rows w (map wlayer_of ls) (waves_from w (map wlayer_of ls) (c_one, c_one))). split.
  - unfold calc_waves_python. rewrite isclose_zero_false by exact Hw. rewrite El. reflexivity.
  - intros i Hi. rewrite rows_nth, (nth_layer dl) by exact Hi. rewrite (HA i Hi). do 2 f_equal.
    rewrite wave_num_some by (apply HC; exact Hi). reflexivity.
Qed.

Lemma motion_of_row dl w ls i z f :
  wave_at (mkRow (Some (num dl w ls i)) (fst (amps dl w ls i)) (snd (amps dl w ls i))) z f = Some (motion_at dl w ls i z f).
Proof. unfold wave_at, motion_at. cbn [r_k r_a r_b]. f_equal. Qed.

Section Limits.
Context {T : Type} (F : (T -> Prop) -> Prop) {FF : Filter F}.

Definition rlim (f : T -> R) (l : R) : Prop := filterlim f F (locally l).
Lemma rl_const c : rlim (fun _ => c) c. Proof. apply filterlim_const. Qed.
Lemma rl_comp h f l : rlim f l -> continuity_pt h l -> rlim (fun t => h (f t)) (h l).
Proof. intros H1 H2. apply filterlim_comp with (1 := H1). now apply continuity_pt_filterlim. Qed.
Lemma rl_plus f g a b : rlim f a -> rlim g b -> rlim (fun t => f t + g t) (a + b).
Proof. intros H1 H2. exact (filterlim_comp_2 f g Rplus H1 H2 (@filterlim_plus _ R_NormedModule a b)). Qed.
Lemma rl_opp f a : rlim f a -> rlim (fun t => - f t) (- a).
Proof. intros H. apply (rl_comp Ropp f a H). apply continuity_pt_opp, derivable_continuous_pt, derivable_pt_id. Qed.
Lemma rl_minus f g a b : rlim f a -> rlim g b -> rlim (fun t => f t - g t) (a - b).
Proof. intros H1 H2. apply rl_plus; [exact H1|now apply rl_opp]. Qed.
Lemma rl_mult f g a b : rlim f a -> rlim g b -> rlim (fun t => f t * g t) (a * b).
Proof. intros H1 H2. exact (filterlim_comp_2 f g Rmult H1 H2 (@filterlim_mult R_AbsRing a b)). Qed.
Lemma rl_inv f a : a <> 0 -> rlim f a -> rlim (fun t => / f t) (/ a).
Proof. intros Ha H. apply (rl_comp Rinv f a H). apply continuity_pt_inv; [apply derivable_continuous_pt, derivable_pt_id|exact Ha]. Qed.
Lemma rl_div f g a b : b <> 0 -> rlim f a -> rlim g b -> rlim (fun t => f t / g t) (a / b).
Proof. intros Hb H1 H2. apply rl_mult; [exact H1|now apply rl_inv]. Qed.
Lemma rl_abs f a : rlim f a -> rlim (fun t => Rabs (f t)) (Rabs a).
Proof. intros H. apply (rl_comp Rabs f a H). apply Rcontinuity_abs. Qed.
Lemma rl_ext f g a : (forall t, f t = g t) -> rlim f a -> rlim g a.
Proof. intros E H. exact (filterlim_ext f g E H). Qed.
Lemma rl_max f a c : rlim f a -> rlim (fun t => Rmax (f t) c) (Rmax a c).
Proof.
  intros H. assert (E : forall x, Rmax x c = (x + c + Rabs (x - c)) * / 2).
  { intros x. unfold Rmax, Rabs. destruct (Rle_dec x c), (Rcase_abs (x - c)); lra. }
  rewrite E. apply rl_ext with (fun t => (f t + c + Rabs (f t - c)) * / 2); [intros t; now rewrite E|].
  repeat first [apply rl_mult|apply rl_plus|apply rl_abs|apply rl_minus|apply rl_const|exact H].
Qed.
Lemma rl_min f a c : rlim f a -> rlim (fun t => Rmin (f t) c) (Rmin a c).
Proof.
  intros H. assert (E : forall x, Rmin x c = - Rmax (- x) (- c)).
  { intros x. unfold Rmax, Rmin. destruct (Rle_dec x c), (Rle_dec (- x) (- c)); lra. }
  rewrite E. apply rl_ext with (fun t => - Rmax (- f t) (- c)); [intros t; now rewrite E|].
  apply rl_opp, rl_max, rl_opp, H.
Qed.
Lemma rl_sqrt f a : rlim f a -> rlim (fun t => sqrt (f t)) (sqrt a).
Proof. intros H. apply filterlim_comp with (1 := H). apply continuous_sqrt. Qed.
Lemma rl_pow f a n : rlim f a -> rlim (fun t => f t ^ n) (a ^ n).
Proof. intros H. induction n as [|n IH]; cbn [pow]; [apply rl_const|now apply rl_mult]. Qed.
Lemma rl_pos f a : 0 < a -> rlim f a -> F (fun t => 0 < f t).
Proof. intros Ha H. apply H. apply open_gt. exact Ha. Qed.
Lemma rl_above f a c : c < a -> rlim f a -> F (fun t => c < f t).
Proof. intros Ha H. apply H. apply open_gt. exact Ha. Qed.
Lemma rl_eps f a eps : 0 < eps -> rlim f a -> F (fun t => Rabs (f t - a) < eps).
Proof. intros He H. apply (H (fun y => Rabs (y - a) < eps)). exists (mkposreal eps He). intros y Hy. exact Hy. Qed.

(** Complex families, by components. *)
Definition clim (g : T -> C) (z : C) : Prop := rlim (fun t => Re (g t)) (Re z) /\ rlim (fun t => Im (g t)) (Im z).
Lemma cl_const z : clim (fun _ => z) z. Proof. split; apply rl_const. Qed.
Lemma cl_real f a : rlim f a -> clim (fun t => RtoC (f t)) (RtoC a). Proof. intros H. split; [exact H|apply rl_const]. Qed.
Lemma cl_pair f g a b : rlim f a -> rlim g b -> clim (fun t => (f t, g t)) (a, b). Proof. now split. Qed.
Lemma cl_plus f g x y : clim f x -> clim g y -> clim (fun t => Cplus (f t) (g t)) (Cplus x y).
Proof. intros [A B] [D E]. split; cbn; now apply rl_plus. Qed.
Lemma cl_opp f x : clim f x -> clim (fun t => Copp (f t)) (Copp x).
Proof. intros [A B]. split; cbn; now apply rl_opp. Qed.
Lemma cl_minus f g x y : clim f x -> clim g y -> clim (fun t => Cminus (f t) (g t)) (Cminus x y).
Proof. intros A B. apply cl_plus; [exact A|now apply cl_opp]. Qed.
Lemma cl_mult f g x y : clim f x -> clim g y -> clim (fun t => Cmult (f t) (g t)) (Cmult x y).
Proof. intros [A B] [D E]. split; cbn; [apply rl_minus|apply rl_plus]; now apply rl_mult. Qed.
Lemma cl_inv f x : x <> RtoC 0 -> clim f x -> clim (fun t => Cinv (f t)) (Cinv x).
Proof.
  intros Hx [A B]. assert (N : Re x ^ 2 + Im x ^ 2 <> 0).
  { intros E. apply Hx. destruct x as [p q]. cbn [Re Im fst snd] in E. unfold RtoC. f_equal; nra. }
  split; unfold Cinv; cbn [Re Im fst snd]; apply rl_div; try exact N;
    repeat first [apply rl_plus|apply rl_pow|apply rl_opp|exact A|exact B].
Qed.
Lemma cl_div f g x y : y <> RtoC 0 -> clim f x -> clim g y -> clim (fun t => Cdiv (f t) (g t)) (Cdiv x y).
Proof. intros H A B. apply cl_mult; [exact A|now apply cl_inv]. Qed.
Lemma cl_exp f x : clim f x -> clim (fun t => Cexp (f t)) (Cexp x).
Proof.
  intros [A B].
  assert (E : rlim (fun t => exp (Re (f t))) (exp (Re x))) by (apply (rl_comp exp _ _ A), derivable_continuous_pt, derivable_pt_exp).
  split; unfold Cexp; cbn [Re Im fst snd]; apply rl_mult; try exact E.
  - apply (rl_comp cos _ _ B), continuity_cos.
  - apply (rl_comp sin _ _ B), continuity_sin.
Qed.
Lemma cl_nonzero f x : x <> RtoC 0 -> clim f x -> F (fun t => f t <> RtoC 0).
Proof.
  intros Hx [A B]. destruct (Req_dec (Re x) 0) as [Z|Z].
  - assert (Im x <> 0) by (intros Z2; apply Hx; destruct x as [p q]; cbn in Z, Z2; subst; reflexivity).
    apply filter_imp with (fun t => 0 < Rabs (Im (f t))); [|apply rl_pos with (Rabs (Im x)); [now apply Rabs_pos_lt|now apply rl_abs]].
    intros t H0 E. rewrite E in H0. cbn in H0. rewrite Rabs_R0 in H0. lra.
  - apply filter_imp with (fun t => 0 < Rabs (Re (f t))); [|apply rl_pos with (Rabs (Re x)); [now apply Rabs_pos_lt|now apply rl_abs]].
    intros t H0 E. rewrite E in H0. cbn in H0. rewrite Rabs_R0 in H0. lra.
Qed.
Lemma cl_ext f g x : F (fun t => f t = g t) -> clim f x -> clim g x.
Proof.
  intros E [A B]. split; [apply filterlim_ext_loc with (2 := A)|apply filterlim_ext_loc with (2 := B)];
    (apply filter_imp with (2 := E)); intros t ->; reflexivity.
Qed.
Lemma Csqrt_form z : 0 < Re z -> let r := sqrt ((Cmod z + Re z) / 2) in 0 < r /\ Csqrt z = (r, Im z / (2 * r)).
Proof.
  intros H r. pose proof (Cmod_Re_le z) as HR. rewrite Rabs_pos_eq in HR by lra.
  assert (Hr : 0 < r) by (apply sqrt_lt_R0; lra). split; [exact Hr|]. unfold Csqrt. fold r. f_equal.
  assert (Q : sqrt ((Cmod z - Re z) / 2) = Rabs (Im z) / (2 * r)).
  { apply Rmult_eq_reg_l with (2 * r); [|lra]. replace (2 * r * (Rabs (Im z) / (2 * r))) with (Rabs (Im z)) by (field; lra).
    unfold r. rewrite Rmult_assoc, <- sqrt_mult by lra.
    replace ((Cmod z + Re z) / 2 * ((Cmod z - Re z) / 2)) with ((Cmod z ^ 2 - Re z ^ 2) / 4) by field.
    assert (M : Cmod z ^ 2 = Re z ^ 2 + Im z ^ 2).
    { pose proof (Cmod_sqr z) as Q. cbn [pow] in Q |- *. lra. }
    rewrite M. replace ((Re z ^ 2 + Im z ^ 2 - Re z ^ 2) / 4) with ((Rabs (Im z) / 2) ^ 2).
    - rewrite sqrt_pow2 by (pose proof (Rabs_pos (Im z)); lra). lra.
    - replace (Im z ^ 2) with (Rabs (Im z) ^ 2) by apply pow2_abs. field. }
  rewrite Q. unfold Rltb. destruct (Rlt_dec (Im z) 0).
  - rewrite Rabs_left by assumption. field. lra.
  - rewrite Rabs_pos_eq by lra. reflexivity.
Qed.
Lemma cl_sqrt f x : 0 < Re x -> clim f x -> clim (fun t => Csqrt (f t)) (Csqrt x).
Proof.
  intros H [A B]. destruct (Csqrt_form x H) as [P E]. rewrite E.
  assert (M : rlim (fun t => Cmod (f t)) (Cmod x)).
  { unfold Cmod. apply rl_sqrt. apply rl_plus; apply rl_pow; [exact A|exact B]. }
  assert (L : rlim (fun t => sqrt ((Cmod (f t) + Re (f t)) / 2)) (sqrt ((Cmod x + Re x) / 2))).
  { apply rl_sqrt. apply rl_div; [lra| |apply rl_const]. now apply rl_plus. }
  apply cl_ext with (fun t => (sqrt ((Cmod (f t) + Re (f t)) / 2), Im (f t) / (2 * sqrt ((Cmod (f t) + Re (f t)) / 2)))).
  - apply filter_imp with (2 := rl_pos _ _ H A). intros t Ht. destruct (Csqrt_form (f t) Ht) as [_ ->]. reflexivity.
  - apply cl_pair; [exact L|]. apply rl_div; [lra|exact B|]. apply rl_mult; [apply rl_const|exact L].
Qed.
Lemma cl_eps f x eps : 0 < eps -> clim f x -> F (fun t => Cmod (Cminus (f t) x) < eps).
Proof.
  intros He [A B]. apply filter_imp with (fun t => Rabs (Re (f t) - Re x) < eps / 2 /\ Rabs (Im (f t) - Im x) < eps / 2).
  - intros t [H1 H2]. apply Rle_lt_trans with (Rabs (Re (f t) - Re x) + Rabs (Im (f t) - Im x)); [|lra].
    replace (Cminus (f t) x) with (Cplus (RtoC (Re (f t) - Re x)) (Cmult Ci (RtoC (Im (f t) - Im x)))).
    + eapply Rle_trans; [apply Cmod_triangle|]. rewrite Cmod_mult, !Cmod_R. unfold Ci. unfold Cmod at 1. cbn [fst snd].
      replace (0 ^ 2 + 1 ^ 2) with 1 by ring. rewrite sqrt_1. lra.
    + destruct (f t) as [p q], x as [p' q']. unfold Cminus, Cplus, Cmult, Copp, Ci, RtoC; cbn [fst snd Re Im]. f_equal; ring.
  - apply filter_and; (apply rl_eps; [lra|assumption]).
Qed.

(** Layers: velocity and modulus. *)
Variable (w : T -> R) (w0 : R) (site : T -> list layer) (ls : list layer).
Hypothesis (Hw : rlim w w0) (Hw0 : 1e-8 < Rabs w0) (HS : List.Forall sound ls).
Hypothesis HL : F (fun t => length (site t) = length ls).
Variable dl : layer.
Hypothesis HF : forall i l, nth_error ls i = Some l ->
  rlim (fun t => shear_mod (nth i (site t) dl)) (shear_mod l) /\ rlim (fun t => damping (nth i (site t) dl)) (damping l) /\
  rlim (fun t => s_unit_wt (l_soil (nth i (site t) dl))) (s_unit_wt (l_soil l)) /\ rlim (fun t => l_thick (nth i (site t) dl)) (l_thick l).

Lemma sound_at i l : nth_error ls i = Some l -> sound l.
Proof. intros H. rewrite Forall_forall in HS. apply HS. now apply nth_error_In with i. Qed.
Lemma mod_lim i l : nth_error ls i = Some l -> clim (fun t => comp_shear_mod (nth i (site t) dl)) (comp_shear_mod l).
Proof.
  intros H. destruct (HF i l H) as (A & B & _). unfold comp_shear_mod, comp_shear_mod_of, COMP_MODULUS_MODEL, comp_factor.
  apply cl_mult; [now apply cl_real|]. assert (D : rlim (fun t => clip (damping (nth i (site t) dl)) 0 0.49) (clip (damping l) 0 0.49)).
  { unfold clip. apply rl_min. now apply rl_max. }
  apply cl_pair.
  - apply rl_sqrt. apply rl_minus; [now apply rl_const|]. apply rl_mult; [now apply rl_const|]. now apply rl_pow.
  - apply rl_mult; [now apply rl_const|exact D].
Qed.
Lemma vel_lim i l : nth_error ls i = Some l -> clim (fun t => comp_shear_vel (nth i (site t) dl)) (comp_shear_vel l).
Proof.
  intros H. pose proof (sound_at i l H) as (HG & Hu & _). destruct (HF i l H) as (_ & _ & U & _). unfold comp_shear_vel.
  pose proof (density_pos l Hu) as Hd. apply cl_sqrt; [| ].
  - pose proof (factor_pos (damping l)) as P.
    rewrite vel_arg by assumption. unfold Re; cbn [fst]. apply Rdiv_lt_0_compat; [|exact Hd]. now apply Rmult_lt_0_compat.
  - apply cl_div; [apply RtoC_neq_0; lra|now apply mod_lim|]. apply cl_real. unfold density.
    apply rl_div; [unfold GRAVITY; lra|exact U|now apply rl_const].
Qed.
Lemma carries_at i l : nth_error ls i = Some l -> carries (wlayer_of l).
Proof. intros H. now apply phys_carries, sound_phys, sound_at with i. Qed.
Lemma carried_near n : (n <= length ls)%nat -> F (fun t => carried dl (site t) n).
Proof.
  induction n as [|n IH]; intros Hn.
  - apply filter_imp with (2 := filter_true). intros t _ i Hi. lia.
  - destruct (nth_error ls n) as [l|] eqn:El; [|apply nth_error_None in El; lia].
    destruct (carries_at n l El) as [N1 N2]. cbn [wlayer_of wl_vel wl_mod] in N1, N2.
    apply filter_imp with (fun t => carried dl (site t) n /\ comp_shear_vel (nth n (site t) dl) <> RtoC 0 /\ comp_shear_mod (nth n (site t) dl) <> RtoC 0).
    + intros t (A & B & D) i Hi. destruct (Nat.eq_dec i n) as [->|Q]; [now split|]. apply A. lia.
    + apply filter_and; [apply IH; lia|]. apply filter_and; [apply cl_nonzero with (1 := N1); now apply vel_lim|apply cl_nonzero with (1 := N2); now apply mod_lim].
Qed.

Lemma nth_is i : (i < length ls)%nat -> nth_error ls i = Some (nth i ls dl).
Proof. intros H. now apply nth_error_nth'. Qed.
Lemma num_lim i : (i < length ls)%nat -> clim (fun t => num dl (w t) (site t) i) (num dl w0 ls i).
Proof.
  intros Hi. pose proof (nth_is i Hi) as El. destruct (carries_at i _ El) as [N1 _]. unfold num.
  apply cl_div; [exact N1|now apply cl_real|now apply vel_lim].
Qed.
Lemma imp_lim i : (i < length ls)%nat -> clim (fun t => imp dl (w t) (site t) i) (imp dl w0 ls i).
Proof. intros Hi. apply cl_mult; [now apply num_lim|apply mod_lim; now apply nth_is]. Qed.
Lemma imp_nonzero i : (i < length ls)%nat -> imp dl w0 ls i <> RtoC 0.
Proof.
  intros Hi. pose proof (nth_is i Hi) as El. destruct (carries_at i _ El) as [N1 N2]. apply Cmult_neq_0; [|exact N2].
  apply Cdiv_neq_0; [|exact N1]. apply RtoC_neq_0. intros Z. rewrite Z, Rabs_R0 in Hw0. lra.
Qed.
Lemma cterm_lim k k0 z z0 : clim k k0 -> rlim z z0 -> clim (fun t => cterm (k t) (z t)) (cterm k0 z0).
Proof. intros A B. apply cl_mult; [apply cl_mult; [apply cl_const|exact A]|now apply cl_real]. Qed.
Lemma amps_lim i : (i < length ls)%nat ->
  clim (fun t => fst (amps dl (w t) (site t) i)) (fst (amps dl w0 ls i)) /\ clim (fun t => snd (amps dl (w t) (site t) i)) (snd (amps dl w0 ls i)).
Proof.
  induction i as [|i IH]; intros Hi; [split; apply cl_const|]. destruct IH as [A B]; [lia|].
  assert (X : clim (fun t => Cdiv (imp dl (w t) (site t) i) (imp dl (w t) (site t) (S i))) (Cdiv (imp dl w0 ls i) (imp dl w0 ls (S i))))
    by (apply cl_div; [now apply imp_nonzero|apply imp_lim; lia|now apply imp_lim]).
  assert (Y : clim (fun t => cterm (num dl (w t) (site t) i) (l_thick (nth i (site t) dl))) (cterm (num dl w0 ls i) (l_thick (nth i ls dl)))).
  { apply cterm_lim; [apply num_lim; lia|]. apply (HF i). apply nth_is. lia. }
  assert (Z := cl_exp _ _ Y). assert (Z' := cl_exp _ _ (cl_opp _ _ Y)).
  cbn [amps]. unfold transmit. cbn [fst snd].
  split; (apply cl_plus; (apply cl_mult; [apply cl_mult; [apply cl_mult; [apply cl_const|assumption]|]|assumption]));
    repeat first [apply cl_const|exact X|apply cl_opp|apply cl_plus].
Qed.
Lemma motion_lim i z z0 f : (i < length ls)%nat -> rlim z z0 ->
  clim (fun t => motion_at dl (w t) (site t) i (z t) f) (motion_at dl w0 ls i z0 f).
Proof.
  intros Hi Hz. destruct (amps_lim i Hi) as [A B]. pose proof (cterm_lim _ _ _ _ (num_lim i Hi) Hz) as Y.
  assert (Z := cl_exp _ _ Y). assert (Z' := cl_exp _ _ (cl_opp _ _ Y)). unfold motion_at. destruct f.
  - apply cl_mult; [apply cl_mult; [apply cl_const|exact A]|exact Z].
  - apply cl_plus; now apply cl_mult.
  - now apply cl_mult.
Qed.

(** Acceleration and strain between two locations. *)
Lemma tf_lim i1 i2 z1 z2 u1 u2 f1 f2 rs : ls <> [] -> (i1 < length ls)%nat -> (i2 < length ls)%nat -> rlim z1 u1 -> rlim z2 u2 ->
  calc_waves_python w0 (map wlayer_of ls) = Ok rs -> wave_at_location rs (mkLoc i1 u1 f1) <> Ok (Some (RtoC 0)) ->
  exists tf, calc_accel_tf rs (mkLoc i1 u1 f1) (mkLoc i2 u2 f2) = Ok (Some tf) /\
  (forall eps, 0 < eps -> F (fun t => exists rs' tf', calc_waves_python (w t) (map wlayer_of (site t)) = Ok rs' /\
     calc_accel_tf rs' (mkLoc i1 (z1 t) f1) (mkLoc i2 (z2 t) f2) = Ok (Some tf') /\ Cmod (Cminus tf' tf) < eps)) /\
  exists st, calc_strain_tf rs w0 (mkLoc i1 u1 f1) (mkLoc i2 u2 Within) = Ok (Some st) /\
  forall eps, 0 < eps -> F (fun t => exists rs' st', calc_waves_python (w t) (map wlayer_of (site t)) = Ok rs' /\
     calc_strain_tf rs' (w t) (mkLoc i1 (z1 t) f1) (mkLoc i2 (z2 t) Within) = Ok (Some st') /\ Cmod (Cminus st' st) < eps).
Proof.
  intros Hne Hi1 Hi2 Hz1 Hz2 Hrs Hnz.
  assert (HC0 : carried dl ls (length ls)) by (intros i Hi; apply (carries_at i); now apply nth_is).
  destruct (rows_amps dl w0 ls Hw0 Hne HC0) as (rs0 & E0 & N0). rewrite Hrs in E0. apply Ok_inj in E0. subst rs0.
  assert (V : forall rs' w' ls' i z f, nth_error rs' i = Some (mkRow (Some (num dl w' ls' i)) (fst (amps dl w' ls' i)) (snd (amps dl w' ls' i))) ->
     wave_at_location rs' (mkLoc i z f) = Ok (Some (motion_at dl w' ls' i z f))).
  { intros rs' w' ls' i z f H. unfold wave_at_location. cbn [loc_index loc_within loc_field]. rewrite H. now rewrite motion_of_row. }
  assert (X0 : motion_at dl w0 ls i1 u1 f1 <> RtoC 0).
  { intros Z. apply Hnz. rewrite (V rs w0 ls i1 u1 f1 (N0 i1 Hi1)), Z. reflexivity. }
  pose proof (motion_lim i1 z1 u1 f1 Hi1 Hz1) as M1. pose proof (motion_lim i2 z2 u2 f2 Hi2 Hz2) as M2.
  assert (AC : forall rs' w' ls' a1 a2,
     nth_error rs' i1 = Some (mkRow (Some (num dl w' ls' i1)) (fst (amps dl w' ls' i1)) (snd (amps dl w' ls' i1))) ->
     nth_error rs' i2 = Some (mkRow (Some (num dl w' ls' i2)) (fst (amps dl w' ls' i2)) (snd (amps dl w' ls' i2))) ->
     motion_at dl w' ls' i1 a1 f1 <> RtoC 0 ->
     calc_accel_tf rs' (mkLoc i1 a1 f1) (mkLoc i2 a2 f2) = Ok (Some (Cdiv (motion_at dl w' ls' i2 a2 f2) (motion_at dl w' ls' i1 a1 f1)))).
  { intros rs' w' ls' a1 a2 R1 R2 Q. unfold calc_accel_tf. rewrite (V _ _ _ _ _ _ R1), (V _ _ _ _ _ _ R2). cbn [bind].
    now rewrite cdivx_some. }
  set (sn := fun w' ls' a2 => Cmult (RtoC GRAVITY) (strain_numer (num dl w' ls' i2) (fst (amps dl w' ls' i2)) (snd (amps dl w' ls' i2)) a2)).
  set (sd := fun w' ls' a1 => Cmult (RtoC (- w' ^ 2)) (motion_at dl w' ls' i1 a1 f1)).
  assert (ST : forall rs' w' ls' a1 a2, 1e-8 < Rabs w' ->
     nth_error rs' i1 = Some (mkRow (Some (num dl w' ls' i1)) (fst (amps dl w' ls' i1)) (snd (amps dl w' ls' i1))) ->
     nth_error rs' i2 = Some (mkRow (Some (num dl w' ls' i2)) (fst (amps dl w' ls' i2)) (snd (amps dl w' ls' i2))) ->
     motion_at dl w' ls' i1 a1 f1 <> RtoC 0 ->
     calc_strain_tf rs' w' (mkLoc i1 a1 f1) (mkLoc i2 a2 Within) = Ok (Some (Cdiv (sn w' ls' a2) (sd w' ls' a1)))).
  { intros rs' w' ls' a1 a2 Hw' R1 R2 Q. unfold calc_strain_tf. cbn [loc_index loc_within loc_field]. rewrite R1, R2.
    unfold strain_tf_python. rewrite isclose_zero_false by exact Hw'. cbn [r_k r_a r_b]. rewrite motion_of_row.
    rewrite cdivx_some; [reflexivity|]. apply Cmult_neq_0; [|exact Q]. apply RtoC_neq_0.
    assert (w' <> 0) by (intros ->; rewrite Rabs_R0 in Hw'; lra). assert (0 < w' ^ 2) by (apply sqr_pos; assumption). lra. }
  assert (HE : F (fun t => (1e-8 < Rabs (w t) /\ motion_at dl (w t) (site t) i1 (z1 t) f1 <> RtoC 0) /\
     length (site t) = length ls /\ carried dl (site t) (length ls))).
  { apply filter_and; [apply filter_and|apply filter_and; [exact HL|now apply carried_near]].
    - apply rl_above with (Rabs w0); [exact Hw0|now apply rl_abs].
    - now apply cl_nonzero with (1 := X0). }
  exists (Cdiv (motion_at dl w0 ls i2 u2 f2) (motion_at dl w0 ls i1 u1 f1)). split; [apply AC; auto|]. split.
  - intros eps He. pose proof (cl_eps _ _ eps He (cl_div _ _ _ _ X0 M2 M1)) as L.
    apply filter_imp with (2 := filter_and _ _ HE L). intros t (((H1 & H2) & H3 & H4) & H5).
    assert (Hn : site t <> []) by (intros Z; rewrite Z in H3; destruct ls; [contradiction|discriminate]).
    rewrite <- H3 in H4. destruct (rows_amps dl (w t) (site t) H1 Hn H4) as (rs' & E' & N').
    exists rs', (Cdiv (motion_at dl (w t) (site t) i2 (z2 t) f2) (motion_at dl (w t) (site t) i1 (z1 t) f1)).
    split; [exact E'|]. split; [|exact H5]. apply AC; [apply N'; lia|apply N'; lia|exact H2].
  - exists (Cdiv (sn w0 ls u2) (sd w0 ls u1)). split; [apply ST; auto|]. intros eps He.
    assert (W0 : w0 <> 0) by (intros ->; rewrite Rabs_R0 in Hw0; lra). assert (0 < w0 ^ 2) by (apply sqr_pos; assumption).
    assert (SD0 : sd w0 ls u1 <> RtoC 0) by (apply Cmult_neq_0; [apply RtoC_neq_0; lra|exact X0]).
    assert (L1 : clim (fun t => sd (w t) (site t) (z1 t)) (sd w0 ls u1)).
    { unfold sd. apply cl_mult; [|exact M1]. apply cl_real. apply rl_opp. now apply rl_pow. }
    assert (L2 : clim (fun t => sn (w t) (site t) (z2 t)) (sn w0 ls u2)).
    { unfold sn. apply cl_mult; [apply cl_const|]. destruct (amps_lim i2 Hi2) as [A B].
      pose proof (cterm_lim _ _ _ _ (num_lim i2 Hi2) Hz2) as Y. assert (Z := cl_exp _ _ Y). assert (Z' := cl_exp _ _ (cl_opp _ _ Y)).
      unfold strain_numer. apply cl_mult; [apply cl_mult; [apply cl_const|now apply num_lim]|]. apply cl_minus; now apply cl_mult. }
    pose proof (cl_eps _ _ eps He (cl_div _ _ _ _ SD0 L2 L1)) as L.
    apply filter_imp with (2 := filter_and _ _ HE L). intros t (((H1 & H2) & H3 & H4) & H5).
    assert (Hn : site t <> []) by (intros Z; rewrite Z in H3; destruct ls; [contradiction|discriminate]).
    rewrite <- H3 in H4. destruct (rows_amps dl (w t) (site t) H1 Hn H4) as (rs' & E' & N').
    exists rs', (Cdiv (sn (w t) (site t) (z2 t)) (sd (w t) (site t) (z1 t))).
    split; [exact E'|]. split; [|exact H5]. apply ST; [exact H1|apply N'; lia|apply N'; lia|exact H2].
Qed.
End Limits.

(** Setups near a given one. *)
Record setup := mkSetup { su_freq : R; su_layers : list layer; su_in : R; su_out : R }.
Definition near_setup (rel : R -> layer -> layer -> Prop) (d : R) (s t : setup) : Prop :=
  Rabs (su_freq s - su_freq t) < d /\ Forall2 (rel d) (su_layers s) (su_layers t) /\
  Rabs (su_in s - su_in t) < d /\ Rabs (su_out s - su_out t) < d.
Definition around (rel : R -> layer -> layer -> Prop) (s0 : setup) (P : setup -> Prop) : Prop :=
  exists d, 0 < d /\ forall s, near_setup rel d s s0 -> P s.
Lemma around_filter (rel : R -> layer -> layer -> Prop) s0 : (forall d d' a b, d <= d' -> rel d a b -> rel d' a b) -> Filter (around rel s0).
Proof.
  intros HM. constructor.
  - exists 1. split; [lra|]. auto.
  - intros P Q (d & Hd & HP) (e & He & HQ). exists (Rmin d e). split; [now apply Rmin_glb_lt|].
    assert (Mono : forall x y s, x <= y -> near_setup rel x s s0 -> near_setup rel y s s0).
    { intros x y s Hxy (A & B & C0 & D). split; [lra|]. split; [|split; lra]. clear -B HM Hxy.
      induction B as [|a b la lb R1 _ IH]; constructor; [now apply HM with x|exact IH]. }
    intros s Hs. split; [apply HP|apply HQ]; (apply Mono with (Rmin d e); [|exact Hs]); [apply Rmin_l|apply Rmin_r].
  - intros P Q H (d & Hd & HP). exists d. split; [exact Hd|]. auto.
Qed.
Lemma near_mono d d' a b : d <= d' -> near_layer d a b -> near_layer d' a b.
Proof. intros H (A & B & C0 & D). repeat split; lra. Qed.
Lemma described_mono d d' a b : d <= d' -> near_description d a b -> near_description d' a b.
Proof. intros H (A & B & C0 & D). repeat split; lra. Qed.

Lemma around_lim rel s0 (g : setup -> R) l : (forall d s, 0 < d -> near_setup rel d s s0 -> Rabs (g s - l) < d) -> rlim (around rel s0) g l.
Proof.
  intros H P [e He]. exists (pos e). split; [apply cond_pos|]. intros s Hs. apply He. exact (H e s (cond_pos e) Hs).
Qed.
Lemma Forall2_nth_rel {A} (R0 : A -> A -> Prop) la lb i b (d : A) : Forall2 R0 la lb -> nth_error lb i = Some b -> R0 (nth i la d) b.
Proof.
  intros H. revert i. induction H as [|x y la lb H _ IH]; intros [|i] E; try discriminate; cbn in E |- *; [injection E as <-; exact H|now apply IH].
Qed.

Theorem tf_continuous w ls rs i1 u1 f1 i2 u2 f2 : 1e-8 < Rabs w -> List.Forall sound ls ->
  calc_waves_python w (map wlayer_of ls) = Ok rs -> (i1 < length ls)%nat -> (i2 < length ls)%nat ->
  wave_at_location rs (mkLoc i1 u1 f1) <> Ok (Some (RtoC 0)) ->
  exists tf st, calc_accel_tf rs (mkLoc i1 u1 f1) (mkLoc i2 u2 f2) = Ok (Some tf) /\
    calc_strain_tf rs w (mkLoc i1 u1 f1) (mkLoc i2 u2 Within) = Ok (Some st) /\
  forall eps, 0 < eps -> exists d, 0 < d /\ forall w' ls' u1' u2', Rabs (w' - w) < d -> Forall2 (near_layer d) ls' ls ->
    Rabs (u1' - u1) < d -> Rabs (u2' - u2) < d ->
    exists rs' tf' st', calc_waves_python w' (map wlayer_of ls') = Ok rs' /\
      calc_accel_tf rs' (mkLoc i1 u1' f1) (mkLoc i2 u2' f2) = Ok (Some tf') /\ Cmod (Cminus tf' tf) < eps /\
      calc_strain_tf rs' w' (mkLoc i1 u1' f1) (mkLoc i2 u2' Within) = Ok (Some st') /\ Cmod (Cminus st' st) < eps.
Proof.
  intros Hw HS Hrs Hi1 Hi2 Hnz.
  destruct ls as [|l0 ls0] eqn:El; [cbn in Hi1; lia|]. rewrite <- El in *.
  set (s0 := mkSetup w ls u1 u2). set (F := around near_layer s0).
  assert (FF : Filter F) by (apply around_filter, near_mono).
  assert (Hne : ls <> []) by (rewrite El; discriminate).
  destruct (tf_lim F su_freq w su_layers ls) with (dl := l0) (i1 := i1) (i2 := i2) (z1 := su_in) (z2 := su_out) (u1 := u1) (u2 := u2) (f1 := f1) (f2 := f2) (rs := rs)
    as (tf & E1 & L1 & st & E2 & L2); auto.
  - apply around_lim. intros d s Hd Hs. apply Hs.
  - exists 1. split; [lra|]. intros s (_ & Q & _). apply Forall2_len in Q. exact Q.
  - intros i l Hl. split; [|split; [|split]]; apply around_lim; intros d s Hd (_ & Q & _);
      pose proof (Forall2_nth_rel _ _ _ i l l0 Q Hl) as N; apply N.
  - apply around_lim. intros d s Hd Hs. apply Hs.
  - apply around_lim. intros d s Hd Hs. apply Hs.
  - exists tf, st. split; [exact E1|]. split; [exact E2|]. intros eps He.
    destruct (filter_and _ _ (L1 eps He) (L2 eps He)) as (d & Hd & H). exists d. split; [exact Hd|]. intros w' ls' u1' u2' A B C0 D.
    destruct (H (mkSetup w' ls' u1' u2')) as [(r1 & t' & X1 & X2 & X3) (r2 & s' & Y1 & Y2 & Y3)]; [now repeat split|].
    cbn [su_freq su_layers su_in su_out] in *. rewrite X1 in Y1. apply Ok_inj in Y1. subst r2.
    exists r1, t', s'. now repeat split.
Qed.

Lemma nth_reset (l0 : layer) ls i : nth i (map layer_reset ls) (layer_reset l0) = layer_reset (nth i ls l0).
Proof. apply map_nth. Qed.

Theorem linear_continuous w ls rs i1 u1 f1 i2 u2 f2 : 1e-8 < Rabs w ->
  List.Forall (fun l => 0 < l_vs l /\ 0 < s_unit_wt (l_soil l) /\ 0 <= l_thick l) ls ->
  linear_elastic true w ls = Ok rs -> (i1 < length ls)%nat -> (i2 < length ls)%nat ->
  wave_at_location rs (mkLoc i1 u1 f1) <> Ok (Some (RtoC 0)) ->
  exists tf st, calc_accel_tf rs (mkLoc i1 u1 f1) (mkLoc i2 u2 f2) = Ok (Some tf) /\
    calc_strain_tf rs w (mkLoc i1 u1 f1) (mkLoc i2 u2 Within) = Ok (Some st) /\
  forall eps, 0 < eps -> exists d, 0 < d /\ forall w' ls' u1' u2', Rabs (w' - w) < d -> Forall2 (near_description d) ls' ls ->
    Rabs (u1' - u1) < d -> Rabs (u2' - u2) < d ->
    exists rs' tf' st', linear_elastic true w' ls' = Ok rs' /\
      calc_accel_tf rs' (mkLoc i1 u1' f1) (mkLoc i2 u2' f2) = Ok (Some tf') /\ Cmod (Cminus tf' tf) < eps /\
      calc_strain_tf rs' w' (mkLoc i1 u1' f1) (mkLoc i2 u2' Within) = Ok (Some st') /\ Cmod (Cminus st' st) < eps.
Proof.
  intros Hw HP Hrs Hi1 Hi2 Hnz.
  destruct ls as [|l0 ls0] eqn:El; [cbn in Hi1; lia|]. rewrite <- El in *.
  set (s0 := mkSetup w ls u1 u2). set (F := around near_description s0).
  assert (FF : Filter F) by (apply around_filter, described_mono).
  assert (Hne : map layer_reset ls <> []) by (rewrite El; discriminate).
  assert (HS : List.Forall sound (map layer_reset ls)).
  { apply Forall_map. apply List.Forall_impl with (2 := HP). intros l (A & B & C0). split; [|now split].
    change (shear_mod (layer_reset l)) with (initial_shear_mod l). unfold initial_shear_mod, density, GRAVITY.
    apply Rmult_lt_0_compat; [apply Rdiv_lt_0_compat; lra|apply pow_lt; lra]. }
  unfold linear_elastic in *.
  destruct (tf_lim F su_freq w (fun s => map layer_reset (su_layers s)) (map layer_reset ls)) with (dl := layer_reset l0) (i1 := i1) (i2 := i2) (z1 := su_in) (z2 := su_out) (u1 := u1) (u2 := u2) (f1 := f1) (f2 := f2) (rs := rs)
    as (tf & E1 & L1 & st & E2 & L2); auto; try (rewrite map_length; assumption).
  - apply around_lim. intros d s Hd Hs. apply Hs.
  - exists 1. split; [lra|]. intros s (_ & Q & _). apply Forall2_len in Q. now rewrite !map_length.
  - intros i l Hl. rewrite nth_error_map in Hl. destruct (nth_error ls i) as [l1|] eqn:Hl1; [|discriminate]. cbn [option_map] in Hl. injection Hl as <-. rename Hl1 into Hl.
    assert (LV : rlim F (fun s => l_vs (nth i (su_layers s) l0)) (l_vs l1) /\ rlim F (fun s => l_dmin (nth i (su_layers s) l0)) (l_dmin l1) /\
       rlim F (fun s => s_unit_wt (l_soil (nth i (su_layers s) l0))) (s_unit_wt (l_soil l1)) /\ rlim F (fun s => l_thick (nth i (su_layers s) l0)) (l_thick l1)).
    { split; [|split; [|split]]; apply around_lim; intros d s Hd (_ & Q & _);
      pose proof (Forall2_nth_rel _ _ _ i l1 l0 Q Hl) as N; apply N. }
    destruct LV as (V1 & V2 & V3 & V4). split; [|split; [|split]].
    + apply (rl_ext F) with (fun s => s_unit_wt (l_soil (nth i (su_layers s) l0)) / GRAVITY * l_vs (nth i (su_layers s) l0) ^ 2).
      { intros s. rewrite nth_reset. reflexivity. }
      change (shear_mod (layer_reset l1)) with (s_unit_wt (l_soil l1) / GRAVITY * l_vs l1 ^ 2).
      apply (rl_mult F); [|now apply (rl_pow F)]. apply (rl_div F); [unfold GRAVITY; lra|exact V3|apply (rl_const F)].
    + apply (rl_ext F) with (fun s => l_dmin (nth i (su_layers s) l0)); [intros s; now rewrite nth_reset|exact V2].
    + apply (rl_ext F) with (fun s => s_unit_wt (l_soil (nth i (su_layers s) l0))); [intros s; now rewrite nth_reset|exact V3].
    + apply (rl_ext F) with (fun s => l_thick (nth i (su_layers s) l0)); [intros s; now rewrite nth_reset|exact V4].
  - apply around_lim. intros d s Hd Hs. apply Hs.
  - apply around_lim. intros d s Hd Hs. apply Hs.
  - exists tf, st. split; [exact E1|]. split; [exact E2|]. intros eps He.
    destruct (filter_and _ _ (L1 eps He) (L2 eps He)) as (d & Hd & H). exists d. split; [exact Hd|]. intros w' ls' u1' u2' A B C0 D.
    destruct (H (mkSetup w' ls' u1' u2')) as [(r1 & t' & X1 & X2 & X3) (r2 & s' & Y1 & Y2 & Y3)]; [now repeat split|].
    cbn [su_freq su_layers su_in su_out] in *. rewrite X1 in Y1. apply Ok_inj in Y1. subst r2.
    exists r1, t', s'. now repeat split.
Qed.
