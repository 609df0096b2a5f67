(** Scattering attenuation of a profile without impedance contrasts. *)
From Coq Require Import List.
From Coq Require String.
From Verif Require Import Common Proof.CommonFacts Model.Curve Model.Layer Model.Profile Model.Cplx Model.Waves Model.Tools
  Spec.ProfileSpec Spec.ToolsSpec Spec.WaveSpec Proof.LayerFacts Proof.CplxFacts Proof.WaveFacts Proof.WaveSplit Proof.WaveEnergy Proof.WaveProps.
From Coquelicot Require Import Complex.
Local Open Scope R_scope.

(** ** Waves through layers of one material *)

Definition wthick (ws : list wlayer) : R := fold_right (fun l acc => wl_thick l + acc) 0 ws.
Lemma wthick_cons l ws : wthick (l :: ws)%list = wl_thick l + wthick ws.
Proof. reflexivity. Qed.
Lemma uniform_last w v m ws l0 : w <> 0 -> v <> RtoC 0 -> m <> RtoC 0 ->
  List.Forall (fun l => wl_vel l = v /\ wl_mod l = m) (ws ++ cons l0 nil)%list -> forall a b,
  nth_error (waves_from w (ws ++ cons l0 nil)%list (a, b)) (length ws) =
  Some (Cmult a (Cexp (cterm (Cdiv (RtoC w) v) (wthick ws))), Cmult b (Cexp (Copp (cterm (Cdiv (RtoC w) v) (wthick ws))))).
Proof.
  intros Hw Hv Hm. induction ws as [|l ws IH]; intros F a b.
  - cbn [app length]. change (wthick nil) with 0. rewrite cterm_0. cbn [waves_from nth_error]. f_equal.
    replace (Copp (RtoC 0)) with (RtoC 0) by (apply C_ext; unfold Re, Im; cbn; ring). rewrite Cexp_0. f_equal; ring.
  - cbn [app] in F. pose proof (Forall_inv F) as [Vl Ml]. apply Forall_inv_tail in F. rewrite wthick_cons, cterm_plus.
    cbn [app length]. destruct (ws ++ cons l0 nil)%list as [|l' r] eqn:E; [destruct ws; discriminate|].
    change (nth_error (waves_from w (l :: l' :: r)%list (a, b)) (S (length ws)))
      with (nth_error (waves_from w (l' :: r)%list (step_py w l l' (a, b))) (length ws)).
    pose proof (Forall_inv F) as [Vl' Ml'].
    assert (K : step_py w l l' (a, b) = transmit (RtoC 1) (cterm (Cdiv (RtoC w) v) (wl_thick l)) a b).
    { unfold step_py, cimped. rewrite !wave_num_some by congruence. rewrite Vl, Vl', Ml, Ml'.
      pose proof (Cdiv_neq_0 _ _ (RtoC_neq_0 w Hw) Hv) as Hk.
      assert (Hkm : Cmult (Cdiv (RtoC w) v) m <> RtoC 0) by (apply Cmult_neq_0; assumption).
      rewrite cdivx_some by exact Hkm. cbn [fst snd]. f_equal. field. repeat split; auto using RtoC_neq_0. }
    rewrite K, transmit_one, IH by exact F. f_equal. f_equal.
    + rewrite Cexp_plus. ring.
    + replace (Copp (Cplus (cterm (Cdiv (RtoC w) v) (wl_thick l)) (cterm (Cdiv (RtoC w) v) (wthick ws))))
        with (Cplus (Copp (cterm (Cdiv (RtoC w) v) (wl_thick l))) (Copp (cterm (Cdiv (RtoC w) v) (wthick ws)))) by ring.
      rewrite Cexp_plus. ring.
Qed.

Lemma Cmod_Cexp z : Cmod (Cexp z) = exp (Re z).
Proof.
  unfold Cmod, Cexp. cbn [fst snd]. replace ((exp (Re z) * cos (Im z)) ^ 2 + (exp (Re z) * sin (Im z)) ^ 2) with (exp (Re z) ^ 2 * (Rsqr (sin (Im z)) + Rsqr (cos (Im z)))) by (unfold Rsqr; ring).
  rewrite sin2_cos2, Rmult_1_r. replace (exp (Re z) ^ 2) with (exp (Re z) * exp (Re z)) by ring. apply sqrt_square. left. apply exp_pos.
Qed.

Lemma calc_waves_at w ws rs l i x : 1e-8 < Rabs w -> calc_waves_python w ws = Ok rs -> nth_error ws i = Some l ->
  nth_error (waves_from w ws (c_one, c_one)) i = Some x -> nth_error rs i = Some (mkRow (wave_num w l) (fst x) (snd x)).
Proof.
  intros Hw H Hl Hx. destruct (calc_waves_nth w ws rs i l Hw H Hl) as (ab & E & R). rewrite Hx in E. injection E as <-. exact R.
Qed.

(** From the outcropping base to the surface the amplitude only decays. *)
Lemma uniform_tf w v m ws l0 rs : 1e-8 < Rabs w -> v <> RtoC 0 -> m <> RtoC 0 ->
  List.Forall (fun l => wl_vel l = v /\ wl_mod l = m) (ws ++ cons l0 nil)%list ->
  calc_waves_python w (ws ++ cons l0 nil)%list = Ok rs ->
  exists t, calc_accel_tf rs (mkLoc (length ws) 0 Outcrop) (mkLoc 0 0 Outcrop) = Ok (Some t) /\
    Cmod t = exp (Im (Cdiv (RtoC w) v) * wthick ws).
Proof.
  intros Hw Hv Hm F H. pose proof (awake_neq w Hw) as Hw0. set (k := Cdiv (RtoC w) v).
  assert (Fl : wl_vel l0 = v) by (apply Forall_app in F as [_ F]; now destruct (Forall_inv F)).
  assert (R : nth_error rs (length ws) = Some (mkRow (Some k) (Cexp (cterm k (wthick ws))) (Cexp (Copp (cterm k (wthick ws)))))).
  { rewrite (calc_waves_at w _ rs l0 (length ws) (Cmult c_one (Cexp (cterm k (wthick ws))), Cmult c_one (Cexp (Copp (cterm k (wthick ws))))) Hw H).
    - rewrite wave_num_some by (rewrite Fl; exact Hv). rewrite Fl. cbn [fst snd]. unfold c_one. rewrite !Cmult_1_l. reflexivity.
    - rewrite nth_error_app2, Nat.sub_diag by lia. reflexivity.
    - exact (uniform_last w v m ws l0 Hw0 Hv Hm F c_one c_one). }
  assert (S : wave_at_location rs (mkLoc 0 0 Outcrop) = Ok (Some (RtoC 2))).
  { destruct ws as [|l ws]; cbn [app] in *; apply Forall_inv in F as [F _]; apply (surface_outcrop w _ _ rs (ltac:(rewrite F; exact Hv)) H). }
  unfold calc_accel_tf. rewrite S. unfold wave_at_location. cbn [loc_index loc_within loc_field bind]. rewrite R. cbn [bind wave_at r_k r_a].
  rewrite cterm_0, Cexp_0, Cmult_1_r. set (E := Cexp (cterm k (wthick ws))).
  assert (E0 : Cmult (RtoC 2) E <> RtoC 0) by (apply Cmult_neq_0; [apply RtoC_neq_0; lra|apply Cexp_neq_0]).
  rewrite cdivx_some by exact E0. eexists. split; [reflexivity|].
  replace (Cdiv (RtoC 2) (Cmult (RtoC 2) E)) with (Cexp (Copp (cterm k (wthick ws)))).
  - rewrite Cmod_Cexp. f_equal. unfold cterm, Cmult, Copp, Ci, RtoC, Re, Im. cbn [fst snd]. ring.
  - rewrite Cexp_opp. fold E. field. split; [apply Cexp_neq_0|]. apply RtoC_neq_0. lra.
Qed.

(** ** The fitted slope *)

Lemma sumsq_zero xs m : Rsum (map (fun x => (x - m) ^ 2) xs) = 0 -> List.Forall (fun x => x = m) xs.
Proof.
  assert (N : forall ys, 0 <= Rsum (map (fun x => (x - m) ^ 2) ys)).
  { induction ys as [|y ys IH]; [apply Rle_refl|]. change (0 <= (y - m) ^ 2 + Rsum (map (fun x => (x - m) ^ 2) ys)). pose proof (pow2_ge_0 (y - m)). lra. }
  induction xs as [|x xs IH]; intros H; constructor.
  - change ((x - m) ^ 2 + Rsum (map (fun x => (x - m) ^ 2) xs) = 0) in H. specialize (N xs). pose proof (pow2_ge_0 (x - m)).
    assert (E : (x - m) ^ 2 = 0) by lra. assert (Z : x - m = 0); [|lra]. destruct (Req_dec (x - m) 0) as [|Y]; [assumption|].
    exfalso. apply (pow_nonzero _ 2) in Y. contradiction.
  - apply IH. change ((x - m) ^ 2 + Rsum (map (fun x => (x - m) ^ 2) xs) = 0) in H. specialize (N xs). pose proof (pow2_ge_0 (x - m)). lra.
Qed.
Lemma Rsum_scale c xs : Rsum (map (Rmult c) xs) = c * Rsum xs.
Proof.
  induction xs as [|x xs IH]; [unfold Rsum; cbn; ring|].
  change (c * x + Rsum (map (Rmult c) xs) = c * (x + Rsum xs)). rewrite IH. ring.
Qed.
Lemma fit_slope_linear c xs x y : In x xs -> In y xs -> x <> y -> fit_slope (combine xs (map (Rmult c) xs)) = Some c.
Proof.
  intros Ix Iy N. unfold fit_slope.
  assert (F : map fst (combine xs (map (Rmult c) xs)) = xs) by (clear; induction xs as [|a xs IH]; [reflexivity|cbn; now rewrite IH]).
  assert (G : map snd (combine xs (map (Rmult c) xs)) = map (Rmult c) xs) by (clear; induction xs as [|a xs IH]; [reflexivity|cbn; now rewrite IH]).
  rewrite F, G. set (mx := mean xs). assert (M : mean (map (Rmult c) xs) = c * mx).
  { unfold mx, mean. rewrite Rsum_scale, map_length. unfold Rdiv. ring. }
  rewrite M.
  assert (A : forall m ys, Rsum (map (fun q => (fst q - m) * (snd q - c * m)) (combine ys (map (Rmult c) ys))) = c * Rsum (map (fun z => (z - m) ^ 2) ys)).
  { intros m ys. induction ys as [|a ys IH]; [unfold Rsum; cbn; ring|].
    change ((a - m) * (c * a - c * m) + Rsum (map (fun q => (fst q - m) * (snd q - c * m)) (combine ys (map (Rmult c) ys))) =
            c * ((a - m) ^ 2 + Rsum (map (fun z => (z - m) ^ 2) ys))). rewrite IH. ring. }
  assert (B : forall m ys, Rsum (map (fun q : R * R => (fst q - m) ^ 2) (combine ys (map (Rmult c) ys))) = Rsum (map (fun z => (z - m) ^ 2) ys)).
  { intros m ys. induction ys as [|a ys IH]; [reflexivity|].
    change ((a - m) ^ 2 + Rsum (map (fun q : R * R => (fst q - m) ^ 2) (combine ys (map (Rmult c) ys))) =
            (a - m) ^ 2 + Rsum (map (fun z => (z - m) ^ 2) ys)). now rewrite IH. }
  rewrite A, B. set (d := Rsum _). assert (D : d <> 0).
  { intros Z. apply sumsq_zero in Z. rewrite Forall_forall in Z. apply N. rewrite (Z x Ix), (Z y Iy). reflexivity. }
  unfold div_opt. destruct (Reqb d 0) eqn:Q; [apply Reqb_true in Q; contradiction|]. f_equal. field. exact D.
Qed.

(** ** Layers of one material *)

Definition scatter_v (uw v D : R) : C := comp_shear_vel (layer_make (mkSoil 0 String.EmptyString uw None (DConst 0.01)) 0 v D).
Definition scatter_m (uw v D : R) : C := comp_shear_mod (layer_make (mkSoil 0 String.EmptyString uw None (DConst 0.01)) 0 v D).
Lemma fixed_wlayer uw v D l : of_material uw v D l ->
  wlayer_of (layer_reset (fixed_layer l)) = mkWL (scatter_v uw v D) (scatter_m uw v D) (l_thick l).
Proof. intros (<- & <- & <-). reflexivity. Qed.
Lemma scatter_vel_value uw v D : 0 < uw -> 0 < v -> 0 <= D <= 0.49 ->
  scatter_v uw v D = (v * sqrt ((1 + sqrt (1 - 4 * D ^ 2)) / 2), v * sqrt ((1 - sqrt (1 - 4 * D ^ 2)) / 2)).
Proof.
  intros Hu Hv HD. unfold scatter_v, comp_shear_vel. rewrite vel_arg by exact Hu. set (l := layer_make _ _ _ _).
  assert (Hd : 0 < density (l_soil l)) by (apply density_pos; exact Hu).
  assert (Hs : shear_mod l = density (l_soil l) * v ^ 2) by reflexivity.
  assert (Hdd : damping l = D) by reflexivity.
  assert (Hc : clip D 0 0.49 = D) by (unfold clip; rewrite Rmax_left by lra; apply Rmin_left; lra).
  rewrite Hs, Hdd, Hc. set (c := sqrt (1 - 4 * D ^ 2)).
  assert (C0 : 0 <= 1 - 4 * D ^ 2) by nra.
  assert (Cc : c * c = 1 - 4 * D ^ 2) by (apply sqrt_sqrt; exact C0).
  assert (Cp : 0 <= c) by apply sqrt_pos. assert (C1 : c <= 1) by nra.
  replace (density (l_soil l) * v ^ 2 * c / density (l_soil l)) with (v ^ 2 * c) by (field; lra).
  replace (density (l_soil l) * v ^ 2 * (2 * D) / density (l_soil l)) with (v ^ 2 * (2 * D)) by (field; lra).
  unfold Csqrt. replace (Cmod (v ^ 2 * c, v ^ 2 * (2 * D))) with (v ^ 2).
  - unfold Re, Im; cbn [fst snd].
    destruct (Rltb (v ^ 2 * (2 * D)) 0) eqn:Q; [apply Rltb_true in Q; exfalso; pose proof (pow2_ge_0 v); nra|].
    assert (V : forall a, 0 <= a -> sqrt (v ^ 2 * a) = v * sqrt a).
    { intros a Ha. rewrite sqrt_mult by (try apply pow2_ge_0; assumption). rewrite sqrt_pow2 by lra. reflexivity. }
    f_equal; rewrite <- V by lra; f_equal; field.
  - unfold Cmod; cbn [fst snd]. replace ((v ^ 2 * c) ^ 2 + (v ^ 2 * (2 * D)) ^ 2) with ((v ^ 2) * (v ^ 2)).
    + symmetry. apply sqrt_square. apply pow2_ge_0.
    + replace ((v ^ 2 * c) ^ 2 + (v ^ 2 * (2 * D)) ^ 2) with (v ^ 2 * v ^ 2 * (c * c + 4 * D ^ 2)) by ring. rewrite Cc. ring.
Qed.

Lemma scatter_nonzero uw v D : 0 < uw -> 0 < v -> 0 <= D <= 0.49 -> scatter_v uw v D <> RtoC 0 /\ scatter_m uw v D <> RtoC 0.
Proof.
  intros Hu Hv HD. assert (N : scatter_v uw v D <> RtoC 0).
  { rewrite scatter_vel_value by assumption. intros E. apply (f_equal fst) in E. cbn [fst RtoC] in E.
    assert (0 < sqrt ((1 + sqrt (1 - 4 * D ^ 2)) / 2)) by (apply sqrt_lt_R0; pose proof (sqrt_pos (1 - 4 * D ^ 2)); lra). apply Rmult_integral in E. lra. }
  split; [exact N|]. unfold scatter_m, scatter_v in *. set (l := layer_make _ _ _ _) in *.
  rewrite <- (vel_sqr l) by exact Hu. apply Cmult_neq_0; [|now apply Cmult_neq_0].
  apply RtoC_neq_0. assert (0 < density (l_soil l)) by (apply density_pos; exact Hu). lra.
Qed.
Lemma scatter_Im w uw v D : 0 < uw -> 0 < v -> 0 <= D <= 0.49 ->
  Im (Cdiv (RtoC w) (scatter_v uw v D)) = - w * sqrt ((1 - sqrt (1 - 4 * D ^ 2)) / 2) / v.
Proof.
  intros Hu Hv HD. rewrite scatter_vel_value by assumption.
  assert (C0 : 0 <= 1 - 4 * D ^ 2) by nra.
  assert (Cc : sqrt (1 - 4 * D ^ 2) * sqrt (1 - 4 * D ^ 2) = 1 - 4 * D ^ 2) by (apply sqrt_sqrt; exact C0).
  pose proof (sqrt_pos (1 - 4 * D ^ 2)) as Cp. set (c := sqrt (1 - 4 * D ^ 2)) in *. assert (C1 : c <= 1) by nra.
  assert (P1 : sqrt ((1 + c) / 2) * sqrt ((1 + c) / 2) = (1 + c) / 2) by (apply sqrt_sqrt; lra).
  assert (P2 : sqrt ((1 - c) / 2) * sqrt ((1 - c) / 2) = (1 - c) / 2) by (apply sqrt_sqrt; lra).
  set (p := sqrt ((1 + c) / 2)) in *. set (q := sqrt ((1 - c) / 2)) in *.
  unfold Cdiv, Cinv, Cmult, RtoC, Im. cbn [fst snd].
  replace ((v * p) ^ 2 + (v * q) ^ 2) with (v ^ 2 * (p * p + q * q)) by ring. rewrite P1, P2.
  replace ((1 + c) / 2 + (1 - c) / 2) with 1 by field. field. lra.
Qed.

Lemma wthick_map uw v D ls : List.Forall (of_material uw v D) ls ->
  wthick (map wlayer_of (map layer_reset (map fixed_layer ls))) = total_thick ls.
Proof.
  induction 1 as [|l ls _ _ IH]; [reflexivity|]. cbn [map]. rewrite wthick_cons, IH. reflexivity.
Qed.
Lemma log_amp_uniform uw v D body hs f : 0 < uw -> 0 < v -> 0 <= D <= 0.49 -> 1e-8 < Rabs (2 * PI * f) ->
  List.Forall (of_material uw v D) (body ++ cons hs nil)%list ->
  log_amp (map fixed_layer (body ++ cons hs nil)%list) f =
  Ok (Some ((- (2 * PI * total_thick body / v * sqrt ((1 - sqrt (1 - 4 * D ^ 2)) / 2))) * f)).
Proof.
  intros Hu Hv HD Hw F. destruct (scatter_nonzero uw v D Hu Hv HD) as [Nv Nm].
  unfold log_amp, linear_elastic. rewrite !map_length, app_length. cbn [length].
  replace (length body + 1 - 1)%nat with (length body) by lia.
  rewrite !map_app. cbn [map]. set (ws := map wlayer_of (map layer_reset (map fixed_layer body))). set (l0 := wlayer_of (layer_reset (fixed_layer hs))).
  assert (Fw : List.Forall (fun l => wl_vel l = scatter_v uw v D /\ wl_mod l = scatter_m uw v D) (ws ++ cons l0 nil)%list).
  { unfold ws, l0. replace (cons (wlayer_of (layer_reset (fixed_layer hs))) nil) with (map wlayer_of (map layer_reset (map fixed_layer (cons hs nil)))) by reflexivity.
    rewrite <- !map_app. rewrite !Forall_map. eapply Forall_impl; [|exact F]. intros l Hl. rewrite (fixed_wlayer uw v D l Hl). split; reflexivity. }
  destruct (calc_waves_python (2 * PI * f) (ws ++ cons l0 nil)%list) as [rs|] eqn:E.
  - cbn [bind]. destruct (uniform_tf (2 * PI * f) _ _ ws l0 rs Hw Nv Nm Fw E) as (t & T1 & T2).
    replace (length ws) with (length body) in T1 by (unfold ws; now rewrite !map_length). rewrite T1. cbn [bind opt_bind].
    f_equal. unfold ln_opt. rewrite T2. destruct (Rltb 0 _) eqn:Q; [|apply Rltb_false in Q; exfalso; revert Q; apply Rlt_not_le, exp_pos].
    f_equal. rewrite ln_exp, scatter_Im by assumption. unfold ws. rewrite (wthick_map uw v D) by (now apply Forall_app in F as [F _]). unfold Rdiv. ring.
  - exfalso. unfold calc_waves_python in E. destruct (ws ++ cons l0 nil)%list eqn:X; [destruct ws; discriminate|discriminate].
Qed.
Lemma map_res_ok {A B} (f : A -> res B) (g : A -> B) xs : List.Forall (fun x => f x = Ok (g x)) xs -> map_res f xs = Ok (map g xs).
Proof. induction 1 as [|x xs H _ IH]; [reflexivity|]. cbn [map_res]. rewrite H, IH. reflexivity. Qed.
Lemma map_opt_some {A} (xs : list A) : map_opt (fun a => a) (map Some xs) = Some xs.
Proof. induction xs as [|x xs IH]; [reflexivity|]. cbn [map map_opt opt_bind]. now rewrite IH. Qed.
Lemma uniform_atten uw v D ls : 0 < uw -> 0 < v -> List.Forall (of_material uw v D) ls ->
  site_attenuation (map fixed_layer ls) = 2 * D * total_thick ls / v.
Proof.
  intros Hu Hv F. unfold site_attenuation. induction F as [|l ls Hl _ IH]; [unfold Rsum, total_thick; cbn; field; lra|].
  cbn [map]. change (Rsum (incr_site_atten (fixed_layer l) :: map incr_site_atten (map fixed_layer ls))%list) with (incr_site_atten (fixed_layer l) + Rsum (map incr_site_atten (map fixed_layer ls))).
  rewrite IH. change (total_thick (l :: ls)%list) with (l_thick l + total_thick ls). destruct Hl as (_ & <- & <-).
  unfold incr_site_atten, fixed_layer. cbn. field. lra.
Qed.

(** The simulated attenuation of a profile of one material, less the sum over the layers. *)
Theorem scatter_uniform uw v D body hs fs x y : 0 < uw -> 0 < v -> 0 <= D <= 0.49 ->
  List.Forall (of_material uw v D) (body ++ cons hs nil)%list -> l_thick hs = 0 -> 0 <= total_thick body ->
  List.Forall (fun f => 1e-8 < Rabs (2 * PI * f)) fs -> In x fs -> In y fs -> x <> y ->
  calc_atten_scatter (body ++ cons hs nil)%list (Some fs) =
  Ok (Some (2 * total_thick body / v * (sqrt ((1 - sqrt (1 - 4 * D ^ 2)) / 2) - D))).
Proof.
  intros Hu Hv HD F Z T Ff Ix Iy N. unfold calc_atten_scatter.
  rewrite (map_res_ok _ (fun f => Some ((- (2 * PI * total_thick body / v * sqrt ((1 - sqrt (1 - 4 * D ^ 2)) / 2))) * f))).
  - set (c := - (2 * PI * _ / v * _)). rewrite <- (map_map (Rmult c) Some). cbn [bind]. rewrite map_opt_some. cbn [opt_bind].
    rewrite (fit_slope_linear c fs x y Ix Iy N). cbn [opt_bind]. f_equal. f_equal.
    rewrite (uniform_atten uw v D) by assumption.
    replace (total_thick (body ++ cons hs nil)%list) with (total_thick body).
    + unfold c. pose proof PI_RGT_0 as Pp.
      set (q := sqrt ((1 - sqrt (1 - 4 * D ^ 2)) / 2)).
      replace (- - (2 * PI * total_thick body / v * q) / PI - 2 * D * total_thick body / v) with (2 * total_thick body / v * (q - D)) by (field; lra).
      apply Rmax_left. apply Rmult_le_pos; [unfold Rdiv; apply Rmult_le_pos; [lra|left; now apply Rinv_0_lt_compat]|].
      assert (C0 : 0 <= 1 - 4 * D ^ 2) by nra.
      assert (Cc : sqrt (1 - 4 * D ^ 2) * sqrt (1 - 4 * D ^ 2) = 1 - 4 * D ^ 2) by (apply sqrt_sqrt; exact C0).
      pose proof (sqrt_pos (1 - 4 * D ^ 2)) as Cp. unfold q. set (k := sqrt (1 - 4 * D ^ 2)) in *. assert (C1 : k <= 1) by nra.
      assert (D <= sqrt ((1 - k) / 2)); [|lra]. rewrite <- (sqrt_square D) by lra. apply sqrt_le_1_alt. nra.
    + clear -Z. induction body as [|l b IH]; [unfold total_thick; cbn; rewrite Z; ring|]. cbn [app].
      change (l_thick l + total_thick b = l_thick l + total_thick (b ++ cons hs nil)%list). now rewrite IH.
  - eapply Forall_impl; [|exact Ff]. intros f Hf. cbv beta in Hf. now apply log_amp_uniform with (uw := uw).
Qed.
(** It is positive unless there is no damping. *)
Theorem scatter_uniform_positive D : 0 < D <= 0.49 -> 0 < sqrt ((1 - sqrt (1 - 4 * D ^ 2)) / 2) - D.
Proof.
  intros HD. assert (C0 : 0 <= 1 - 4 * D ^ 2) by nra.
  assert (Cc : sqrt (1 - 4 * D ^ 2) * sqrt (1 - 4 * D ^ 2) = 1 - 4 * D ^ 2) by (apply sqrt_sqrt; exact C0).
  pose proof (sqrt_pos (1 - 4 * D ^ 2)) as Cp. set (k := sqrt (1 - 4 * D ^ 2)) in *.
  assert (C1 : k < 1) by nra.
  assert (D < sqrt ((1 - k) / 2)); [|lra]. rewrite <- (sqrt_square D) by lra. apply sqrt_lt_1_alt. nra.
Qed.
Lemma scatter_default ls : calc_atten_scatter ls None = calc_atten_scatter ls (Some scatter_freqs).
Proof. reflexivity. Qed.
Lemma scatter_freqs_range : List.Forall (fun f => 50 <= f <= 200) scatter_freqs.
Proof.
  unfold scatter_freqs. apply Forall_map. apply Forall_forall. intros i Hi. apply in_seq in Hi.
  assert (I : INR i <= 255) by (apply Rle_trans with (INR 255); [apply le_INR; lia|simpl; lra]). pose proof (pos_INR i). lra.
Qed.
Lemma scatter_freqs_ends : In 50 scatter_freqs /\ In 200 scatter_freqs.
Proof.
  unfold scatter_freqs. split; apply in_map_iff.
  - exists 0%nat. split; [simpl; lra|apply in_seq; lia].
  - exists 255%nat. split; [simpl; lra|apply in_seq; lia].
Qed.
Theorem scatter_uniform_default uw v D body hs : 0 < uw -> 0 < v -> 0 <= D <= 0.49 ->
  List.Forall (of_material uw v D) (body ++ cons hs nil)%list -> l_thick hs = 0 -> 0 <= total_thick body ->
  calc_atten_scatter (body ++ cons hs nil)%list None =
  Ok (Some (2 * total_thick body / v * (sqrt ((1 - sqrt (1 - 4 * D ^ 2)) / 2) - D))).
Proof.
  intros Hu Hv HD F Z T. rewrite scatter_default. destruct scatter_freqs_ends as [I1 I2].
  apply (scatter_uniform uw v D body hs scatter_freqs 50 200); try assumption; [|lra].
  eapply Forall_impl; [|exact scatter_freqs_range]. intros f Hf. cbv beta in Hf. pose proof PI_RGT_0. pose proof PI2_1.
  rewrite Rabs_pos_eq by nra. nra.
Qed.
