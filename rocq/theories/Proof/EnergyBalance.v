(** The work passed through a site is the energy lost above. *)
From Coq Require Import List.
From Verif Require Import Common Proof.CommonFacts Model.Curve Model.Layer Model.Cplx Model.Waves Spec.WaveSpec Spec.EnergySpec
  Proof.CplxFacts Proof.WaveFacts Proof.WaveEnergy Proof.WaveProps Proof.WaveUnique Proof.WaveBounds Proof.WaveStanding.
From Coquelicot Require Import Coquelicot.
Local Open Scope R_scope.

(** ** Work of a cycle *)
Definition work (s u : C) : R := PI * Im (Cmult s (Cconj u)).

Lemma harmonic_derive w u t : is_derive (harmonic w u) t (- w * (Re u * sin (w * t) + Im u * cos (w * t))).
Proof. unfold harmonic. auto_derive; [trivial|]. ring. Qed.

Theorem cycle_work_value w s u : 0 < w -> cycle_work w s u (work s u).
Proof.
  intros W. unfold cycle_work. destruct s as [s1 s2], u as [u1 u2].
  set (F := fun t => - w * (s1 * u1 * (sin (w * t) ^ 2 / (2 * w)) + s1 * u2 * (t / 2 + sin (2 * w * t) / (4 * w))
                 - s2 * u1 * (t / 2 - sin (2 * w * t) / (4 * w)) - s2 * u2 * (sin (w * t) ^ 2 / (2 * w)))).
  assert (D : forall t, is_derive F t (harmonic w (s1, s2) t * Derive (harmonic w (u1, u2)) t)).
  { intros t. rewrite (is_derive_unique _ _ _ (harmonic_derive w (u1, u2) t)). unfold F. auto_derive; [trivial|].
    replace (2 * w * t) with (2 * (w * t)) by ring. rewrite cos_2a. unfold harmonic, Re, Im; cbn [fst snd].
    pose proof (sin2_cos2 (w * t)) as T. unfold Rsqr in T.
    set (c := cos (w * t)) in *. set (n := sin (w * t)) in *.
    replace (c * c - n * n) with (1 - 2 * (n * n)) by lra. 
    assert (E : c * c = 1 - n * n) by lra.
    transitivity (- w * (s1 * u1 * (c * n) + s1 * u2 * (1 - n * n) - s2 * u1 * (n * n) - s2 * u2 * (c * n))).
    - field. lra.
    - transitivity (- w * (s1 * u1 * (c * n) + s1 * u2 * (c * c) - s2 * u1 * (n * n) - s2 * u2 * (c * n))); [now rewrite E|ring]. }
  assert (V : work (s1, s2) (u1, u2) = minus (F (2 * PI / w)) (F 0)).
  { unfold F, work, minus, plus, opp, Cmult, Cconj, Im; cbn [fst snd AbelianGroup.plus AbelianGroup.opp R_AbelianGroup].
    replace (w * (2 * PI / w)) with (2 * PI) by (field; lra).
    replace (2 * w * (2 * PI / w)) with (2 * (2 * PI)) by (field; lra).
    rewrite !Rmult_0_r, sin_0, sin_2PI. rewrite (sin_2a (2 * PI)), sin_2PI. cbn. field. lra. }
  rewrite V. apply (is_RInt_derive (V := R_CompleteNormedModule) F).
  - intros t _. apply D.
  - intros t _. apply (continuous_ext (fun t => harmonic w (s1, s2) t * (- w * (u1 * sin (w * t) + u2 * cos (w * t))))).
    { intros x. now rewrite (is_derive_unique _ _ _ (harmonic_derive w (u1, u2) x)). }
    apply (ex_derive_continuous (V := R_NormedModule)). unfold harmonic. auto_derive. trivial.
Qed.

(** ** One layer *)
Lemma work_derive (U S : R -> C) M k x :
  cderive U x (S x) -> cderive S x (Cmult (Copp (Cmult k k)) (U x)) -> Im (Cmult M (Cmult k k)) = 0 ->
  is_derive (fun x => work (Cmult M (S x)) (U x)) x (PI * (Im M * Cnorm2 (S x))).
Proof.
  intros [A1 A2] [B1 B2] K. set (u1 := fun y => Re (U y)) in *. set (u2 := fun y => Im (U y)) in *.
  set (s1 := fun y => Re (S y)) in *. set (s2 := fun y => Im (S y)) in *.
  apply (is_derive_ext (fun y => PI * ((Re M * s2 y + Im M * s1 y) * u1 y - (Re M * s1 y - Im M * s2 y) * u2 y))).
  { intros y. unfold work, s1, s2, u1, u2, Cmult, Cconj, Re, Im; cbn [fst snd]. match goal with |- ?a = ?b => change (@eq R a b) end. ring. }
  assert (E1 : ex_derive u1 x) by (eexists; exact A1). assert (E2 : ex_derive u2 x) by (eexists; exact A2).
  assert (E3 : ex_derive s1 x) by (eexists; exact B1). assert (E4 : ex_derive s2 x) by (eexists; exact B2).
  pose proof (is_derive_unique u1 x _ A1) as A1'. pose proof (is_derive_unique u2 x _ A2) as A2'.
  pose proof (is_derive_unique s1 x _ B1) as B1'. pose proof (is_derive_unique s2 x _ B2) as B2'.
  auto_derive; [repeat split; assumption|].
  change (Derive (fun y => u1 y) x) with (Derive u1 x). change (Derive (fun y => u2 y) x) with (Derive u2 x).
  change (Derive (fun y => s1 y) x) with (Derive s1 x). change (Derive (fun y => s2 y) x) with (Derive s2 x).
  rewrite A1', A2', B1', B2'. unfold s1, s2, u1, u2. clear - K.
  destruct M as [m1 m2], k as [k1 k2], (S x) as [p1 p2], (U x) as [v1 v2].
  unfold Cnorm2, Cmult, Copp, Re, Im in *; cbn [fst snd] in *.
  transitivity (PI * (m2 * (p1 ^ 2 + p2 ^ 2) - (m1 * (k1 * k2 + k2 * k1) + m2 * (k1 * k1 - k2 * k2)) * (v1 ^ 2 + v2 ^ 2))); [ring|].
  rewrite K. ring.
Qed.

Lemma cderive_continuous u x d : cderive u x d -> continuous (fun y => Re (u y)) x /\ continuous (fun y => Im (u y)) x.
Proof. intros [A B]. split; apply (ex_derive_continuous (V := R_NormedModule)); eexists; eassumption. Qed.

Lemma work_gain (U S : R -> C) M k : Im (Cmult M (Cmult k k)) = 0 ->
  (forall x, cderive U x (S x)) -> (forall x, cderive S x (Cmult (Copp (Cmult k k)) (U x))) ->
  forall z, is_RInt (fun x => PI * (Im M * Cnorm2 (S x))) 0 z (work (Cmult M (S z)) (U z) - work (Cmult M (S 0)) (U 0)).
Proof.
  intros K A B z. apply (is_RInt_derive (V := R_CompleteNormedModule) (fun x => work (Cmult M (S x)) (U x))).
  - intros x _. now apply (work_derive U S M k).
  - intros x _. destruct (cderive_continuous S x _ (B x)) as [C1 C2].
    apply (continuous_mult (fun _ => PI)); [apply continuous_const|].
    apply (continuous_mult (fun _ => Im M)); [apply continuous_const|]. unfold Cnorm2.
    apply (continuous_plus (fun y => Re (S y) ^ 2)); cbn [pow].
    + apply (continuous_mult (fun y => Re (S y))); [exact C1|]. apply (continuous_mult (fun y => Re (S y))); [exact C1|apply continuous_const].
    + apply (continuous_mult (fun y => Im (S y))); [exact C2|]. apply (continuous_mult (fun y => Im (S y))); [exact C2|apply continuous_const].
Qed.

Section Site.
Variables (w : R) (ls : list layer) (rs : list wrow) (lin : wloc) (xin : C).
Hypothesis W : 1e-8 < w.
Hypothesis SND : List.Forall sound ls.
Hypothesis RUN : calc_waves_python w (map wlayer_of ls) = Ok rs.
Hypothesis IN : wave_at_location rs lin = Ok (Some xin).
Hypothesis NIN : xin <> RtoC 0.

Let AW : 1e-8 < Rabs w. Proof. rewrite Rabs_pos_eq; lra. Qed.
Let gc : C := RtoC (- (GRAVITY / w ^ 2)).
Let num (l : layer) : C := Cdiv (RtoC w) (comp_shear_vel l).
Let scale : C := Cmult gc (Cinv xin).

(** Displacement and strain of layer [l] with the amplitudes [ab]. *)
Let U (l : layer) (ab : C * C) (z : R) : C := Cmult scale (plane (num l) (fst ab) (snd ab) z).
Let S (l : layer) (ab : C * C) (z : R) : C := Cmult scale (plane' (num l) (fst ab) (snd ab) z).
Let P (l : layer) (ab : C * C) (z : R) : R := work (Cmult (comp_shear_mod l) (S l ab z)) (U l ab z).

Lemma at_layer i l : nth_error ls i = Some l ->
  exists ab, nth_error (waves_from w (map wlayer_of ls) (c_one, c_one)) i = Some ab /\
    (forall z, exists a, calc_accel_tf rs lin (mkLoc i z Within) = Ok (Some a) /\ displacement w a = U l ab z) /\
    (forall z, calc_strain_tf rs w lin (mkLoc i z Within) = Ok (Some (S l ab z))).
Proof.
  intros Hl. pose proof (proj1 (List.Forall_forall _ _) SND l (nth_error_In _ _ Hl)) as Sl.
  pose proof (phys_carries _ (sound_phys l Sl)) as [Hv _].
  assert (Hl' : nth_error (map wlayer_of ls) i = Some (wlayer_of l)) by (now apply map_nth_error).
  destruct (field_plane w _ rs i _ AW RUN Hl' Hv) as (ab & E1 & E2 & F). exists ab. split; [exact E1|].
  cbn [wlayer_of wl_vel] in E2, F. fold (num l) in E2, F. split.
  - intros z. exists (Cdiv (plane (num l) (fst ab) (snd ab) z) xin). split; [now apply tf_some; [apply F|..]|].
    unfold displacement, U, scale, gc, Cdiv. ring.
  - intros z. unfold calc_strain_tf; cbn [loc_field loc_index loc_within]. rewrite E2.
    pose proof IN as H. unfold wave_at_location in H. destruct (nth_error rs (loc_index lin)) as [ri|]; [|discriminate]. injection H as H.
    unfold strain_tf_python. rewrite isclose_zero_false by exact AW. cbn [r_k r_a r_b]. rewrite H.
    assert (N2 : w ^ 2 <> 0) by (apply pow_nonzero; lra).
    assert (ND : Cmult (RtoC (- w ^ 2)) xin <> RtoC 0) by (apply Cmult_neq_0; [apply RtoC_neq_0; lra|exact NIN]).
    rewrite cdivx_some by exact ND. do 2 f_equal. unfold S, scale, gc, plane', strain_numer.
    rewrite !RtoC_opp, RtoC_div by exact N2. field. split; [exact NIN|].
    split; [now apply RtoC_neq_0|]. rewrite <- RtoC_opp. apply RtoC_neq_0. lra.
Qed.

Lemma modulus_real l : sound l -> Im (Cmult (comp_shear_mod l) (Cmult (num l) (num l))) = 0.
Proof.
  intros Sl. pose proof (phys_carries _ (sound_phys l Sl)) as [Hv _]. cbn in Hv. destruct Sl as (_ & Hu & _).
  rewrite <- (vel_sqr l Hu). unfold num.
  replace (Cmult _ _) with (RtoC (density (l_soil l) * (w * w))); [reflexivity|].
  rewrite !RtoC_mult. field. exact Hv.
Qed.

Lemma gain i l ab : nth_error ls i = Some l ->
  (forall z, calc_strain_tf rs w lin (mkLoc i z Within) = Ok (Some (S l ab z))) ->
  forall z, lost_in rs w lin i l z (P l ab z - P l ab 0).
Proof.
  intros Hl E z. pose proof (proj1 (List.Forall_forall _ _) SND l (nth_error_In _ _ Hl)) as Sl.
  exists (S l ab), (clip (damping l) 0 0.49). split; [exact E|]. split; [apply clip_limited|].
  assert (IM : Im (comp_shear_mod l) = 2 * clip (damping l) 0 0.49 * shear_mod l).
  { unfold comp_shear_mod, COMP_MODULUS_MODEL. rewrite comp_mod_parts. unfold Im; cbn [snd]. ring. }
  apply (is_RInt_ext (fun x => PI * (Im (comp_shear_mod l) * Cnorm2 (S l ab x)))).
  { intros x _. rewrite IM. lra. }
  apply (work_gain (U l ab) (S l ab) (comp_shear_mod l) (num l)).
  - now apply modulus_real.
  - intros x. unfold U, S. apply cderive_mult_l, plane_derive.
  - intros x. unfold U, S. apply (cderive_value _ _ (Cmult scale (Cmult (Copp (Cmult (num l) (num l))) (plane (num l) (fst ab) (snd ab) x)))); [ring|].
    apply cderive_mult_l, plane'_derive.
Qed.

Lemma passed i l l' ab ab' : nth_error ls i = Some l -> nth_error ls (Datatypes.S i) = Some l' ->
  nth_error (waves_from w (map wlayer_of ls) (c_one, c_one)) i = Some ab ->
  nth_error (waves_from w (map wlayer_of ls) (c_one, c_one)) (Datatypes.S i) = Some ab' ->
  P l' ab' 0 = P l ab (l_thick l).
Proof.
  intros Hl Hl' E E'. pose proof (proj1 (List.Forall_forall _ _) SND) as F.
  pose proof (phys_carries _ (sound_phys l (F l (nth_error_In _ _ Hl)))) as C1.
  pose proof (phys_carries _ (sound_phys l' (F l' (nth_error_In _ _ Hl')))) as C2.
  rewrite (waves_from_next w _ _ i (wlayer_of l) (wlayer_of l') ab) in E'; try (now apply map_nth_error); [|exact E].
  injection E' as <-. rewrite step_carry by (try assumption; lra).
  cbn [wlayer_of wl_vel wl_mod wl_thick]. fold (num l) (num l').
  destruct C1 as [V1 M1]. destruct C2 as [V2 M2]. cbn in V1, M1, V2, M2.
  assert (K2 : num l' <> RtoC 0) by (apply Cdiv_neq_0; [apply RtoC_neq_0; lra|assumption]).
  set (c := Cdiv _ _). set (ct := cterm _ _). unfold P. f_equal.
  - unfold S. rewrite plane'_0, transmit_diff. unfold plane'. fold ct. unfold c. field. split; assumption.
  - unfold U. rewrite plane_0, transmit_sum. reflexivity.
Qed.

Lemma balance_aux : exists es, length es = length ls /\
  (forall i l q, nth_error ls i = Some l -> nth_error es i = Some q -> lost_in rs w lin i l (l_thick l) q) /\
  forall i l, nth_error ls i = Some l -> forall z, exists a t q,
    calc_accel_tf rs lin (mkLoc i z Within) = Ok (Some a) /\
    calc_stress_tf rs w lin (mkLoc i z Within) (comp_shear_mod l) = Ok (Some t) /\
    lost_in rs w lin i l z q /\ work t (displacement w a) = Rsum (firstn i es) + q.
Proof.
  set (ws := waves_from w (map wlayer_of ls) (c_one, c_one)).
  assert (LW : length ws = length ls) by (unfold ws; now rewrite waves_from_length, map_length).
  set (es := map (fun p => P (fst p) (snd p) (l_thick (fst p)) - P (fst p) (snd p) 0) (combine ls ws)).
  assert (ES : forall i l ab, nth_error ls i = Some l -> nth_error ws i = Some ab -> nth_error es i = Some (P l ab (l_thick l) - P l ab 0)).
  { intros i l ab Hl Hw. unfold es.
    assert (C : forall (A B : Type) (xs : list A) (ys : list B) j x y, nth_error xs j = Some x -> nth_error ys j = Some y -> nth_error (combine xs ys) j = Some (x, y)).
    { intros A B. induction xs as [|x0 xs IH]; intros [|y0 ys] [|j] x y; cbn; try discriminate; [now intros [= ->] [= ->]|apply IH]. }
    exact (map_nth_error (fun p => P (fst p) (snd p) (l_thick (fst p)) - P (fst p) (snd p) 0) i (combine ls ws) (C _ _ ls ws i l ab Hl Hw)). }
  assert (LE : length es = length ls) by (unfold es; rewrite map_length, combine_length, LW; apply Nat.min_id).
  exists es. split; [exact LE|]. split.
  - intros i l q Hl Hq. destruct (at_layer i l Hl) as (ab & E1 & _ & E3). rewrite (ES i l ab Hl E1) in Hq. injection Hq as <-.
    now apply (gain i l ab).
  - assert (TOP : forall i l ab, nth_error ls i = Some l -> nth_error ws i = Some ab -> P l ab 0 = Rsum (firstn i es)).
    { induction i as [|i IH]; intros l ab Hl Hw.
      - destruct ls as [|l0 r]; [discriminate|]. cbn in Hl. injection Hl as ->.
        unfold ws in Hw. cbn in Hw. injection Hw as <-. cbn [firstn]. unfold P, work, S. rewrite plane'_0. cbn [fst snd].
        replace (Cmult (comp_shear_mod l) _) with (RtoC 0) by ring. unfold Rsum, Cmult, RtoC, Im; cbn. ring.
      - assert (exists l0, nth_error ls i = Some l0) as (l0 & Hl0).
        { destruct (nth_error ls i) eqn:E; [eauto|]. apply nth_error_None in E.
          assert (nth_error ls (Datatypes.S i) <> None) as N by congruence. apply nth_error_Some in N. lia. }
        destruct (at_layer i l0 Hl0) as (ab0 & E1 & _).
        rewrite (passed i l0 l ab0 ab Hl0 Hl E1 Hw).
        assert (FS : firstn (Datatypes.S i) es = firstn i es ++ (P l0 ab0 (l_thick l0) - P l0 ab0 0) :: nil).
        { pose proof (ES i l0 ab0 Hl0 E1) as Q. clear - Q. revert i Q. generalize es as xs.
          induction xs as [|x xs IH]; intros [|i] Q; cbn in *; try discriminate; [now injection Q as ->|].
          f_equal. now apply IH. }
        rewrite FS. rewrite Rsum_app, <- (IH l0 ab0 Hl0 E1). unfold Rsum; cbn. ring. }
    intros i l Hl z. destruct (at_layer i l Hl) as (ab & E1 & E2 & E3). destruct (E2 z) as (a & Ea & Ua).
    exists a, (Cmult (comp_shear_mod l) (S l ab z)), (P l ab z - P l ab 0).
    split; [exact Ea|]. split; [now apply stress_is_modulus_strain|]. split; [now apply (gain i l ab)|].
    rewrite Ua. fold (P l ab z). rewrite <- (TOP i l ab Hl E1). ring.
Qed.

(** In a layer without damping. *)
Lemma lossless_work i l z : nth_error ls i = Some l -> limited_damping (damping l) 0 -> exists b a s,
  calc_accel_tf rs lin (mkLoc i z IncomingOnly) = Ok (Some b) /\
  calc_accel_tf rs lin (mkLoc i z Within) = Ok (Some a) /\
  calc_stress_tf rs w lin (mkLoc i z Within) (comp_shear_mod l) = Ok (Some s) /\
  work s (displacement w a) = PI * w * impedance l * (GRAVITY / w ^ 2) ^ 2 * (Cnorm2 b - Cnorm2 (Cminus a b)).
Proof.
  intros Hl D. pose proof (proj1 (List.Forall_forall _ _) SND l (nth_error_In _ _ Hl)) as Sl.
  destruct (at_layer i l Hl) as (ab & E1 & E2 & E3). destruct (E2 z) as (a & Ea & Ua).
  pose proof (phys_carries _ (sound_phys l Sl)) as [Hv _].
  assert (Hl' : nth_error (map wlayer_of ls) i = Some (wlayer_of l)) by (now apply map_nth_error).
  destruct (field_plane w _ rs i _ AW RUN Hl' Hv) as (ab' & E1' & E2' & F'). rewrite E1 in E1'. injection E1' as <-.
  set (p := Cmult (fst ab) (Cexp (cterm (num l) z))). set (m := Cmult (snd ab) (Cexp (Copp (cterm (num l) z)))).
  exists (Cdiv p xin), a, (Cmult (comp_shear_mod l) (S l ab z)).
  assert (A : a = Cdiv (Cplus p m) xin).
  { pose proof (tf_some rs lin (mkLoc i z Within) _ xin (F' z) IN NIN) as T. rewrite Ea in T. injection T as ->. reflexivity. }
  split.
  { apply tf_some; [|exact IN|exact NIN]. unfold wave_at_location. cbn [loc_index]. rewrite E2'. reflexivity. }
  split; [exact Ea|]. split; [now apply stress_is_modulus_strain|].
  rewrite Ua. unfold S, U.
  change (plane (num l) (fst ab) (snd ab) z) with (Cplus p m).
  change (plane' (num l) (fst ab) (snd ab) z) with (Cmult (Cmult Ci (num l)) (Cminus p m)).
  replace (Cminus a (Cdiv p xin)) with (Cdiv m xin) by (rewrite A; unfold Cdiv; ring).
  assert (K : Cmult (comp_shear_mod l) (num l) = RtoC (w * impedance l)).
  { pose proof (density_pos l (proj1 (proj2 Sl))) as PD. destruct (undamped_num w l Sl D) as [PV _]. unfold num.
    rewrite <- (vel_sqr l (proj1 (proj2 Sl))). pose proof (undamped_vel l Sl D) as UV. cbn [wlayer_of wl_vel] in UV. rewrite UV.
    rewrite <- RtoC_div by lra. rewrite <- !RtoC_mult. f_equal. unfold impedance.
    destruct Sl as (PG & _).
    replace (shear_mod l * density (l_soil l)) with (density (l_soil l) ^ 2 * (shear_mod l / density (l_soil l))) by (field; lra).
    rewrite sqrt_mult_alt by apply pow2_ge_0. rewrite sqrt_pow2 by lra. field. lra. }
  replace (Cmult (comp_shear_mod l) (Cmult scale (Cmult (Cmult Ci (num l)) (Cminus p m))))
    with (Cmult scale (Cmult (RtoC (w * impedance l)) (Cmult Ci (Cminus p m)))) by (rewrite <- K; ring).
  unfold scale, gc, Cdiv. generalize (Cinv xin) as y. intros [y1 y2]. clearbody p m. destruct p as [p1 p2], m as [m1 m2].
  unfold work, Cnorm2, Cmult, Cconj, Cminus, Cplus, Copp, Ci, RtoC, Re, Im; cbn [fst snd].
  set (r := GRAVITY / w ^ 2). ring.
Qed.
End Site.

Lemma lost_none rs w lin i l z q : limited_damping (damping l) 0 -> lost_in rs w lin i l z q -> q = 0.
Proof.
  intros D (st & d & _ & D' & I). pose proof (limited_unique _ _ _ D D') as <-.
  assert (J : is_RInt (fun _ : R => 0) 0 z q).
  { apply (is_RInt_ext (fun x => 4 * PI * 0 * (1 / 2 * shear_mod l * Cnorm2 (st x)))); [intros x _; lra|exact I]. }
  pose proof (is_RInt_const (V := R_NormedModule) 0 z 0) as K.
  rewrite <- (is_RInt_unique (V := R_CompleteNormedModule) _ _ _ _ J).
  rewrite (is_RInt_unique (V := R_CompleteNormedModule) _ _ _ _ K). apply Rmult_0_r.
Qed.

Lemma lost_nonneg rs w lin i l z q : sound l -> 0 <= z -> lost_in rs w lin i l z q -> 0 <= q.
Proof.
  intros (G & _) Z (st & d & _ & D & I). apply (is_RInt_ge_0 _ _ _ _ Z I). intros x _.
  assert (0 <= d) by apply D. pose proof PI_RGT_0. pose proof (Cnorm2_nonneg (st x)).
  apply Rmult_le_pos; [nra|]. apply Rmult_le_pos; [lra|assumption].
Qed.

(** * C157 *)
Theorem energy_balance w ls rs lin xin : 1e-8 < w -> List.Forall sound ls ->
  calc_waves_python w (map wlayer_of ls) = Ok rs ->
  wave_at_location rs lin = Ok (Some xin) -> xin <> RtoC 0 ->
  exists es, length es = length ls /\
    (forall i l q, nth_error ls i = Some l -> nth_error es i = Some q -> lost_in rs w lin i l (l_thick l) q) /\
    forall i l, nth_error ls i = Some l -> forall z, exists a s q,
      calc_accel_tf rs lin (mkLoc i z Within) = Ok (Some a) /\
      calc_stress_tf rs w lin (mkLoc i z Within) (comp_shear_mod l) = Ok (Some s) /\
      lost_in rs w lin i l z q /\ cycle_work w s (displacement w a) (Rsum (firstn i es) + q).
Proof.
  intros W SND RUN IN NIN. destruct (balance_aux w ls rs lin xin W SND RUN IN NIN) as (es & L & E1 & E2).
  exists es. split; [exact L|]. split; [exact E1|]. intros i l Hl z. destruct (E2 i l Hl z) as (a & s & q & A & B & C & D).
  exists a, s, q. repeat (split; [assumption|]). rewrite <- D. apply cycle_work_value. lra.
Qed.

(** No energy flows downwards, and never less at larger depths of a layer. *)
Theorem energy_upwards w ls rs lin xin : 1e-8 < w -> List.Forall sound ls ->
  calc_waves_python w (map wlayer_of ls) = Ok rs ->
  wave_at_location rs lin = Ok (Some xin) -> xin <> RtoC 0 ->
  forall i l z, nth_error ls i = Some l -> 0 <= z -> exists a s q,
    calc_accel_tf rs lin (mkLoc i z Within) = Ok (Some a) /\
  calc_stress_tf rs w lin (mkLoc i z Within) (comp_shear_mod l) = Ok (Some s) /\
  cycle_work w s (displacement w a) q /\ 0 <= q /\
  (List.Forall (fun l' => limited_damping (damping l') 0) (firstn (S i) ls) -> q = 0).
Proof.
  intros W SND RUN IN NIN i l z Hl Z. destruct (energy_balance w ls rs lin xin W SND RUN IN NIN) as (es & L & E1 & E2).
  destruct (E2 i l Hl z) as (a & s & q & A & B & C & D). exists a, s, (Rsum (firstn i es) + q).
  repeat (split; [assumption|]). pose proof (proj1 (List.Forall_forall _ _) SND) as F.
  assert (AT : forall j x, In x (firstn j es) -> exists k l' , (k < j)%nat /\ nth_error ls k = Some l' /\ nth_error es k = Some x).
  { intros j x Hx. apply In_nth_error in Hx. destruct Hx as (k & Hk).
    assert (kj : (k < j)%nat). { assert (nth_error (firstn j es) k <> None) as N by congruence. apply nth_error_Some in N. pose proof (firstn_le_length j es). rewrite firstn_length in N. lia. }
    assert (E : nth_error es k = Some x).
    { rewrite <- (firstn_skipn j es). rewrite nth_error_app1; [exact Hk|]. apply nth_error_Some. congruence. }
    assert (KL : (k < length ls)%nat) by (rewrite <- L; apply nth_error_Some; congruence).
    destruct (nth_error ls k) as [l'|] eqn:El; [|apply nth_error_None in El; lia]. now exists k, l'. }
  split.
  - assert (0 <= Rsum (firstn i es)).
    { assert (P : List.Forall (fun x => 0 <= x) (firstn i es)).
      { apply List.Forall_forall. intros x Hx. destruct (AT i x Hx) as (k & l' & _ & Hk & Ek).
        pose proof (F l' (nth_error_In _ _ Hk)) as Sl'. apply (lost_nonneg _ _ _ _ _ _ _ Sl' (proj2 (proj2 Sl')) (E1 k l' x Hk Ek)). }
      clear - P. induction P as [|x xs Px _ IH]; [apply Rle_refl|]. unfold Rsum in *; cbn. lra. }
    pose proof (lost_nonneg _ _ _ _ _ _ _ (F l (nth_error_In _ _ Hl)) Z C). lra.
  - intros U. assert (NTH : forall k l', (k <= i)%nat -> nth_error ls k = Some l' -> limited_damping (damping l') 0).
    { intros k l' Hk Hl'. apply (proj1 (List.Forall_forall _ _) U). apply (nth_error_In _ k).
      rewrite <- (firstn_skipn (S i) ls) in Hl'. rewrite nth_error_app1 in Hl'; [exact Hl'|].
      rewrite firstn_length. assert (k < length ls)%nat. { apply nth_error_Some. rewrite <- (firstn_skipn (S i) ls). congruence. } lia. }
    rewrite (lost_none _ _ _ _ _ _ _ (NTH i l (le_n i) Hl) C).
    assert (P : List.Forall (fun x => x = 0) (firstn i es)).
    { apply List.Forall_forall. intros x Hx. destruct (AT i x Hx) as (k & l' & Hk & Hkl & Ek).
      apply (lost_none _ _ _ _ _ _ _ (NTH k l' ltac:(lia) Hkl) (E1 k l' x Hkl Ek)). }
    assert (Z0 : Rsum (firstn i es) = 0).
    { clear - P. induction P as [|x xs Px _ IH]; [reflexivity|]. unfold Rsum in *; cbn. rewrite Px, IH. ring. }
    rewrite Z0. ring.
Qed.

(** In a layer without damping the reflected wave carries the incoming energy less what
    is lost above. *)
Theorem reflected_energy w ls rs lin xin : 1e-8 < w -> List.Forall sound ls ->
  calc_waves_python w (map wlayer_of ls) = Ok rs ->
  wave_at_location rs lin = Ok (Some xin) -> xin <> RtoC 0 ->
  exists es, length es = length ls /\
  (forall i l q, nth_error ls i = Some l -> nth_error es i = Some q -> lost_in rs w lin i l (l_thick l) q) /\
  forall i l z, nth_error ls i = Some l -> limited_damping (damping l) 0 -> exists b a,
      calc_accel_tf rs lin (mkLoc i z IncomingOnly) = Ok (Some b) /\
  calc_accel_tf rs lin (mkLoc i z Within) = Ok (Some a) /\
  PI * w * impedance l * (GRAVITY / w ^ 2) ^ 2 * (Cnorm2 b - Cnorm2 (Cminus a b)) = Rsum (firstn i es).
Proof.
  intros W SND RUN IN NIN. destruct (balance_aux w ls rs lin xin W SND RUN IN NIN) as (es & L & E1 & E2).
  exists es. split; [exact L|]. split; [exact E1|]. intros i l z Hl D.
  destruct (lossless_work w ls rs lin xin W SND RUN IN NIN i l z Hl D) as (b & a & s & B & A & T & V).
  exists b, a. split; [exact B|]. split; [exact A|]. rewrite <- V.
  destruct (E2 i l Hl z) as (a' & s' & q & A' & T' & Q & V'). rewrite A in A'. injection A' as <-. rewrite T in T'. injection T' as <-.
  rewrite V', (lost_none _ _ _ _ _ _ _ D Q). ring.
Qed.
