(** The spread of varied soil types and the order of fixed percentiles: C35 (parameters), C38
    (constructor) and C119 to C121. *)
From Verif Require Import Common Model.Curve Model.Layer Model.Profile Model.Gauss Model.Variation
  Spec.ProfileSpec Spec.VariationSpec Proof.CommonFacts Proof.GaussFacts Proof.SoilVarProps.
From Coquelicot Require Import Coquelicot.
Local Open Scope R_scope.

(** * Percentiles *)
Lemma quantile_increases p p' a b q q' : a < b -> p < p' -> quantile p a b q -> quantile p' a b q' -> q < q'.
Proof.
  intros Hab Hp [H1 H2] [H3 H4]. pose proof (gauss_RInt_pos a b Hab) as HT.
  destruct (Rlt_le_dec q q') as [L|L]; [exact L|exfalso].
  assert (RInt gauss a q' <= RInt gauss a q).
  { destruct L as [L| ->]; [|lra]. rewrite <- (gauss_Chasles a q' q). pose proof (gauss_RInt_pos q' q L). lra. }
  generalize dependent (RInt gauss a b). intros T ? ? HT. nra.
Qed.

Theorem percentile_increases ppf limit correl p p' : is_ppf ppf -> 0 < limit -> 0 < p -> p < p' -> p' < 1 ->
  fst (correlated_at_percentile ppf limit correl p) < fst (correlated_at_percentile ppf limit correl p').
Proof.
  intros Hp Hl H0 Hlt H1. pose proof (tn_scale_gt_1 limit Hl) as Hs.
  pose proof (percentile_first ppf limit correl p Hp ltac:(lra) Hl) as Q. pose proof (percentile_first ppf limit correl p' Hp ltac:(lra) Hl) as Q'.
  cbv zeta in Q, Q'.
  assert (Hab : - limit / tn_scale limit < limit / tn_scale limit) by (apply Rmult_lt_compat_r; [apply Rinv_0_lt_compat; lra|lra]).
  pose proof (quantile_increases _ _ _ _ _ _ Hab Hlt Q Q') as L. unfold Rdiv in L.
  apply Rmult_lt_reg_r in L; [exact L|]. apply Rinv_0_lt_compat. lra.
Qed.

(** The second of the pair is the first times the factor, cut to the limits. *)
Lemma percentile_second ppf limit correl p : is_ppf ppf -> 0 < p < 1 -> 0 < limit ->
  let z := correlated_at_percentile ppf limit correl p in
  snd z = clip (second_factor correl * fst z) (- limit) limit.
Proof.
  intros Hp Hp1 Hl. cbv zeta. pose proof (tn_scale_gt_1 limit Hl) as Hs.
  assert (Hab : - limit / tn_scale limit < limit / tn_scale limit) by (apply Rmult_lt_compat_r; [apply Rinv_0_lt_compat; lra|lra]).
  pose proof (ppf_range ppf p _ _ Hp Hp1 Hab) as Hr.
  assert (E1 : tn_scale limit * (- limit / tn_scale limit) = - limit) by (field; lra).
  assert (E2 : tn_scale limit * (limit / tn_scale limit) = limit) by (field; lra).
  unfold correlated_at_percentile. cbn [fst snd]. rewrite (clip_id (tn_scale limit * _)).
  - f_equal. unfold second_factor. ring.
  - generalize dependent (ppf p (- limit / tn_scale limit) (limit / tn_scale limit)). intros q Hr. nra.
Qed.
Lemma factor_sign correl : -1 <= correl <= 1 -> (0 < second_factor correl <-> 0 <= correl \/ 2 * correl ^ 2 < 1) /\
  (second_factor correl < 0 <-> correl < 0 /\ 1 < 2 * correl ^ 2).
Proof.
  intros Hc. unfold second_factor. rewrite Rmax_left by nra. set (r := sqrt (1 - correl ^ 2)).
  assert (Hr : 0 <= r) by apply sqrt_pos. assert (Hr2 : r * r = 1 - correl ^ 2) by (apply sqrt_sqrt; nra).
  split; split.
  - intros H. destruct (Rle_lt_dec 0 correl) as [L|L]; [now left|right]. nra.
  - intros [H|H].
    + destruct H as [H|<-]; [lra|]. nra.
    + destruct (Rle_lt_dec 0 correl) as [L|L]; nra.
  - intros H. split; nra.
  - intros [H H2]. nra.
Qed.

(** The two deviations have the same sign unless the correlation is below minus the square
    root of one half. *)
Lemma above_median ppf limit correl p : is_ppf ppf -> 0 < limit -> 1 / 2 < p < 1 -> 0 < fst (correlated_at_percentile ppf limit correl p).
Proof.
  intros Hp Hl Hp1. pose proof (percentile_increases ppf limit correl (1 / 2) p Hp Hl ltac:(lra) ltac:(lra) ltac:(lra)) as H.
  rewrite (percentile_median ppf limit correl Hp Hl) in H. exact H.
Qed.
Theorem percentile_signs ppf limit correl p : is_ppf ppf -> 0 < limit -> 1 / 2 < p < 1 -> -1 <= correl <= 1 ->
  let z := correlated_at_percentile ppf limit correl p in
  0 < fst z /\ (0 < snd z <-> 0 <= correl \/ 2 * correl ^ 2 < 1) /\ (snd z < 0 <-> correl < 0 /\ 1 < 2 * correl ^ 2).
Proof.
  intros Hp Hl Hp1 Hc z. pose proof (above_median ppf limit correl p Hp Hl Hp1) as H1. fold z in H1.
  assert (H2 : snd z = clip (second_factor correl * fst z) (- limit) limit) by (apply percentile_second; [assumption|lra|assumption]).
  destruct (factor_sign correl Hc) as [F1 F2]. split; [exact H1|]. rewrite <- F1, <- F2, H2. generalize (second_factor correl). intros k.
  unfold clip, Rmin, Rmax. repeat destruct (Rle_dec _ _); split; split; intros H; nra.
Qed.
(** With the default correlation of -0.5 a stiffer percentile has a higher damping. *)
Theorem percentile_sign_refuted ppf p : is_ppf ppf -> 1 / 2 < p < 1 ->
  let z := correlated_at_percentile ppf rand_limit (-0.5) p in 0 < fst z /\ 0 < snd z.
Proof.
  intros Hp Hp1. destruct (percentile_signs ppf rand_limit (-0.5) p Hp ltac:(unfold rand_limit; lra) Hp1 ltac:(lra)) as (H1 & H2 & _).
  cbv zeta. split; [exact H1|]. apply H2. right. lra.
Qed.

(** * Order of the realisations *)
Lemma vary_mod_mono k z z' m x x' : spread_ok k -> 0 <= m <= 1 -> z <= z' ->
  vary_mod k z m = Some x -> vary_mod k z' m = Some x' -> x <= x'.
Proof.
  intros Hk Hm Hz. destruct k as [|sm sd]; cbn [vary_mod].
  - destruct (std_mod_some m Hm) as (s & -> & Hs). cbn [opt_bind]. intros E E'. injection E as <-. injection E' as <-. nra.
  - destruct Hk as [Hk _]. pose proof feps_pos as He. unfold div_opt. rewrite (proj2 (Reqb_false (1 - m + feps) 0)) by lra. cbn [opt_bind].
    set (f := m / (1 - m + feps)). assert (Hf : 0 <= f) by (apply Rmult_le_pos; [lra|left; apply Rinv_0_lt_compat; lra]).
    assert (HE : exp (z * (sm * (1 / (1 - 0.5)))) <= exp (z' * (sm * (1 / (1 - 0.5))))).
    { assert (L : z * (sm * (1 / (1 - 0.5))) <= z' * (sm * (1 / (1 - 0.5)))) by (replace (1 / (1 - 0.5)) with 2 by lra; nra).
      destruct L as [L| ->]; [left; now apply exp_increasing|lra]. }
    pose proof (exp_pos (z * (sm * (1 / (1 - 0.5))))) as P1. pose proof (exp_pos (z' * (sm * (1 / (1 - 0.5))))) as P2.
    set (a := exp (z * _) * f). set (b := exp (z' * _) * f). assert (Ha : 0 <= a) by (apply Rmult_le_pos; lra).
    assert (Hab : a <= b) by (apply Rmult_le_compat_r; assumption).
    rewrite (proj2 (Reqb_false (1 + a) 0)) by lra. rewrite (proj2 (Reqb_false (1 + b) 0)) by lra. intros E E'. injection E as <-. injection E' as <-.
    apply (Rmult_le_reg_r ((1 + a) * (1 + b))); [nra|]. replace (a / (1 + a) * ((1 + a) * (1 + b))) with (a * (1 + b)) by (field; lra).
    replace (b / (1 + b) * ((1 + a) * (1 + b))) with (b * (1 + a)) by (field; lra). nra.
Qed.
Lemma vary_damp_mono k z z' d x x' : spread_ok k -> 0 <= d -> z <= z' ->
  vary_damp k z d = Some x -> vary_damp k z' d = Some x' -> x <= x'.
Proof.
  intros Hk Hd Hz. destruct k as [|sm sd]; cbn [vary_damp].
  - destruct (std_damp_some d Hd) as (s & -> & Hs). cbn [opt_bind]. intros E E'. injection E as <-. injection E' as <-. nra.
  - destruct Hk as [_ Hk]. intros E E'. injection E as <-. injection E' as <-. apply Rmult_le_compat_r; [exact Hd|].
    assert (L : z * sd <= z' * sd) by nra. destruct L as [L| ->]; [left; now apply exp_increasing|lra].
Qed.
Lemma values_mono (f f' : R -> option R) (P : R -> Prop) lim vs : forall ys ys',
  (forall v x x', P v -> f v = Some x -> f' v = Some x' -> x <= x') -> List.Forall P vs ->
  Forall2 (fun v y => exists x, f v = Some x /\ y = clip x (fst lim) (snd lim)) vs ys ->
  Forall2 (fun v y => exists x, f' v = Some x /\ y = clip x (fst lim) (snd lim)) vs ys' -> Forall2 Rle ys ys'.
Proof.
  induction vs as [|v vs IH]; intros ys ys' Hf HP H H'; inversion H as [|? y ? ys0 (x & Ex & Ey) H0]; inversion H' as [|? y' ? ys0' (x' & Ex' & Ey') H0']; subst;
    constructor.
  - inversion HP; subst. apply clip_mono. now apply (Hf v).
  - inversion HP; subst. now apply IH.
Qed.

Theorem percentiles_order k lm ld ppf correl p p' id id' s : spread_ok k -> is_ppf ppf -> 0 < p -> p <= p' -> p' < 1 ->
  fst lm <= snd lm -> fst ld <= snd ld ->
  List.Forall (fun m => 0 <= m <= 1) (mod_values s) -> List.Forall (fun d => 0 <= d) (damping_values (s_damp s)) ->
  exists s1 s2, vary_soil k lm ld id (correlated_at_percentile ppf rand_limit correl p) s = Some s1 /\
    vary_soil k lm ld id' (correlated_at_percentile ppf rand_limit correl p') s = Some s2 /\
    Forall2 Rle (mod_values s1) (mod_values s2) /\
    (0 <= second_factor correl -> Forall2 Rle (damping_values (s_damp s1)) (damping_values (s_damp s2))) /\
    (second_factor correl <= 0 -> Forall2 Rle (damping_values (s_damp s2)) (damping_values (s_damp s1))).
Proof.
  intros Hk Hp H0 Hle H1 Hlm Hld Hm Hd.
  set (z := correlated_at_percentile ppf rand_limit correl p). set (z' := correlated_at_percentile ppf rand_limit correl p').
  assert (HL : 0 < rand_limit) by (unfold rand_limit; lra).
  assert (Z1 : fst z <= fst z').
  { destruct Hle as [L|E]; [left; now apply percentile_increases|]. unfold z, z'. rewrite E. lra. }
  assert (Z2 : snd z = clip (second_factor correl * fst z) (- rand_limit) rand_limit) by (apply percentile_second; [assumption|lra|assumption]).
  assert (Z2' : snd z' = clip (second_factor correl * fst z') (- rand_limit) rand_limit) by (apply percentile_second; [assumption|lra|assumption]).
  destruct (soil_variation k lm ld id z s Hlm Hld Hm Hd) as (s1 & E1 & _ & _ & _ & _ & _ & _ & _ & _ & _ & F1 & G1).
  destruct (soil_variation k lm ld id' z' s Hlm Hld Hm Hd) as (s2 & E2 & _ & _ & _ & _ & _ & _ & _ & _ & _ & F2 & G2).
  exists s1, s2. split; [exact E1|]. split; [exact E2|]. split; [|split].
  - eapply values_mono; [|exact Hm|exact F1|exact F2]. intros v x x' Hv Ex Ex'. exact (vary_mod_mono k _ _ v x x' Hk Hv Z1 Ex Ex').
  - intros Hs. eapply values_mono; [|exact Hd|exact G1|exact G2]. intros v x x' Hv Ex Ex'. refine (vary_damp_mono k _ _ v x x' Hk Hv _ Ex Ex').
    rewrite Z2, Z2'. apply clip_mono. nra.
  - intros Hs. eapply values_mono; [|exact Hd|exact G2|exact G1]. intros v x x' Hv Ex Ex'. refine (vary_damp_mono k _ _ v x x' Hk Hv _ Ex Ex').
    rewrite Z2, Z2'. apply clip_mono. nra.
Qed.

(** * The spread at one value *)
Theorem darendeli_mod_spread m : 0 <= m <= 1 -> exists s,
  (forall z, vary_mod Darendeli z m = Some (m + z * s)) /\
  s = exp (-4.23) + sqrt (m * (1 - m) / exp 3.62) /\
  exp (-4.23) <= s <= exp (-4.23) + exp (-1.81) / 2 /\
  (m = 0 \/ m = 1 -> s = exp (-4.23)) /\ (m = 0.5 -> s = exp (-4.23) + exp (-1.81) / 2).
Proof.
  intros Hm. pose proof (exp_pos 3.62) as He.
  assert (ES : 0.25 / exp 3.62 - (m - 0.5) ^ 2 / exp 3.62 = m * (1 - m) / exp 3.62).
  { unfold Rdiv. rewrite <- Rmult_minus_distr_r. f_equal. replace 0.25 with (1 / 4) by lra. replace 0.5 with (1 / 2) by lra. field. }
  assert (H0 : 0 <= m * (1 - m) / exp 3.62) by (apply Rmult_le_pos; [nra|left; now apply Rinv_0_lt_compat]).
  assert (HQ : sqrt (0.25 / exp 3.62) = exp (-1.81) / 2).
  { apply sqrt_lem_1; [left; apply Rdiv_lt_0_compat; lra|pose proof (exp_pos (-1.81)); lra|].
    replace (exp (-1.81) / 2 * (exp (-1.81) / 2)) with (0.25 * (exp (-1.81) * exp (-1.81))) by lra.
    rewrite <- exp_plus. replace (-1.81 + -1.81) with (Ropp 3.62) by lra. rewrite exp_Ropp. reflexivity. }
  assert (Hle : sqrt (m * (1 - m) / exp 3.62) <= exp (-1.81) / 2).
  { rewrite <- HQ. apply sqrt_le_1_alt. apply Rmult_le_compat_r; [left; now apply Rinv_0_lt_compat|]. pose proof (pow2_ge_0 (m - 1 / 2)). nra. }
  pose proof (sqrt_pos (m * (1 - m) / exp 3.62)) as Hs.
  exists (exp (-4.23) + sqrt (m * (1 - m) / exp 3.62)). split; [|split; [reflexivity|split; [lra|split]]].
  - intros z. cbn [vary_mod]. unfold darendeli_std_mod, sqrt_opt. rewrite ES, (proj2 (Rleb_true _ _) H0). reflexivity.
  - intros Hc. replace (m * (1 - m) / exp 3.62) with 0; [rewrite sqrt_0; ring|]. destruct Hc as [-> | ->]; unfold Rdiv; ring.
  - intros ->. rewrite <- HQ. do 2 f_equal. lra.
Qed.
Theorem darendeli_damp_spread d z : 0 <= d -> exists x, vary_damp Darendeli z d = Some x /\
  100 * x = 100 * d + z * (exp (-5) + exp (-0.25) * sqrt (100 * d)).
Proof.
  intros Hd. cbn [vary_damp]. unfold darendeli_std_damp, sqrt_opt. rewrite (proj2 (Rleb_true _ _)) by lra. cbn [opt_bind].
  eexists. split; [reflexivity|]. field.
Qed.
Theorem spid_spread sm sd z m : 0 <= m <= 1 -> exists x, vary_mod (Spid sm sd) z m = Some x /\ 0 <= x < 1 /\
  x / (1 - x) = exp (2 * sm * z) * (m / (1 - m + feps)).
Proof.
  intros Hm. pose proof feps_pos as He. cbn [vary_mod]. unfold div_opt. rewrite (proj2 (Reqb_false (1 - m + feps) 0)) by lra. cbn [opt_bind].
  set (f := exp _ * _). assert (0 <= f).
  { unfold f. apply Rmult_le_pos; [left; apply exp_pos|]. apply Rmult_le_pos; [lra|left; apply Rinv_0_lt_compat; lra]. }
  rewrite (proj2 (Reqb_false (1 + f) 0)) by lra. eexists. split; [reflexivity|].
  assert (E : f = exp (2 * sm * z) * (m / (1 - m + feps))).
  { unfold f. f_equal. f_equal. replace (1 / (1 - 0.5)) with 2 by lra. ring. }
  split; [|rewrite <- E; field; split; [lra|]; lra].
  split; [apply Rmult_le_pos; [assumption|left; apply Rinv_0_lt_compat; lra]|].
  apply (Rmult_lt_reg_r (1 + f)); [lra|]. unfold Rdiv. rewrite Rmult_assoc, Rinv_l by lra. lra.
Qed.
Theorem spid_damp_spread sm sd z d : 0 < d -> exists x, vary_damp (Spid sm sd) z d = Some x /\ 0 < x /\ ln x = ln d + z * sd.
Proof.
  intros Hd. eexists. split; [reflexivity|]. pose proof (exp_pos (z * sd)). split; [nra|]. rewrite ln_mult, ln_exp by assumption. ring.
Qed.

(** * The constructor and the choice of the pair *)
Theorem soil_var_new_checks k corr lm ld bedrock mode :
  ((exists v, soil_var_new k corr lm ld bedrock mode = Ok v) <->
   match mode with Random => True | FixedPercentiles ps => ps <> [] /\ List.Forall (fun p => 0 < p < 1) ps end) /\
  (forall v, soil_var_new k corr lm ld bedrock mode = Ok v -> v = mkSoilVar k corr lm ld bedrock mode) /\
  (forall e, soil_var_new k corr lm ld bedrock mode = Err e -> e = ValueError).
Proof.
  unfold soil_var_new. destruct mode as [|[|p ps]].
  - split; [split; [trivial|eauto]|]. split; [|discriminate]. intros v H. now injection H as <-.
  - split; [split; [intros [v H]; discriminate|intros [H _]; contradiction]|]. split; [discriminate|]. intros e H. now injection H as <-.
  - destruct (forallb (fun p => Rltb 0 p && Rltb p 1) (p :: ps)) eqn:E.
    + split; [split|split].
      * intros _. split; [discriminate|]. apply Forall_forall. intros x Hx. rewrite forallb_forall in E. specialize (E x Hx).
        apply andb_prop in E. destruct E as [E1 E2]. apply Rltb_true in E1, E2. lra.
      * eauto.
      * intros v H. now injection H as <-.
      * discriminate.
    + split; [split|split].
      * intros [v H]. discriminate.
      * intros [_ HF]. exfalso. rewrite (proj2 (forallb_forall _ _)) in E; [discriminate|]. intros x Hx. rewrite Forall_forall in HF. specialize (HF x Hx).
        apply andb_true_intro. split; apply Rltb_true; lra.
      * discriminate.
      * intros e H. now injection H as <-.
Qed.
Theorem soil_call_modes ppf v si id draw s :
  (sv_mode v = Random -> soil_call ppf v si id draw s = Ok (vary_soil (sv_kind v) (sv_lim_mod v) (sv_lim_damp v) id draw s)) /\
  (forall ps, sv_mode v = FixedPercentiles ps -> soil_call ppf v None id draw s = Err ValueError).
Proof. unfold soil_call, choose_pair. split; [intros ->; reflexivity|intros ps ->; reflexivity]. Qed.

(** * Toro's parameter table *)
Theorem toro_params_ok site_class m : toro_lookup site_class = Ok m -> toro_vel_ok m /\ 0 < tv_ln_std m.
Proof.
  unfold toro_lookup. destruct (find _ _) as [[k t]|] eqn:E; [|discriminate]. intros H. injection H as <-.
  apply find_some in E. destruct E as [E _]. unfold toro_vel_ok.
  repeat (destruct E as [E|E]; [injection E as <- <-; cbn; lra|]). destruct E.
Qed.

(** With the default correlation every realisation above the median is more damped than the
    median one, at every strain. *)
Theorem percentiles_damping_refuted lm ld ppf p id id' s : is_ppf ppf -> 1 / 2 < p < 1 ->
  fst lm <= snd lm -> fst ld <= snd ld ->
  List.Forall (fun m => 0 <= m <= 1) (mod_values s) -> List.Forall (fun d => 0 <= d /\ fst ld <= d < snd ld) (damping_values (s_damp s)) ->
  exists s1 s2, vary_soil Darendeli lm ld id (correlated_at_percentile ppf rand_limit (-0.5) (1 / 2)) s = Some s1 /\
    vary_soil Darendeli lm ld id' (correlated_at_percentile ppf rand_limit (-0.5) p) s = Some s2 /\
    Forall2 Rle (mod_values s1) (mod_values s2) /\ Forall2 Rlt (damping_values (s_damp s1)) (damping_values (s_damp s2)).
Proof.
  intros Hp Hp1 Hlm Hld Hm Hd.
  assert (Hd0 : List.Forall (fun d => 0 <= d) (damping_values (s_damp s))) by (eapply Forall_impl; [|exact Hd]; cbn; tauto).
  destruct (percentiles_order Darendeli lm ld ppf (-0.5) (1 / 2) p id id' s I Hp ltac:(lra) ltac:(lra) ltac:(lra) Hlm Hld Hm Hd0)
    as (s1 & s2 & E1 & E2 & HM & _). exists s1, s2. split; [exact E1|]. split; [exact E2|]. split; [exact HM|].
  destruct (soil_variation Darendeli lm ld id (correlated_at_percentile ppf rand_limit (-0.5) (1 / 2)) s Hlm Hld Hm Hd0) as (t1 & T1 & _ & _ & _ & _ & _ & _ & _ & _ & _ & _ & G1).
  rewrite E1 in T1. injection T1 as <-.
  destruct (soil_variation Darendeli lm ld id' (correlated_at_percentile ppf rand_limit (-0.5) p) s Hlm Hld Hm Hd0) as (t2 & T2 & _ & _ & _ & _ & _ & _ & _ & _ & _ & _ & G2).
  rewrite E2 in T2. injection T2 as <-.
  rewrite (percentile_median ppf rand_limit (-0.5) Hp ltac:(unfold rand_limit; lra)) in G1. cbn [snd] in G1.
  destruct (percentile_sign_refuted ppf p Hp Hp1) as [_ Hz]. revert G1 G2 Hz. generalize (snd (correlated_at_percentile ppf rand_limit (-0.5) p)).
  generalize (damping_values (s_damp s1)) (damping_values (s_damp s2)). clear - Hd. revert Hd. generalize (damping_values (s_damp s)).
  intros l Hl. induction Hl as [|d l [H0 Hd] _ IH]; intros ys ys' z H1 H2 Hz; inversion H1 as [|? y ? ys0 (x & Ex & Ey) H1']; inversion H2 as [|? y' ? ys0' (x' & Ex' & Ey') H2']; subst;
    constructor; [|now apply (IH ys0 ys0' z)].
  cbn [vary_damp] in Ex, Ex'. destruct (std_damp_some d H0) as (sd & Es & Hs). rewrite Es in Ex, Ex'. cbn [opt_bind] in Ex, Ex'.
  injection Ex as <-. injection Ex' as <-.
  assert (Hsd : 0 < z * sd) by nra.
  rewrite (clip_id (d + 0 * sd)) by lra. unfold clip, Rmin, Rmax. repeat destruct (Rle_dec _ _); lra.
Qed.
