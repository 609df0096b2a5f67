(** Properties C53 and C86: the two-parameter and the Alemu soil types. *)
From Coq Require Import String.
From Verif Require Import Common Model.Curve Model.Layer Model.SoilModels Spec.SoilModelSpec
  Proof.CommonFacts Proof.HyperbolicFacts Proof.HyperbolicProps.
Local Open Scope R_scope.

(** The power of a non-negative number, by a positive exponent. *)
Definition pw (x y : R) : R := if Rlt_dec 0 x then Rpower x y else 0.
Lemma pow_opt_pw x y : 0 <= x -> 0 < y -> pow_opt x y = Some (pw x y).
Proof.
  intros Hx Hy. unfold pw. destruct (Rlt_dec 0 x) as [H|H]; [now apply pow_opt_pos|].
  assert (x = 0) by lra. subst. now apply pow_opt_zero.
Qed.
Lemma pw_nonneg x y : 0 <= pw x y.
Proof. unfold pw. destruct (Rlt_dec 0 x); [left; apply Rpower_gt0|lra]. Qed.
Lemma pw_lt x y c : 0 < c -> 0 <= x < y -> pw x c < pw y c.
Proof.
  intros Hc H. unfold pw. destruct (Rlt_dec 0 y) as [Hy|]; [|lra]. destruct (Rlt_dec 0 x) as [Hx|]; [|apply Rpower_gt0].
  apply Rpower_lt_base; lra.
Qed.
Lemma pw_zero c : pw 0 c = 0.
Proof. unfold pw. destruct (Rlt_dec 0 0); [lra|reflexivity]. Qed.
Lemma div_nonneg x r : 0 < r -> 0 <= x -> 0 <= x / r.
Proof. intros Hr Hx. apply Rmult_le_pos; [exact Hx|]. left. now apply Rinv_0_lt_compat. Qed.

Lemma tp_mod_some ref a b s : 0 < ref -> 0 < a -> 0 <= s ->
  tp_mod ref a b s = Some (1 / Rpower (1 + pw (s / ref) a) b).
Proof.
  intros Hr Ha Hs. unfold tp_mod. rewrite div_opt_ne by lra. cbn [opt_bind].
  rewrite pow_opt_pw by (try assumption; now apply div_nonneg). cbn [opt_bind].
  pose proof (pw_nonneg (s / ref) a). rewrite pow_opt_pos by lra. cbn [opt_bind].
  apply div_opt_ne. apply Rgt_not_eq, Rpower_gt0.
Qed.
Lemma tp_mod_range ref a b s : 0 < ref -> 0 < a -> 0 < b -> 0 <= s -> 0 < the (tp_mod ref a b s) <= 1.
Proof.
  intros Hr Ha Hb Hs. rewrite tp_mod_some by assumption. cbn [the]. pose proof (pw_nonneg (s / ref) a).
  destruct (Req_dec (pw (s / ref) a) 0) as [E|N].
  - rewrite E, Rplus_0_r. unfold Rpower. rewrite ln_1, Rmult_0_r, exp_0. lra.
  - assert (1 < Rpower (1 + pw (s / ref) a) b) by (apply Rpower_gt1; lra). pose proof (inv_between _ H0). lra.
Qed.
Lemma tp_mod_falls ref a b s s' : 0 < ref -> 0 < a -> 0 < b -> 0 <= s < s' -> the (tp_mod ref a b s') < the (tp_mod ref a b s).
Proof.
  intros Hr Ha Hb Hs. rewrite !tp_mod_some by lra. cbn [the]. apply inv_lt. split; [apply Rpower_gt0|].
  pose proof (pw_nonneg (s / ref) a). apply Rpower_lt_base; [exact Hb|]. split; [lra|].
  assert (pw (s / ref) a < pw (s' / ref) a); [|lra]. apply pw_lt; [exact Ha|].
  split; [apply div_nonneg; lra|apply Rdiv_lt_compat; lra].
Qed.
Lemma tp_mod_zero ref a b : 0 < ref -> 0 < a -> tp_mod ref a b 0 = Some 1.
Proof.
  intros Hr Ha. rewrite tp_mod_some by lra. f_equal. replace (0 / ref) with 0 by (field; lra). rewrite pw_zero, Rplus_0_r.
  unfold Rpower. rewrite ln_1, Rmult_0_r, exp_0. field.
Qed.

Lemma tp_damping_some ref c d dm s : 0 < ref -> 0 < c -> 0 <= s ->
  tp_damping ref c d dm s = Some ((d * pw (s / ref) c + dm) / (pw (s / ref) c + 1) / 100).
Proof.
  intros Hr Hc Hs. unfold tp_damping. rewrite div_opt_ne by lra. cbn [opt_bind].
  rewrite pow_opt_pw by (try assumption; now apply div_nonneg). cbn [opt_bind].
  pose proof (pw_nonneg (s / ref) c). rewrite div_opt_ne by lra. reflexivity.
Qed.

(** [(d t + m) / (t + 1)] is the weighted mean of [d] and [m]. *)
Lemma mean_form d m t : 0 <= t -> (d * t + m) / (t + 1) = m + (d - m) * (1 - 1 / (t + 1)).
Proof. intros H. field. lra. Qed.
Lemma mean_weight t : 0 <= t -> 0 <= 1 - 1 / (t + 1) < 1.
Proof.
  intros H. assert (0 < 1 / (t + 1)) by (apply Rdiv_lt_0_compat; lra).
  assert (1 / (t + 1) <= 1); [|lra]. apply (Rmult_le_reg_r (t + 1)); [lra|]. unfold Rdiv. rewrite Rmult_assoc, Rinv_l by lra. lra.
Qed.

Lemma tp_damping_between ref c d dm s : 0 < ref -> 0 < c -> 0 <= s ->
  Rmin d dm / 100 <= the (tp_damping ref c d dm s) <= Rmax d dm / 100.
Proof.
  intros Hr Hc Hs. rewrite tp_damping_some by assumption. cbn [the]. pose proof (pw_nonneg (s / ref) c) as Hp.
  rewrite mean_form by exact Hp. pose proof (mean_weight _ Hp) as Hw. set (w := 1 - _) in *. clearbody w.
  unfold Rmin, Rmax. destruct (Rle_dec d dm); split; nra.
Qed.
Lemma tp_damping_order ref c d dm s s' : 0 < ref -> 0 < c -> 0 <= s < s' ->
  (dm < d -> the (tp_damping ref c d dm s) < the (tp_damping ref c d dm s')) /\
  (d < dm -> the (tp_damping ref c d dm s') < the (tp_damping ref c d dm s)).
Proof.
  intros Hr Hc Hs. rewrite !tp_damping_some by lra. cbn [the].
  assert (L : pw (s / ref) c < pw (s' / ref) c).
  { apply pw_lt; [exact Hc|]. split; [apply div_nonneg; lra|apply Rdiv_lt_compat; lra]. }
  pose proof (pw_nonneg (s / ref) c). rewrite !mean_form by lra.
  assert (K : 1 / (pw (s' / ref) c + 1) < 1 / (pw (s / ref) c + 1)) by (apply inv_lt; lra).
  revert K. generalize (1 / (pw (s' / ref) c + 1)), (1 / (pw (s / ref) c + 1)). intros x y K. split; intros; nra.
Qed.
Lemma tp_damping_zero ref c d dm : 0 < ref -> 0 < c -> tp_damping ref c d dm 0 = Some (dm / 100).
Proof.
  intros Hr Hc. rewrite tp_damping_some by lra. replace (0 / ref) with 0 by (field; lra). rewrite pw_zero. f_equal. field.
Qed.

(** C53 *)
Lemma two_param_shape k p ss : 0 < tp_a k -> 0 < tp_g1 k -> 0 < tp_c k -> 0 < tp_gd1 k -> 0 < p ->
  0 < tp_b k (p * KPA_TO_ATM) -> List.Forall (fun s => 0 <= s) ss ->
  exists ms ds dm, two_param_values k p ss = Some (ms, ds) /\ tp_d_min k (p * KPA_TO_ATM) = Some dm /\
    length ms = length ss /\ length ds = length ss /\
    List.Forall (fun m => 0 < m <= 1) ms /\ falls ss ms /\
    (forall i m, nth_error ss i = Some 0 -> nth_error ms i = Some m -> m = 1) /\
    List.Forall (fun d => Rmin (tp_d k) dm / 100 <= d <= Rmax (tp_d k) dm / 100) ds /\
    (dm < tp_d k -> rises ss ds) /\ (tp_d k < dm -> falls ss ds) /\
    (forall i d, nth_error ss i = Some 0 -> nth_error ds i = Some d -> d = dm / 100).
Proof.
  intros Ha Hg Hc Hgd Hp Hb Hs. rewrite Forall_forall in Hs. pose proof (atm_pos p Hp) as Hat.
  unfold two_param_values, tp_strain_mr, tp_d_min, tp_strain_dr. set (atm := p * KPA_TO_ATM) in *.
  rewrite !pow_opt_pos by exact Hat. cbn [opt_bind].
  set (mr := tp_g1 k * Rpower atm (tp_g2 k) / 100). set (dr := tp_gd1 k * Rpower atm (tp_gd2 k) / 100).
  set (dm := tp_d0 k * Rpower atm (tp_d1 k)).
  assert (Hmr : 0 < mr) by (apply Rdiv_lt_0_compat; [apply Rmult_lt_0_compat; [exact Hg|apply Rpower_gt0]|lra]).
  assert (Hdr : 0 < dr) by (apply Rdiv_lt_0_compat; [apply Rmult_lt_0_compat; [exact Hgd|apply Rpower_gt0]|lra]).
  rewrite (map_opt_map _ (fun s => the (tp_mod mr (tp_a k) (tp_b k atm) s))).
  2:{ apply Forall_forall. intros s H. rewrite tp_mod_some by (auto; now apply Hs). reflexivity. }
  cbn [opt_bind]. rewrite (map_opt_map _ (fun s => the (tp_damping dr (tp_c k) (tp_d k) dm s))).
  2:{ apply Forall_forall. intros s H. rewrite tp_damping_some by (auto; now apply Hs). reflexivity. }
  cbn [opt_bind]. do 3 eexists. split; [reflexivity|]. split; [reflexivity|]. split; [apply map_length|]. split; [apply map_length|].
  split. { apply Forall_forall. intros m H. apply in_map_iff in H as (s & <- & H). apply tp_mod_range; auto. }
  split. { apply falls_map. intros s s' H H' L. apply tp_mod_falls; auto. }
  split. { intros i m H E. apply nth_map_inv in E as (s & E & ->). assert (s = 0) by congruence. subst. now rewrite tp_mod_zero. }
  split. { apply Forall_forall. intros d H. apply in_map_iff in H as (s & <- & H). apply tp_damping_between; auto. }
  split. { intros L. apply rises_map. intros s s' H H' L'.
    destruct (tp_damping_order dr (tp_c k) (tp_d k) dm s s') as [A B]; auto. }
  split. { intros L. apply falls_map. intros s s' H H' L'.
    destruct (tp_damping_order dr (tp_c k) (tp_d k) dm s s') as [A B]; auto. }
  intros i d H E. apply nth_map_inv in E as (s & E & ->). assert (s = 0) by congruence. subst. now rewrite tp_damping_zero.
Qed.

(** The default coefficients, below 62 atmospheres. *)
Lemma two_param_default_range p : 0 < p -> p * KPA_TO_ATM <= 62 ->
  0 < tp_a two_param_default /\ 0 < tp_g1 two_param_default /\ 0 < tp_c two_param_default /\ 0 < tp_gd1 two_param_default /\
  0 < tp_b two_param_default (p * KPA_TO_ATM).
Proof. intros H1 H2. unfold tp_b, two_param_default. cbn [tp_a tp_g1 tp_c tp_gd1 tp_b1 tp_b2]. repeat split; lra. Qed.

(** Beyond, modulus reduction is above 1. *)
Lemma two_param_default_grows p s : 63 <= p * KPA_TO_ATM -> 0 < s ->
  exists m d, two_param_values two_param_default p [s] = Some ([m], [d]) /\ 1 < m.
Proof.
  intros Hp Hs. unfold two_param_values, tp_strain_mr, tp_d_min, tp_strain_dr. set (atm := p * KPA_TO_ATM) in *.
  rewrite !pow_opt_pos by lra. cbn [opt_bind].
  set (mr := tp_g1 two_param_default * Rpower atm (tp_g2 two_param_default) / 100).
  set (dr := tp_gd1 two_param_default * Rpower atm (tp_gd2 two_param_default) / 100).
  assert (Hmr : 0 < mr) by (apply Rdiv_lt_0_compat; [apply Rmult_lt_0_compat; [cbn; lra|apply Rpower_gt0]|lra]).
  assert (Hdr : 0 < dr) by (apply Rdiv_lt_0_compat; [apply Rmult_lt_0_compat; [cbn; lra|apply Rpower_gt0]|lra]).
  cbn [map_opt]. rewrite tp_mod_some by (first [assumption|lra|cbn; lra]). cbn [opt_bind].
  rewrite tp_damping_some by (first [assumption|lra|cbn; lra]). cbn [opt_bind]. do 2 eexists. split; [reflexivity|].
  set (y := pw _ _). assert (Hy : 0 < y).
  { unfold y, pw. assert (0 < s / mr) by (apply Rdiv_lt_0_compat; assumption). destruct (Rlt_dec 0 (s / mr)); [apply Rpower_gt0|contradiction]. }
  assert (Hb : tp_b two_param_default atm < 0) by (unfold tp_b; cbn; lra).
  assert (R1 : 0 < Rpower (1 + y) (tp_b two_param_default atm) < 1).
  { split; [apply Rpower_gt0|]. unfold Rpower. apply Rlt_le_trans with (exp 0); [apply exp_increasing|rewrite exp_0; lra].
    assert (0 < ln (1 + y)) by (rewrite <- ln_1 at 1; apply ln_increasing; lra).
    revert Hb. generalize (tp_b two_param_default atm). intros b Hb. nra. }
  revert R1. generalize (Rpower (1 + y) (tp_b two_param_default atm)). intros r R1. apply (Rmult_lt_reg_r r); [lra|]. unfold Rdiv. rewrite Rmult_assoc, Rinv_l by lra. lra.
Qed.

(** ** Alemu *)

(** [q / (1 + q)^k] increases for [k < 1]. *)
Lemma ln_quot x y : 0 < x -> 0 < y -> ln (x / y) = ln x - ln y.
Proof. intros Hx Hy. unfold Rdiv. rewrite ln_mult, ln_Rinv; [ring|exact Hy|exact Hx|now apply Rinv_0_lt_compat]. Qed.
Lemma ratio_form x k : 0 < x -> x / Rpower (1 + x) k = exp (ln x - k * ln (1 + x)).
Proof.
  intros Hx. unfold Rpower. unfold Rminus. rewrite exp_plus, exp_Ropp, exp_ln by exact Hx. reflexivity.
Qed.
Lemma ratio_rises q q' k : 0 < k < 1 -> 0 <= q < q' -> q / Rpower (1 + q) k < q' / Rpower (1 + q') k.
Proof.
  intros Hk [H0 H]. destruct (Req_dec q 0) as [->|N].
  - unfold Rdiv at 1. rewrite Rmult_0_l. apply Rdiv_lt_0_compat; [lra|apply Rpower_gt0].
  - rewrite !ratio_form by lra. apply exp_increasing.
    (* [ln (1 + q') - ln (1 + q) < ln q' - ln q] *)
    assert (A : ln (1 + q') - ln (1 + q) < ln q' - ln q).
    { assert (E1 : ln (1 + q') - ln (1 + q) = ln ((1 + q') / (1 + q))) by (rewrite ln_quot by lra; reflexivity).
      assert (E2 : ln q' - ln q = ln (q' / q)) by (rewrite ln_quot by lra; reflexivity).
      rewrite E1, E2. apply ln_increasing; [apply Rdiv_lt_0_compat; lra|].
      apply (Rmult_lt_reg_r (q * (1 + q))); [apply Rmult_lt_0_compat; lra|].
      replace ((1 + q') / (1 + q) * (q * (1 + q))) with ((1 + q') * q) by (field; lra).
      replace (q' / q * (q * (1 + q))) with (q' * (1 + q)) by (field; lra). lra. }
    assert (B : 0 < ln (1 + q') - ln (1 + q)) by (assert (ln (1 + q) < ln (1 + q')) by (apply ln_increasing; lra); lra).
    nra.
Qed.

(** C86 *)
Lemma alemu_shape m ss : 0 <= al_pi m -> 0 < al_ocr m -> 0 < al_stress m -> 0 <= al_fines m ->
  List.Forall (fun s => 0 <= s) ss ->
  exists ms ds dm, alemu_values m ss = Some (ms, ds) /\ alemu_d_min m = Some dm /\ 0 < dm /\
    length ms = length ss /\ length ds = length ss /\
    List.Forall (fun v => 0 < v <= 1) ms /\ falls ss ms /\
    List.Forall (fun d => dm <= d) ds /\ rises ss ds /\
    (forall i v, nth_error ss i = Some 0 -> nth_error ms i = Some v -> v = 1) /\
    (forall i d, nth_error ss i = Some 0 -> nth_error ds i = Some d -> d = dm).
Proof.
  intros Hpi Ho Hst Hf Hs. rewrite Forall_forall in Hs. pose proof (atm_pos _ Hst) as Hat.
  unfold alemu_values, alemu_gamma_mr, alemu_gamma_d, alemu_d_min. set (atm := al_stress m * KPA_TO_ATM) in *.
  rewrite !(pow_opt_pos (al_ocr m)) by exact Ho. rewrite !(pow_opt_pos atm) by exact Hat. rewrite (pow_opt_pos (al_pi m + 1)) by lra.
  cbn [opt_bind]. set (gm := (_ + _) / 100).
  set (o := Rpower (al_ocr m) (-0.381)). set (st := Rpower atm 0.853).
  assert (Hgm : 0 < gm).
  { unfold gm. pose proof (Rpower_gt0 (al_ocr m) (-1.678)). pose proof (Rpower_gt0 atm 0.196). pose proof (Rpower_gt0 (al_pi m + 1) 0.675).
    assert (0 < Rpower (al_ocr m) (-1.678) * Rpower atm 0.196) by (apply Rmult_lt_0_compat; assumption).
    apply Rdiv_lt_0_compat; lra. }
  assert (Hos : 0 < o * st) by (apply Rmult_lt_0_compat; apply Rpower_gt0).
  assert (Hg0 : 0 < o * st + 0.021 * al_pi m) by lra. rewrite (pow_opt_pos _ 1.249 Hg0). cbn [opt_bind].
  set (gd := Rpower (o * st + 0.021 * al_pi m) 1.249 / 100).
  assert (Hgd : 0 < gd) by (apply Rdiv_lt_0_compat; [apply Rpower_gt0|lra]).
  rewrite (map_opt_map _ (fun s => the (tp_mod gm 0.905 1.373 s))).
  2:{ apply Forall_forall. intros s H. rewrite tp_mod_some by (try lra; auto; now apply Hs). reflexivity. }
  cbn [opt_bind]. rewrite div_opt_ne by lra. cbn [opt_bind].
  set (dm := _ / atm).
  assert (Hdm : 0 < dm).
  { apply Rdiv_lt_0_compat; [|exact Hat]. assert (0 < al_ocr m * (al_pi m + 1)) by (apply Rmult_lt_0_compat; lra). lra. }
  assert (Ed : forall s, 0 <= s -> alemu_damping dm gd s = Some (dm + 29.805 / 100 * (s / gd / Rpower (1 + s / gd) 0.680))).
  { intros s H. unfold alemu_damping. rewrite div_opt_ne by lra. cbn [opt_bind].
    pose proof (div_nonneg s gd Hgd H). rewrite pow_opt_pos by lra. cbn [opt_bind].
    rewrite div_opt_ne by (apply Rgt_not_eq, Rpower_gt0). cbn [opt_bind]. f_equal. f_equal. unfold Rdiv. ring. }
  rewrite (map_opt_map _ (fun s => dm + 29.805 / 100 * (s / gd / Rpower (1 + s / gd) 0.680))).
  2:{ apply Forall_forall. intros s H. apply Ed. now apply Hs. }
  cbn [opt_bind]. do 3 eexists. split; [reflexivity|]. split; [reflexivity|]. split; [exact Hdm|].
  split; [apply map_length|]. split; [apply map_length|].
  split. { apply Forall_forall. intros v H. apply in_map_iff in H as (s & <- & H). apply tp_mod_range; try lra. auto. }
  split. { apply falls_map. intros s s' H H' L. apply tp_mod_falls; try lra. auto. }
  split.
  { apply Forall_forall. intros d H. apply in_map_iff in H as (s & <- & H).
    assert (0 <= s / gd / Rpower (1 + s / gd) 0.680).
    { apply div_nonneg; [apply Rpower_gt0|]. apply div_nonneg; auto. } lra. }
  split.
  { apply rises_map. intros s s' H H' L.
    assert (s / gd / Rpower (1 + s / gd) 0.680 < s' / gd / Rpower (1 + s' / gd) 0.680); [|lra].
    apply ratio_rises; [lra|]. split; [apply div_nonneg; auto|]. apply Rdiv_lt_compat; lra. }
  split.
  { intros i v H E. apply nth_map_inv in E as (s & E & ->). assert (s = 0) by congruence. subst. rewrite tp_mod_zero by lra. reflexivity. }
  intros i d H E. apply nth_map_inv in E as (s & E & ->). assert (s = 0) by congruence. subst.
  unfold Rdiv. rewrite !Rmult_0_l. lra.
Qed.
