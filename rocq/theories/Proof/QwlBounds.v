(** Bounds and monotonicity of the quarter-wavelength amplification. *)
From Verif Require Import Common Model.Curve Model.Layer Model.Qwl Spec.StepSpec Spec.QwlSpec
  Proof.CommonFacts Proof.StepFacts Proof.QwlFacts Proof.QwlProps.
From Coquelicot Require Import Coquelicot.
Local Open Scope R_scope.

Lemma mean_bounds thickness prop lo hi d : site_property thickness prop -> 0 < d ->
  List.Forall (fun p => lo <= p <= hi) prop -> lo <= mean_to (combine thickness prop) d <= hi.
Proof.
  intros Hp Hd Hb. pose proof (trapz_mean thickness prop d Hp Hd) as [E _]. destruct Hp as (HL & Hne & Ht & _).
  destruct (trapz_is_average thickness prop d HL Hne Ht Hd) as (v & Ev & _ & B). rewrite E in Ev. injection Ev as ->. now apply B.
Qed.

Lemma ratio_mono rn sn r s r' s' : 0 < rn -> 0 < sn -> 0 < r -> 0 < s -> r <= r' -> s' <= s -> 0 < s' ->
  impedance_ratio rn sn r' s' <= impedance_ratio rn sn r s.
Proof.
  intros Hrn Hsn Hr Hs H1 H2 Hs'. unfold impedance_ratio.
  assert (0 < r') by lra.
  replace (rn / sn / (r' / s')) with ((rn / sn) * (s' * / r')) by (field; repeat split; lra).
  replace (rn / sn / (r / s)) with ((rn / sn) * (s * / r)) by (field; repeat split; lra).
  apply Rmult_le_compat_l; [left; apply Rdiv_lt_0_compat; assumption|].
  apply Rmult_le_compat; [lra|left; now apply Rinv_0_lt_compat|exact H2|now apply Rinv_le_contravar].
Qed.

(** What a successful calculation returned. *)
Lemma amp_values thickness slowness density atten fs rho_n s_n amps terms :
  site_property thickness slowness -> site_property thickness density ->
  last_opt density = Some rho_n -> last_opt slowness = Some s_n -> List.Forall (fun f => 0 < f) fs ->
  calc_amp Standard atten fs density thickness slowness = Ok (amps, terms) ->
  exists k, let amp f := sqrt (impedance_ratio rho_n s_n (mean_to (combine thickness density) (depth_after thickness slowness f (S k)))
                                                  (mean_to (combine thickness slowness) (depth_after thickness slowness f k))) in
  amps = map (fun f => Some (amp f)) fs /\
  terms = map (fun f => Some (amp f * exp (- PI * match atten with Some a => a | None => 0 end * f))) fs.
Proof.
  intros Hs Hd Er Es Hf H. destruct (amp_characterised thickness slowness density atten fs rho_n s_n Hs Hd Er Es Hf) as [(k & _ & _ & _ & E & _)|[_ E]].
  - cbv zeta in E. rewrite E in H. injection H as <- <-. exists k. split; reflexivity.
  - congruence.
Qed.

(** C141: bounds from the impedances. *)
Theorem amp_bounds thickness slowness density atten fs rho_n s_n amps terms s_lo s_hi r_lo r_hi :
  site_property thickness slowness -> site_property thickness density ->
  last_opt density = Some rho_n -> last_opt slowness = Some s_n -> List.Forall (fun f => 0 < f) fs ->
  0 < s_lo -> 0 < r_lo -> List.Forall (fun s => s_lo <= s <= s_hi) slowness -> List.Forall (fun r => r_lo <= r <= r_hi) density ->
  calc_amp Standard atten fs density thickness slowness = Ok (amps, terms) ->
  List.Forall (fun o => exists a, o = Some a /\
    sqrt (impedance_ratio rho_n s_n r_hi s_lo) <= a <= sqrt (impedance_ratio rho_n s_n r_lo s_hi)) amps.
Proof.
  intros Hs Hd Er Es Hf Ls Lr Bs Br H. destruct (amp_values _ _ _ _ _ _ _ _ _ Hs Hd Er Es Hf H) as (k & -> & _).
  apply Forall_forall. intros o Ho. apply in_map_iff in Ho. destruct Ho as (f & <- & Hin). rewrite Forall_forall in Hf. pose proof (Hf f Hin) as Pf.
  eexists. split; [reflexivity|].
  pose proof (depth_after_pos thickness slowness Hs f k Pf) as P1. pose proof (depth_after_pos thickness slowness Hs f (S k) Pf) as P2.
  pose proof (mean_bounds _ _ _ _ _ Hs P1 Bs) as [A1 A2]. pose proof (mean_bounds _ _ _ _ _ Hd P2 Br) as [B1 B2].
  assert (Hlast : forall p v, site_property thickness p -> last_opt p = Some v -> 0 < v).
  { intros p v (_ & _ & _ & Hp) Hv. rewrite Forall_forall in Hp. apply Hp. now apply last_opt_In. }
  pose proof (Hlast density rho_n Hd Er) as Hrn. pose proof (Hlast slowness s_n Hs Es) as Hsn.
  split; apply sqrt_le_1_alt; apply ratio_mono; lra.
Qed.
Lemma ratio_self rn sn : 0 < rn -> 0 < sn -> impedance_ratio rn sn rn sn = 1.
Proof. intros H1 H2. unfold impedance_ratio. field. split; lra. Qed.

(** Means of values sorted with depth. *)
Lemma falling_all x xs : falling (x :: xs) -> List.Forall (fun y => y <= x) (x :: xs).
Proof.
  revert x. induction xs as [|y xs IH]; intros x H; [constructor; [lra|constructor]|]. destruct H as [H1 H2].
  constructor; [lra|]. eapply Forall_impl; [|exact (IH y H2)]. cbn. intros; lra.
Qed.
Lemma falling_last x xs v : falling (x :: xs) -> last_opt (x :: xs) = Some v -> List.Forall (fun y => v <= y) (x :: xs).
Proof.
  revert x. induction xs as [|y xs IH]; intros x H E; [cbn in E; injection E as ->; constructor; [lra|constructor]|]. destruct H as [H1 H2].
  pose proof (IH y H2 E) as F. constructor; [|exact F]. inversion F; subst. lra.
Qed.
Lemma step_int_upper l v : l <> nil -> List.Forall (fun p => 0 <= fst p) l -> List.Forall (fun p => snd p <= v) l ->
  forall d, 0 <= d -> step_int l d <= d * v.
Proof.
  induction l as [|[t u] l IH]; intros Hne Ht Hv d Hd; [contradiction|]. inversion Ht; inversion Hv; subst. cbn [fst snd] in *.
  destruct l as [|p l]; [cbn; nra|]. rewrite step_int_cons. destruct (Rle_dec d t); [nra|].
  assert (step_int (p :: l) (d - t) <= (d - t) * v) by (apply IH; [discriminate|assumption|assumption|lra]). nra.
Qed.
Lemma falling_tangent l : l <> nil -> List.Forall (fun p => 0 <= fst p) l -> falling (map snd l) ->
  forall d1 d2, 0 <= d1 <= d2 -> exists m, m <= hd 0 (map snd l) /\ d1 * m <= step_int l d1 /\ step_int l d2 - step_int l d1 <= m * (d2 - d1).
Proof.
  induction l as [|[t u] l IH]; intros Hne Ht Hf d1 d2 Hd; [contradiction|]. inversion Ht as [|? ? T1 T2]; subst. cbn [fst] in T1.
  destruct l as [|[t' u'] l]; [exists u; cbn; lra|]. cbn [map snd hd] in Hf |- *. destruct Hf as [F1 F2]. change (u' :: map snd l) with (map snd ((t', u') :: l)) in F2.
  rewrite !step_int_cons. destruct (Rle_dec d1 t) as [L1|L1], (Rle_dec d2 t) as [L2|L2]; try lra.
  - exists u. nra.
  - exists u. assert (FA : List.Forall (fun p : R * R => snd p <= u) ((t', u') :: l)).
    { apply (proj1 (Forall_map snd (fun y => y <= u) ((t', u') :: l))). cbn [map snd] in F2 |- *. eapply Forall_impl; [|exact (falling_all _ _ F2)]. cbn. intros; lra. }
    assert (B : step_int ((t', u') :: l) (d2 - t) <= (d2 - t) * u) by (apply step_int_upper; [discriminate|exact T2|exact FA|lra]). nra.
  - destruct (IH ltac:(discriminate) T2 F2 (d1 - t) (d2 - t) ltac:(lra)) as (m & M1 & M2 & M3). cbn [map snd hd] in M1. exists m. nra.
Qed.
Lemma falling_mean thickness prop d1 d2 : site_property thickness prop -> falling prop -> 0 < d1 <= d2 ->
  mean_to (combine thickness prop) d2 <= mean_to (combine thickness prop) d1.
Proof.
  intros Hp Hf Hd. rewrite !mean_to_step by (try assumption; lra). pose proof Hp as (HL & Hne & Ht & _).
  assert (Em : map snd (combine thickness prop) = prop).
  { clear -HL. revert thickness HL. induction prop as [|x xs IH]; intros [|t ts] H; try discriminate; [reflexivity|]. cbn. f_equal. apply IH. now injection H. }
  destruct (falling_tangent (combine thickness prop) (combine_ne _ _ HL Hne) (combine_fst _ _ (fun t => 0 <= t) Ht) ltac:(rewrite Em; exact Hf) d1 d2 ltac:(lra)) as (m & _ & M2 & M3).
  set (A := step_int (combine thickness prop) d1) in *. set (B := step_int (combine thickness prop) d2) in *.
  apply (Rmult_le_reg_r (d1 * d2)); [nra|]. replace (B / d2 * (d1 * d2)) with (B * d1) by (field; lra). replace (A / d1 * (d1 * d2)) with (A * d2) by (field; lra). nra.
Qed.

Lemma rising_falling xs : rising xs <-> falling (map Ropp xs).
Proof.
  induction xs as [|x xs IH]; [reflexivity|]. destruct xs as [|y xs]; [reflexivity|]. cbn [map rising falling] in *. split; intros [H1 H2]; (split; [lra|now apply IH]).
Qed.
Lemma rising_last x xs v : rising (x :: xs) -> last_opt (x :: xs) = Some v -> List.Forall (fun y => y <= v) (x :: xs).
Proof.
  revert x. induction xs as [|y xs IH]; intros x H E; [cbn in E; injection E as ->; constructor; [lra|constructor]|]. destruct H as [H1 H2].
  pose proof (IH y H2 E) as F. constructor; [|exact F]. inversion F; subst. lra.
Qed.
Lemma step_int_opp l d : step_int (map (fun p => (fst p, - snd p)) l) d = - step_int l d.
Proof.
  pose proof (step_int_scal (-1) l d) as H. replace (- step_int l d) with (-1 * step_int l d) by ring. rewrite <- H. f_equal. apply map_ext. intros p. f_equal. ring.
Qed.
Lemma rising_mean thickness prop d1 d2 : site_property thickness prop -> rising prop -> 0 < d1 <= d2 ->
  mean_to (combine thickness prop) d1 <= mean_to (combine thickness prop) d2.
Proof.
  intros Hp Hf Hd. rewrite !mean_to_step by (try assumption; lra). pose proof Hp as (HL & Hne & Ht & _).
  set (l := map (fun p => (fst p, - snd p)) (combine thickness prop)).
  assert (Em : map snd l = map Ropp prop).
  { unfold l. rewrite map_map. cbn [snd]. clear -HL. revert thickness HL. induction prop as [|x xs IH]; intros [|t ts] H; try discriminate; [reflexivity|]. cbn. f_equal. apply IH. now injection H. }
  assert (Hl : l <> nil) by (unfold l; pose proof (combine_ne _ _ HL Hne); destruct (combine thickness prop); [contradiction|discriminate]).
  assert (Hfst : List.Forall (fun p => 0 <= fst p) l).
  { unfold l. apply (proj2 (Forall_map _ _ _)). cbn [fst]. exact (combine_fst _ _ (fun t => 0 <= t) Ht). }
  destruct (falling_tangent l Hl Hfst ltac:(rewrite Em; now apply rising_falling) d1 d2 ltac:(lra)) as (m & _ & M2 & M3).
  unfold l in M2, M3. rewrite (step_int_opp _ d1) in M2. rewrite (step_int_opp _ d1), (step_int_opp _ d2) in M3. set (A := step_int (combine thickness prop) d1) in *. set (B := step_int (combine thickness prop) d2) in *.
  apply (Rmult_le_reg_r (d1 * d2)); [nra|]. replace (B / d2 * (d1 * d2)) with (B * d1) by (field; lra). replace (A / d1 * (d1 * d2)) with (A * d2) by (field; lra).
  assert (Y1 : 0 <= (- A - d1 * m) * (d2 - d1)) by (apply Rmult_le_pos; lra). assert (Y2 : 0 <= (m * (d2 - d1) + B - A) * d1) by (apply Rmult_le_pos; lra). nra.
Qed.

Lemma depth_mono thickness slowness f1 f2 : site_property thickness slowness -> falling slowness -> 0 < f1 <= f2 ->
  forall k, depth_after thickness slowness f2 k <= depth_after thickness slowness f1 k.
Proof.
  intros Hs Hf Hff k. assert (P : forall f k, 0 < f -> 0 < depth_after thickness slowness f k) by (intros; now apply depth_after_pos).
  assert (INV : forall m1 m2, 0 < m1 <= m2 -> 1 / (4 * m2 * f2) <= 1 / (4 * m1 * f1)).
  { intros m1 m2 Hm. unfold Rdiv. rewrite !Rmult_1_l. apply Rinv_le_contravar; [nra|]. assert (m1 * f1 <= m2 * f2) by nra. nra. }
  induction k as [|k IH].
  - unfold depth_after. cbn [Nat.iter nat_rect]. apply INV. pose proof (average_pos thickness slowness Hs). lra.
  - change (refine (combine thickness slowness) f2 (depth_after thickness slowness f2 k) <= refine (combine thickness slowness) f1 (depth_after thickness slowness f1 k)).
    pose proof (P f1 k ltac:(lra)) as P1. pose proof (P f2 k ltac:(lra)) as P2.
    pose proof (falling_mean thickness slowness _ _ Hs Hf (conj P2 IH)) as M. pose proof (proj2 (trapz_mean thickness slowness _ Hs P1)) as M0.
    unfold refine. pose proof (INV _ _ (conj M0 M)). lra.
Qed.

(** C141: a site that stiffens with depth. *)
Theorem amp_stiffening thickness slowness density atten fs rho_n s_n rho_0 s_0 amps terms :
  site_property thickness slowness -> site_property thickness density -> falling slowness -> rising density ->
  last_opt density = Some rho_n -> last_opt slowness = Some s_n -> nth_error density 0 = Some rho_0 -> nth_error slowness 0 = Some s_0 ->
  List.Forall (fun f => 0 < f) fs ->
  calc_amp Standard atten fs density thickness slowness = Ok (amps, terms) ->
  List.Forall (fun o => exists a, o = Some a /\ 1 <= a <= sqrt ((rho_n / s_n) / (rho_0 / s_0))) amps /\
  (forall i j f f' a a', nth_error fs i = Some f -> nth_error fs j = Some f' -> f <= f' ->
     nth_error amps i = Some (Some a) -> nth_error amps j = Some (Some a') -> a <= a').
Proof.
  intros Hs Hd Fs Rd Er Es Er0 Es0 Hf H.
  assert (Hlast : forall p v, site_property thickness p -> last_opt p = Some v -> 0 < v).
  { intros p v (_ & _ & _ & Hp) Hv. rewrite Forall_forall in Hp. apply Hp. now apply last_opt_In. }
  pose proof (Hlast density rho_n Hd Er) as Hrn. pose proof (Hlast slowness s_n Hs Es) as Hsn. split.
  - destruct slowness as [|x xs]; [discriminate|]. cbn in Es0. injection Es0 as ->. destruct density as [|y ys]; [discriminate|]. cbn in Er0. injection Er0 as ->.
    pose proof Hd as (_ & _ & _ & Pd). apply Forall_inv in Pd.
    pose proof (falling_all _ _ Fs) as A1. pose proof (falling_last _ _ _ Fs Es) as A2. pose proof (rising_last _ _ _ Rd Er) as B1.
    assert (B2 : List.Forall (fun r => rho_0 <= r) (rho_0 :: ys)).
    { clear -Rd. revert rho_0 Rd. induction ys as [|y ys IH]; intros x Rd; [constructor; [lra|constructor]|]. destruct Rd as [R1 R2].
      constructor; [lra|]. eapply Forall_impl; [|exact (IH y R2)]. cbn. intros; lra. }
    assert (BS : List.Forall (fun s => s_n <= s <= s_0) (s_0 :: xs)).
    { rewrite Forall_forall in *. intros z Hz. split; [now apply A2|now apply A1]. }
    assert (BD : List.Forall (fun r => rho_0 <= r <= rho_n) (rho_0 :: ys)).
    { rewrite Forall_forall in *. intros z Hz. split; [now apply B2|now apply B1]. }
    pose proof (amp_bounds _ _ _ _ _ _ _ _ _ s_n s_0 rho_0 rho_n Hs Hd Er Es Hf Hsn Pd BS BD H) as X.
    eapply Forall_impl; [|exact X]. cbn. intros o (a & -> & Ha). exists a. split; [reflexivity|]. rewrite ratio_self in Ha by assumption. rewrite sqrt_1 in Ha. exact Ha.
  - intros i j f f' a a' Hi Hj Hff Ha Ha'. destruct (amp_values _ _ _ _ _ _ _ _ _ Hs Hd Er Es Hf H) as (k & -> & _).
    rewrite nth_error_map, Hi in Ha. rewrite nth_error_map, Hj in Ha'. cbn [option_map] in Ha, Ha'.
    rewrite Forall_forall in Hf. pose proof (Hf f (nth_error_In _ _ Hi)) as Pf. pose proof (Hf f' (nth_error_In _ _ Hj)) as Pf'.
    injection Ha as <-. injection Ha' as <-. apply sqrt_le_1_alt.
    pose proof (depth_after_pos thickness slowness Hs f' k Pf') as D1. pose proof (depth_after_pos thickness slowness Hs f' (S k) Pf') as D2.
    pose proof (depth_after_pos thickness slowness Hs f k Pf) as D3. 
    pose proof (depth_mono thickness slowness f f' Hs Fs (conj Pf Hff) k) as M1. pose proof (depth_mono thickness slowness f f' Hs Fs (conj Pf Hff) (S k)) as M2.
    apply ratio_mono; try assumption.
    + exact (proj2 (trapz_mean thickness density _ Hd D2)).
    + exact (proj2 (trapz_mean thickness slowness _ Hs D1)).
    + apply rising_mean; try assumption. split; assumption.
    + apply falling_mean; try assumption. split; assumption.
    + exact (proj2 (trapz_mean thickness slowness _ Hs D3)).
Qed.
