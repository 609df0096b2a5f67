(** C155: the calculator called with a profile. *)
From Verif Require Import Common Model.Curve Model.Layer Model.Qwl Spec.StepSpec Spec.QwlSpec Spec.QwlCallSpec
  Proof.CommonFacts Proof.CurveFacts Proof.StepFacts Proof.WaveFacts Proof.QwlFacts Proof.QwlProps Proof.QwlBounds.
From Coq Require Import String List.
From Coquelicot Require Import Coquelicot.
Local Open Scope R_scope.

Lemma layers_property ls (p : layer -> R) : ls <> nil -> List.Forall (fun l => 0 <= l_thick l /\ 0 < p l) ls ->
  site_property (thicknesses ls) (map p ls).
Proof.
  intros N H. unfold thicknesses. repeat split; [now rewrite !map_length|destruct ls; [contradiction|discriminate]| |];
    apply Forall_map; (eapply Forall_impl; [|exact H]); cbn; tauto.
Qed.
Lemma combine_map {A B C} (f : A -> B) (g : A -> C) xs : combine (map f xs) (map g xs) = map (fun x => (f x, g x)) xs.
Proof. induction xs as [|x xs IH]; cbn; [reflexivity|now rewrite IH]. Qed.
Lemma last_opt_map {A B} (f : A -> B) xs : last_opt (map f xs) = option_map f (last_opt xs).
Proof. induction xs as [|x [|y xs] IH]; [reflexivity|reflexivity|]. exact IH. Qed.

Section Call.
Variable ls : list layer.
Variable rock : layer.
Hypothesis GOOD : List.Forall qwl_layer ls.
Hypothesis LAST : last_opt ls = Some rock.
Let NE : ls <> nil.
Proof. intros ->. discriminate LAST. Qed.
Let HS : site_property (thicknesses ls) (slownesses ls).
Proof.
  apply layers_property; [exact NE|]. eapply Forall_impl; [|exact GOOD]. intros l (H1 & H2 & _). split; [exact H1|].
  unfold Rdiv. rewrite Rmult_1_l. now apply Rinv_0_lt_compat.
Qed.
Let HD : site_property (thicknesses ls) (densities ls).
Proof.
  apply layers_property; [exact NE|]. eapply Forall_impl; [|exact GOOD]. intros l (H1 & _ & H2). split; [exact H1|].
  unfold density, GRAVITY. apply Rdiv_lt_0_compat; lra.
Qed.
Let TIME d : mean_to (combine (thicknesses ls) (slownesses ls)) d = time_to ls d / d.
Proof.
  unfold mean_to, time_to, thicknesses, slownesses. rewrite combine_map. do 3 f_equal. apply map_ext. intros l. f_equal. unfold Rdiv. ring.
Qed.
Let MASS d : mean_to (combine (thicknesses ls) (densities ls)) d = mass_to ls d / d.
Proof. unfold mean_to, mass_to, thicknesses, densities. now rewrite combine_map. Qed.

Lemma call_amp atten fs : List.Forall (fun f => 0 < f) fs ->
  (exists amp, (forall f, In f fs -> qwl_amp ls rock f (amp f)) /\
     calc_amp Standard atten fs (densities ls) (thicknesses ls) (slownesses ls) =
     Ok (map (fun f => Some (amp f)) fs, map (fun f => Some (amp f * exp (- PI * match atten with Some a => a | None => 0 end * f))) fs)) \/
  calc_amp Standard atten fs (densities ls) (thicknesses ls) (slownesses ls) = Err RuntimeError.
Proof.
  intros HF. pose proof GOOD as G. rewrite Forall_forall in G. destruct (G rock (last_opt_In _ _ LAST)) as (_ & PV & PW).
  assert (Er : last_opt (densities ls) = Some (density (l_soil rock))) by (unfold densities; now rewrite last_opt_map, LAST).
  assert (Es : last_opt (slownesses ls) = Some (1 / l_vs rock)) by (unfold slownesses; now rewrite last_opt_map, LAST).
  destruct (amp_characterised _ _ _ atten fs _ _ HS HD Er Es HF) as [(k & _ & AG & _ & E & PA)|[_ E]]; [|now right].
  cbv zeta in E, PA, AG. left. eexists. split; [|exact E]. intros f Hf. cbv beta.
  set (d := depth_after (thicknesses ls) (slownesses ls) f k) in *. set (d' := depth_after (thicknesses ls) (slownesses ls) f (S k)) in *.
  rewrite Forall_forall in HF. pose proof (HF f Hf) as Pf.
  assert (P1 : 0 < d) by now apply depth_after_pos. assert (P2 : 0 < d') by now apply depth_after_pos.
  pose proof (proj2 (trapz_mean _ _ d HS P1)) as M1. pose proof (proj2 (trapz_mean _ _ d' HD P2)) as M2.
  pose proof (quarter_wave _ _ f k HS Pf (AG f Hf)) as QW. cbv zeta in QW. fold d d' in QW.
  pose proof (PA f Hf) as PA'. fold d d' in PA'. rewrite TIME in M1, QW, PA'. rewrite MASS in M2, PA'. rewrite TIME, MASS.
  assert (T0 : 0 < time_to ls d). { replace (time_to ls d) with (time_to ls d / d * d) by (field; lra). now apply Rmult_lt_0_compat. }
  assert (W0 : 0 < mass_to ls d'). { replace (mass_to ls d') with (mass_to ls d' / d' * d') by (field; lra). now apply Rmult_lt_0_compat. }
  exists d, d'. split; [exact P1|]. split; [exact P2|]. split; [exact (AG f Hf)|]. split.
  - replace (d / time_to ls d / (4 * f)) with (1 / (4 * (time_to ls d / d) * f)) by (field; lra). exact QW.
  - split; [exact PA'|]. rewrite sqrt_sqrt.
    + unfold impedance_ratio, density, GRAVITY. field. lra.
    + unfold impedance_ratio. left. apply Rdiv_lt_0_compat; apply Rdiv_lt_0_compat; try assumption; [unfold density, GRAVITY; apply Rdiv_lt_0_compat; lra|apply Rdiv_lt_0_compat; lra].
Qed.

Lemma call_reports_in q fs q' r : q_method q = Standard -> List.Forall (fun f => 0 < f) fs -> qwl_call q fs ls = (q', r) ->
  q_layers q' = ls /\ q_method q' = q_method q /\ q_atten q' = q_atten q /\
  ((r = Ok tt /\ Forall2 (fun f o => exists a, o = Some a /\ qwl_amp ls rock f a) fs (q_amp q') /\
    Forall2 (fun f at_ => exists a, fst at_ = Some a /\ snd at_ = Some (a * exp (- PI * match q_atten q with Some k => k | None => 0 end * f))) fs
      (combine (q_amp q') (q_term q')) /\ length (q_term q') = length fs) \/
   (r = Err RuntimeError /\ q_amp q' = q_amp q /\ q_term q' = q_term q)).
Proof.
  intros M HF H. unfold qwl_call in H. rewrite M in H.
  destruct (call_amp (q_atten q) fs HF) as [(amp & A & E)|E]; rewrite E in H; injection H as <- <-; cbn; (split; [reflexivity|]; split; [now symmetry|]; split; [reflexivity|]).
  - left. split; [reflexivity|]. split; [|split; [|now rewrite map_length]].
    + clear - A. induction fs as [|f fs IH]; constructor; [exists (amp f); split; [reflexivity|apply A; now left]|apply IH; intros g Hg; apply A; now right].
    + rewrite combine_map. clear. induction fs as [|f fs IH]; constructor; [|exact IH]. cbn. exists (amp f). split; reflexivity.
  - right. repeat split.
Qed.
End Call.

(** C155: a call. *)
Theorem call_reports ls rock q fs q' r : List.Forall qwl_layer ls -> last_opt ls = Some rock ->
  q_method q = Standard -> List.Forall (fun f => 0 < f) fs -> qwl_call q fs ls = (q', r) ->
  q_layers q' = ls /\ q_method q' = q_method q /\ q_atten q' = q_atten q /\
  ((r = Ok tt /\ Forall2 (fun f o => exists a, o = Some a /\ qwl_amp ls rock f a) fs (q_amp q') /\
    Forall2 (fun f at_ => exists a, fst at_ = Some a /\ snd at_ = Some (a * exp (- PI * match q_atten q with Some k => k | None => 0 end * f))) fs
      (combine (q_amp q') (q_term q')) /\ length (q_term q') = length fs) \/
   (r = Err RuntimeError /\ q_amp q' = q_amp q /\ q_term q' = q_term q)).
Proof. intros G L. exact (call_reports_in ls rock G L q fs q' r). Qed.

(** A call that returns does not depend on the calls before. *)
Theorem call_forgets q1 q2 fs ls q' : q_method q1 = q_method q2 -> q_atten q1 = q_atten q2 ->
  qwl_call q1 fs ls = (q', Ok tt) -> qwl_call q2 fs ls = (q', Ok tt).
Proof.
  intros M A H. unfold qwl_call in *. rewrite M, A in H. destruct (calc_amp _ _ _ _ _ _) as [[a t]|e]; [exact H|discriminate].
Qed.

(** C155: a call that raises leaves the profile of this call and the amplification of an
    earlier one. *)
Definition stale_soil (wt : R) : soil := mkSoil 0 ""%string wt None (DConst 0.01).
Theorem stale_amp : exists q0 q1 q2 site1 site2 fs1 fs2,
  List.Forall qwl_layer site1 /\ List.Forall qwl_layer site2 /\ List.Forall (fun f => 0 <= f) fs2 /\
  qwl_call q0 fs1 site1 = (q1, Ok tt) /\ qwl_call q1 fs2 site2 = (q2, Err RuntimeError) /\
  q_layers q2 = site2 /\ length (q_amp q2) <> length fs2 /\ q_amp q2 = q_amp q1 /\ q_amp q1 <> nil /\ q_layers q1 <> q_layers q2.
Proof.
  pose (s1 := cons (layer_make (stale_soil 20) 0 500 0.01) nil). pose (s2 := cons (layer_make (stale_soil 20) 10 200 0.01) s1).
  pose (q0 := mkQwl Standard None nil nil nil).
  assert (G1 : List.Forall qwl_layer s1) by (unfold s1; repeat constructor; cbn; lra).
  assert (G2 : List.Forall qwl_layer s2) by (unfold s2, s1; repeat constructor; cbn; lra).
  assert (S1 : site_property (thicknesses s1) (slownesses s1)) by (unfold s1; repeat split; [discriminate|cbn; fa|cbn; fa]).
  assert (D1 : site_property (thicknesses s1) (densities s1)) by (unfold s1; repeat split; [discriminate|cbn; fa|cbn; unfold density, GRAVITY; cbn; fa]).
  assert (S2 : site_property (thicknesses s2) (slownesses s2)) by (unfold s2, s1; repeat split; [discriminate|cbn; fa|cbn; fa]).
  pose proof (uniform_amp _ _ _ None (cons 1 nil) (1 / 500) (20 / GRAVITY) S1 D1 ltac:(cbn; fa) ltac:(cbn; fa) ltac:(fa)) as U.
  exists q0. eexists. eexists. exists s1, s2, (cons 1 nil), (cons 0 (cons 5 nil)).
  split; [exact G1|]. split; [exact G2|]. split; [fa|]. split; [unfold qwl_call; cbn [q0 q_method q_atten]; rewrite U; reflexivity|].
  split; [unfold qwl_call; cbn [q_method q_atten]; rewrite (zero_frequency_fails _ _ _ _ _ (cons 0 (cons 5 nil)) S2 ltac:(fa) (or_introl eq_refl)); reflexivity|].
  cbn. split; [reflexivity|]. split; [discriminate|]. split; [reflexivity|]. split; [discriminate|]. unfold s2, s1. discriminate.
Qed.
