(** Statements about curves and layers assembled from the lemmas. *)
From Coq Require Import String Sorted Permutation.
From Verif Require Import Common Model.Curve Model.Layer
  Spec.CurveSpec Spec.LayerSpec Proof.CommonFacts Proof.CurveFacts Proof.LayerFacts.
Local Open Scope R_scope.

Lemma modulus_default_limits id ss vs s v :
  curve_call (modulus_curve id ss vs) s = Ok v -> 0.001 <= v <= 1.
Proof. intros H. apply curve_call_bounds in H; cbn in *; lra. Qed.
Lemma damping_default_limits id ss vs s v :
  curve_call (damping_curve id ss vs) s = Ok v -> 0 <= v <= 0.49.
Proof. intros H. apply curve_call_bounds in H; cbn in *; lra. Qed.
Lemma curve_defined c s :
  good_table (c_strains c) (c_values c) -> exists v, curve_call c s = Ok v.
Proof. intros H. rewrite curve_call_good by exact H. eauto. Qed.

Lemma curve_interpolates c i s0 v0 s1 v1 s :
  c_lo c <= c_hi c -> good_table (c_strains c) (c_values c) ->
  point (c_strains c) (c_values c) i s0 v0 ->
  point (c_strains c) (c_values c) (S i) s1 v1 -> 1e-9 <= s -> s0 <= s <= s1 ->
  exists v, curve_call c s = Ok v /\ limited (c_lo c) (c_hi c) (chord s0 v0 s1 v1 s) v /\
    Rmin v0 v1 <= chord s0 v0 s1 v1 s <= Rmax v0 v1.
Proof.
  intros Hl Hg P0 P1 Hs Hb. rewrite (curve_between c i s0 v0 s1 v1 s) by assumption.
  eexists. split; [reflexivity|]. split; [now apply clip_limited|].
  destruct Hg as (_ & _ & Hp & Hss). destruct P0 as [P0 _], P1 as [P1 _].
  apply chord_between; [|eapply sorted_nth_lt; [exact Hss| |exact P0|exact P1]; lia|exact Hb].
  exact (nth_error_pos _ _ _ _ Hp P0).
Qed.
Lemma curve_at_point c i s v :
  c_lo c <= c_hi c -> good_table (c_strains c) (c_values c) ->
  point (c_strains c) (c_values c) i s v -> 1e-9 <= s ->
  exists r, curve_call c s = Ok r /\ limited (c_lo c) (c_hi c) v r.
Proof.
  intros Hl Hg P Hs. rewrite (curve_knot c i s v) by assumption.
  eexists. split; [reflexivity|]. now apply clip_limited.
Qed.
Lemma curve_below c s0 v0 s :
  c_lo c <= c_hi c -> good_table (c_strains c) (c_values c) ->
  point (c_strains c) (c_values c) 0 s0 v0 -> 1e-9 <= s0 -> s <= s0 ->
  exists r, curve_call c s = Ok r /\ limited (c_lo c) (c_hi c) v0 r.
Proof.
  intros Hl Hg P Hs Hb. rewrite (curve_first c s0 v0 s) by assumption.
  eexists. split; [reflexivity|]. now apply clip_limited.
Qed.
Lemma curve_above c sl vl s :
  c_lo c <= c_hi c -> good_table (c_strains c) (c_values c) ->
  point (c_strains c) (c_values c) (length (c_strains c) - 1) sl vl -> 1e-9 <= s -> sl <= s ->
  exists r, curve_call c s = Ok r /\ limited (c_lo c) (c_hi c) vl r.
Proof.
  intros Hl Hg P Hs Hb. rewrite (curve_last c sl vl s) by assumption.
  eexists. split; [reflexivity|]. now apply clip_limited.
Qed.

(** ** Layers *)
Lemma layer_damping_shift l c s d d0 :
  s_damp (l_soil l) = DCurve c -> curve_call c s = Ok d -> soil_damping_min (l_soil l) = Ok d0 ->
  damping (set_strain l s) = d - d0 + l_dmin l.
Proof.
  intros E1 E2 E3. unfold damping, set_strain, compute_damping. cbn [l_D it_value iter_set].
  now rewrite E1, E2, E3.
Qed.
Lemma layer_damping_small l c s0 v0 s :
  s_damp (l_soil l) = DCurve c -> good_table (c_strains c) (c_values c) ->
  point (c_strains c) (c_values c) 0 s0 v0 -> 1e-9 <= s0 -> s <= s0 -> c_lo c <= v0 <= c_hi c ->
  damping (set_strain l s) = l_dmin l.
Proof. intros. unfold damping, set_strain. cbn [l_D it_value iter_set]. eapply compute_damping_small; eauto. Qed.
Lemma layer_damping_const l d s :
  s_damp (l_soil l) = DConst d -> damping (set_strain l s) = l_dmin l.
Proof. intros E. unfold damping, set_strain, compute_damping. cbn [l_D it_value iter_set]. rewrite E. ring. Qed.
Lemma layer_adjusted_curve l c :
  s_damp (l_soil l) = DCurve c ->
  adjusted_damping_curve l =
  map (fun s => (Some s, damping (set_strain l s))) (c_strains c).
Proof. intros E. unfold adjusted_damping_curve. rewrite E. reflexivity. Qed.

Lemma layer_history s t v dm l os :
  layer_new s t v (Some dm) = Ok l ->
  let l' := layer_run l os in
  let e := current_strain None os in
  shear_mod l' = spec_G (density s) (last_vs v os) (soil_behaviour s) e /\
  damping l' = spec_D (last_dmin dm os) (soil_behaviour s) e /\
  strain l' = match e with Some x => x | None => 1e-6 end /\
  l_smax l' = current_max None os /\
  l_soil l' = s /\ l_thick l' = t /\ l_vs l' = last_vs v os /\ l_dmin l' = last_dmin dm os.
Proof.
  intros E. apply layer_new_ok in E. destruct E as (d & <- & Hok).
  apply (layer_run_ok _ _ _ _ _ _ _ os) in Hok.
  destruct Hok as (H1 & H2 & H3 & H4 & H5 & H6 & H7 & H8 & _). cbn zeta. auto 10.
Qed.
Lemma layer_history_default s t v l os :
  layer_new s t v None = Ok l ->
  exists dm, soil_damping_min s = Ok dm /\
  damping (layer_run l os) = spec_D (last_dmin dm os) (soil_behaviour s) (current_strain None os).
Proof.
  intros E. apply layer_new_ok in E. destruct E as (d & Hd & Hok). exists d. split; [exact Hd|].
  apply (layer_run_ok _ _ _ _ _ _ _ os) in Hok. apply Hok.
Qed.

(** Resetting erases everything, the saved previous iterates included. *)
Lemma reset_forgets s t v dm l os os' :
  layer_new s t v (Some dm) = Ok l ->
  last_vs v os = last_vs v os' -> last_dmin dm os = last_dmin dm os' ->
  layer_run l (os ++ [LReset]) = layer_run l (os' ++ [LReset]).
Proof.
  intros E Ev Ed. unfold layer_run. rewrite !fold_left_app. cbn [fold_left layer_step].
  change (fold_left layer_step os l) with (layer_run l os).
  change (fold_left layer_step os' l) with (layer_run l os').
  apply layer_new_ok in E. destruct E as (d & <- & Hok).
  assert (Hpos : forall os, l_depth (layer_run l os) = l_depth l /\ l_svert (layer_run l os) = l_svert l /\
                            l_prof (layer_run l os) = l_prof l).
  { intros os0. unfold layer_run. revert l Hok. clear. intros l _. revert l.
    induction os0 as [|o os0 IH]; intros l; [auto|]. cbn [fold_left].
    destruct (IH (layer_step l o)) as (-> & -> & ->). destruct o; auto. }
  pose proof (layer_run_ok _ _ _ _ _ _ _ os Hok) as (A1 & A2 & A3 & A4 & _).
  pose proof (layer_run_ok _ _ _ _ _ _ _ os' Hok) as (B1 & B2 & B3 & B4 & _).
  destruct (Hpos os) as (P1 & P2 & P3), (Hpos os') as (Q1 & Q2 & Q3).
  unfold layer_reset, initial_shear_mod.
  rewrite A1, A2, A3, A4, B1, B2, B3, B4, P1, P2, P3, Q1, Q2, Q3, Ev, Ed. reflexivity.
Qed.

(** ** Unusable curves *)
Lemma missized_silent l c s :
  s_mod (l_soil l) = Some c -> length (c_strains c) <> length (c_values c) ->
  curve_call c s = Err TypeError /\
  shear_mod (set_strain l s) = initial_shear_mod l.
Proof.
  intros E Hn. rewrite curve_call_mismatch by exact Hn. split; [reflexivity|].
  unfold shear_mod, set_strain, compute_mod. cbn [l_G it_value iter_set].
  rewrite E, curve_call_mismatch by exact Hn. ring.
Qed.
Lemma missized_damping_silent l c s :
  s_damp (l_soil l) = DCurve c -> length (c_strains c) <> length (c_values c) ->
  damping (set_strain l s) = l_dmin l.
Proof.
  intros E Hn. unfold damping, set_strain, compute_damping. cbn [l_D it_value iter_set].
  rewrite E, curve_call_mismatch by exact Hn. ring.
Qed.
