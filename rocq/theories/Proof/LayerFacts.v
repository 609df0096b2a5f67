(** Lemmas about layers. *)
From Coq Require Import String Sorted.
From Verif Require Import Common Model.Curve Model.Layer Spec.CurveSpec Spec.LayerSpec
  Proof.CommonFacts Proof.CurveFacts.
Local Open Scope R_scope.

Lemma compute_mod_spec l e :
  compute_mod l e =
  spec_G (density (l_soil l)) (l_vs l) (soil_behaviour (l_soil l)) (Some e).
Proof.
  unfold compute_mod, spec_G, soil_behaviour, initial_shear_mod; cbn [modred].
  replace (l_vs l ^ 2) with (l_vs l * l_vs l) by ring. reflexivity.
Qed.
Lemma compute_damping_spec l e :
  compute_damping l e = spec_D (l_dmin l) (soil_behaviour (l_soil l)) (Some e).
Proof.
  unfold compute_damping, spec_D, soil_behaviour, soil_damping_min; cbn [damp_incr].
  destruct (s_damp (l_soil l)) as [d|c]; [lra|].
  destruct (curve_call c e) as [d|?]; [|lra].
  destruct (c_values c); lra.
Qed.

(** State of a layer in terms of what was assigned. *)
Definition state_ok (l : layer) (s : soil) (thick vs dmin : R) (e m : option R) : Prop :=
  l_soil l = s /\ l_thick l = thick /\ l_vs l = vs /\ l_dmin l = dmin /\
  shear_mod l = spec_G (density s) vs (soil_behaviour s) e /\
  damping l = spec_D dmin (soil_behaviour s) e /\
  strain l = match e with Some x => x | None => 1e-6 end /\
  l_smax l = m /\
  (is_nonlinear s = true -> exists i, l_strain l = SIter i).

Lemma reset_ok l s t v d :
  l_soil l = s -> l_thick l = t -> l_vs l = v -> l_dmin l = d ->
  state_ok (layer_reset l) s t v d None None.
Proof.
  intros <- <- <- <-. unfold state_ok, layer_reset, shear_mod, damping, strain; cbn.
  repeat split; auto; [|eexists; reflexivity]. unfold initial_shear_mod; cbn; ring.
Qed.

Lemma set_strain_ok l s t v d e m x :
  state_ok l s t v d e m -> state_ok (set_strain l x) s t v d (Some x) m.
Proof.
  intros (Hs & Ht & Hv & Hd & _ & _ & _ & Hm & Hi). subst s t v d.
  unfold state_ok, set_strain, shear_mod, damping, strain;
    cbn [l_soil l_thick l_vs l_dmin l_G l_D l_strain l_smax it_value iter_set].
  repeat split; auto.
  - apply compute_mod_spec.
  - apply compute_damping_spec.
  - destruct (is_nonlinear (l_soil l)); [|reflexivity].
    destruct (Hi eq_refl) as [i ->]. reflexivity.
  - intros Hn. rewrite Hn. destruct (Hi Hn) as [i ->]. eexists; reflexivity.
Qed.

Lemma layer_step_ok l s t v d e m o :
  state_ok l s t v d e m ->
  state_ok (layer_step l o) s t (last_vs v [o]) (last_dmin d [o])
    (current_strain e [o]) (current_max m [o]).
Proof.
  intros H. destruct o as [x| |x|x|x]; cbn [layer_step last_vs last_dmin current_strain current_max].
  - now apply set_strain_ok with e.
  - destruct H as (Hs & Ht & Hv & Hd & _). now apply reset_ok.
  - destruct H as (Hs & Ht & Hv & Hd & _). unfold set_initial_vs. now apply reset_ok.
  - destruct H as (Hs & Ht & Hv & Hd & _). unfold set_damping_min. now apply reset_ok.
  - destruct H as (Hs & Ht & Hv & Hd & HG & HD & He & Hm & Hi).
    unfold state_ok, set_strain_max, shear_mod, damping, strain in *;
      cbn [l_soil l_thick l_vs l_dmin l_G l_D l_strain l_smax] in *. repeat split; auto.
Qed.

Lemma last_vs_app v os os' : last_vs v (os ++ os') = last_vs (last_vs v os) os'.
Proof. revert v; induction os as [|o os IH]; intros w; [reflexivity|]; destruct o; cbn; auto. Qed.
Lemma last_dmin_app v os os' : last_dmin v (os ++ os') = last_dmin (last_dmin v os) os'.
Proof. revert v; induction os as [|o os IH]; intros w; [reflexivity|]; destruct o; cbn; auto. Qed.
Lemma current_strain_app v os os' :
  current_strain v (os ++ os') = current_strain (current_strain v os) os'.
Proof. revert v; induction os as [|o os IH]; intros w; [reflexivity|]; destruct o; cbn; auto. Qed.
Lemma current_max_app v os os' :
  current_max v (os ++ os') = current_max (current_max v os) os'.
Proof. revert v; induction os as [|o os IH]; intros w; [reflexivity|]; destruct o; cbn; auto. Qed.

Lemma layer_run_ok l s t v d e m os :
  state_ok l s t v d e m ->
  state_ok (layer_run l os) s t (last_vs v os) (last_dmin d os)
    (current_strain e os) (current_max m os).
Proof.
  unfold layer_run; revert l v d e m; induction os as [|o os IH]; intros l v d e m H; [exact H|].
  cbn [fold_left].
  change (o :: os) with ([o] ++ os).
  rewrite last_vs_app, last_dmin_app, current_strain_app, current_max_app.
  apply IH, layer_step_ok, H.
Qed.

Lemma layer_new_ok s t v d l :
  layer_new s t v d = Ok l ->
  exists dm, match d with Some x => dm = x | None => soil_damping_min s = Ok dm end /\
             state_ok l s t v dm None None.
Proof.
  unfold layer_new. destruct d as [x|]; cbn [bind].
  - intros H; injection H as <-. exists x. split; [reflexivity|]. now apply reset_ok.
  - destruct (soil_damping_min s) as [x|] eqn:E; cbn [bind]; [|discriminate].
    intros H; injection H as <-. exists x. split; [reflexivity|]. now apply reset_ok.
Qed.

Lemma layer_make_ok s t v d : state_ok (layer_make s t v d) s t v d None None.
Proof. now apply reset_ok. Qed.

(** Small-strain behaviour of the adjusted damping. *)
Lemma compute_damping_small l c s0 v0 s :
  s_damp (l_soil l) = DCurve c -> good_table (c_strains c) (c_values c) ->
  point (c_strains c) (c_values c) 0 s0 v0 -> 1e-9 <= s0 -> s <= s0 ->
  c_lo c <= v0 <= c_hi c ->
  compute_damping l s = l_dmin l.
Proof.
  intros Hd Hg Hp H9 Hs Hv. unfold compute_damping, soil_damping_min. rewrite Hd.
  rewrite (curve_first c s0 v0 s) by assumption. destruct Hp as [_ Hp].
  destruct (c_values c) as [|w ws]; [discriminate|]. injection Hp as ->.
  rewrite clip_id by lra. lra.
Qed.

Lemma soil_eqb_refl s : soil_eqb s s = true.
Proof.
  unfold soil_eqb. rewrite Nat.eqb_refl, String.eqb_refl, Reqb_refl. cbn.
  destruct (s_mod s) as [c|]; cbn; rewrite ?Nat.eqb_refl; cbn;
  destruct (s_damp s) as [d|c']; cbn; rewrite ?Nat.eqb_refl, ?Reqb_refl; reflexivity.
Qed.
Lemma layer_eqb_refl l : layer_eqb l l = true.
Proof. unfold layer_eqb. now rewrite soil_eqb_refl, !Reqb_refl. Qed.
Lemma layer_eqb_thick a b : layer_eqb a b = true -> l_thick a = l_thick b.
Proof.
  unfold layer_eqb. intros H. apply andb_prop in H. destruct H as [H _].
  apply andb_prop in H. destruct H as [_ H]. now apply Reqb_true.
Qed.
