(** Property C88: the Masing damping of the hyperbolic model is the damping ratio of the
    hysteresis loop. *)
From Verif Require Import Common Model.SoilModels Spec.SoilModelSpec Proof.CommonFacts Proof.HyperbolicFacts.
From Coquelicot Require Import Coquelicot.
Local Open Scope R_scope.

Lemma backbone_area sr s : 0 < sr -> 0 < s ->
  is_RInt (backbone sr) 0 s (sr * (s - sr * ln (1 + s / sr))).
Proof.
  intros Hr Hs.
  assert (P : forall g, 0 <= g -> 0 < 1 + g / sr).
  { intros g Hg. assert (0 <= g / sr) by (apply Rmult_le_pos; [exact Hg|left; now apply Rinv_0_lt_compat]). lra. }
  replace (sr * (s - sr * ln (1 + s / sr))) with
    (minus (sr * (s - sr * ln (1 + s / sr))) (sr * (0 - sr * ln (1 + 0 / sr)))).
  2:{ unfold minus, plus, opp; cbn. replace (1 + 0 / sr) with 1 by (field; lra). rewrite ln_1. ring. }
  apply (is_RInt_derive (V := R_CompleteNormedModule) (fun g => sr * (g - sr * ln (1 + g / sr))) (backbone sr)).
  - intros g Hg. rewrite Rmin_left in Hg by lra. pose proof (P g (proj1 Hg)) as Hp.
    unfold backbone. auto_derive; [exact Hp|]. field. split; [|lra].
    intros E. assert (1 + g / sr = (sr + g) / sr) by (field; lra). rewrite H, E in Hp. unfold Rdiv in Hp. lra.
  - intros g Hg. rewrite Rmin_left in Hg by lra. pose proof (P g (proj1 Hg)) as Hp.
    unfold backbone. apply (ex_derive_continuous (fun g => g / (1 + g / sr))). auto_derive. lra.
Qed.

Lemma masing_is_loop sr s : 0 < sr -> 0 < s ->
  exists a area, masing_a1 sr s = Some a /\ is_RInt (backbone sr) 0 s area /\
    a = 100 * loop_damping (backbone sr s) s area.
Proof.
  intros Hr Hs. exists (hyper_a (s / sr)), (sr * (s - sr * ln (1 + s / sr))).
  split; [now apply masing_a1_some|]. split; [now apply backbone_area|].
  unfold hyper_a, loop_damping, backbone. pose proof PI_RGT_0. generalize (ln (1 + s / sr)). intros L.
  assert (0 < s / sr) by (apply Rdiv_lt_0_compat; lra).
  field. repeat split; lra.
Qed.
