(** The waves of the frequency-dependent calculator at one frequency. *)
From Verif Require Import Common Model.Curve Model.Layer Model.Cplx Model.Waves Model.Eql Model.Fdm Spec.FdmSpec Proof.CommonFacts Proof.EqlFacts.
Local Open Scope R_scope.

Lemma frozen_layers k ls : forall ws, mapM (fwlayer k) ls = Ok ws -> exists lk, Forall2 (frozen k) ls lk /\ map wlayer_of lk = ws.
Proof.
  induction ls as [|l ls IH]; intros ws H; cbn [mapM] in H.
  - injection H as <-. exists []. split; [constructor|reflexivity].
  - destruct (fwlayer k l) as [w|] eqn:E; [|discriminate]. cbn [bind] in H.
    destruct (mapM (fwlayer k) ls) as [ws'|]; [|discriminate]. cbn [bind] in H. injection H as <-.
    destruct (IH ws' eq_refl) as (lk & F & <-). unfold fwlayer in E.
    destruct (at_freq (fi_value (f_G l)) k) as [g|] eqn:Eg; [|discriminate].
    destruct (at_freq (fi_value (f_D l)) k) as [d|] eqn:Ed; [|discriminate]. injection E as <-.
    set (b := f_layer l).
    exists (mkLayer (l_soil b) (l_thick b) (l_depth b) (l_svert b) (l_vs b) (l_dmin b) (iter_new g) (iter_new d) (l_strain b) (l_smax b) (l_prof b) :: lk).
    split; [|reflexivity]. constructor; [|exact F]. repeat split; assumption.
Qed.
Theorem fdm_waves m ls wv : fcalc_waves m ls = Ok wv ->
  length wv = length (m_freqs m) /\
  forall k w row, nth_error (m_freqs m) k = Some w -> nth_error wv k = Some row ->
  exists lk, Forall2 (frozen k) ls lk /\ calc_waves_numba w (map wlayer_of lk) = Ok row.
Proof.
  intros H. destruct (mapM_nth _ _ _ H) as [L N]. rewrite combine_length, seq_length, Nat.min_id in L. split; [exact L|].
  intros k w row Hw Hr.
  assert (Hk : nth_error (combine (seq 0 (length (m_freqs m))) (m_freqs m)) k = Some (k, w)).
  { assert (G : forall (xs : list R) s j, nth_error xs j = Some w -> nth_error (combine (seq s (length xs)) xs) j = Some ((s + j)%nat, w)).
    { induction xs as [|x xs IH]; intros s [|j] Hj; try discriminate; cbn [length seq combine nth_error] in *.
      - injection Hj as ->. now rewrite Nat.add_0_r.
      - rewrite (IH (S s) j Hj). do 2 f_equal. lia. }
    apply (G _ 0%nat _ Hw). }
  destruct (N k (k, w) Hk) as (row' & E & Hr'). assert (row' = row) by congruence. subst row'. cbn [fst snd] in E.
  destruct (mapM (fwlayer k) ls) as [ws|] eqn:Ew; [|discriminate]. cbn [bind] in E.
  destruct (frozen_layers k ls ws Ew) as (lk & F & <-). now exists lk.
Qed.
