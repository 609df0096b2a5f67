(** The strain transfer functions of a run are, at every frequency, those of the single
    frequency. *)
From Verif Require Import Common Proof.CommonFacts Model.Curve Model.Layer Model.Cplx Model.Waves Model.Eql Model.Motion Model.Results
  Spec.WaveSpec Proof.WaveProps Proof.EqlFacts.
From Coquelicot Require Import Coquelicot.
Local Open Scope R_scope.

Lemma strain_row_python w rs lin lout t : Rabs w <> 1e-8 -> loc_field lout = Within -> strain_tf_row w rs lin lout = Ok t ->
  calc_strain_tf rs w lin lout = Ok (Some t).
Proof.
  intros Hw HF. unfold strain_tf_row, calc_strain_tf. rewrite HF.
  destruct (nth_error rs (loc_index lout)) as [o|]; [|discriminate].
  destruct (nth_error rs (loc_index lin)) as [i|]; [|discriminate].
  destruct (r_k o) as [ko|] eqn:Eo; [|discriminate]. destruct (r_k i) as [ki|] eqn:Ei; [|discriminate].
  rewrite kernels_strain by exact Hw.
  replace (mkRow (Some ko) (r_a o) (r_b o)) with o by (destruct o; cbn in *; now rewrite Eo).
  replace (mkRow (Some ki) (r_a i) (r_b i)) with i by (destruct i; cbn in *; now rewrite Ei).
  destruct (strain_tf_python _ _ _ _ _ _ _); [|discriminate]. intros H. now injection H as ->.
Qed.
Lemma strain_rows m n waves lin lout tf : calc_strain_tfs m n waves lin lout = Ok tf ->
  length tf = Nat.min (length (m_freqs m)) (length waves) /\
  forall k w rs, nth_error (m_freqs m) k = Some w -> nth_error waves k = Some rs -> Rabs w <> 1e-8 ->
    exists t, nth_error tf k = Some t /\ calc_strain_tf rs w lin lout = Ok (Some t).
Proof.
  unfold calc_strain_tfs. destruct (loc_field lout) eqn:HF; try discriminate.
  destruct (_ && _)%bool; [|discriminate]. intros H. destruct (mapM_nth _ _ _ H) as [HL HN].
  split; [now rewrite HL, combine_length|]. intros k w rs Hw Hr Ht.
  assert (HC : nth_error (combine (m_freqs m) waves) k = Some (w, rs)).
  { clear - Hw Hr. revert k waves Hw Hr. induction (m_freqs m) as [|x xs IH]; intros [|k] [|y ys] Hw Hr; try discriminate.
    - now injection Hw as ->; injection Hr as ->.
    - exact (IH k ys Hw Hr). }
  destruct (HN k _ HC) as (t & Et & Hk). exists t. split; [exact Hk|]. cbn [fst snd] in Et. now apply strain_row_python.
Qed.

(** A finished run: at every frequency the strain is the depth derivative of the displacement. *)
Lemma strain_rows_derivative m ls waves lin i z tf : calc_waves m ls = Ok waves ->
  List.Forall (fun l => wl_vel (wlayer_of l) <> RtoC 0) ls -> (i < length ls)%nat ->
  calc_strain_tfs m (length ls) waves lin (mkLoc i z Within) = Ok tf ->
  forall k w, nth_error (m_freqs m) k = Some w -> 1e-8 < Rabs w ->
  exists rs, nth_error waves k = Some rs /\ forall xin,
  wave_at_location rs lin = Ok (Some xin) -> xin <> RtoC 0 ->
  exists st acc, nth_error tf k = Some st /\
    (forall x, calc_accel_tf rs lin (mkLoc i x Within) = Ok (Some (acc x))) /\
    cderive (fun x => Cmult (RtoC (GRAVITY / (- (w * w)))) (acc x)) z st.
Proof.
  intros HW HV Hi HT k w Hk Ht. unfold calc_waves in HW. destruct (mapM_nth _ _ _ HW) as [_ HN].
  destruct (HN k w Hk) as (rs & Ers & Hrs). exists rs. split; [exact Hrs|]. intros xin Hx Nx.
  destruct (proj2 (strain_rows _ _ _ _ _ _ HT) k w rs Hk Hrs ltac:(lra)) as (st & Hst & Est).
  assert (HV' : List.Forall (fun l => wl_vel l <> RtoC 0) (map wlayer_of ls)) by (apply Forall_map; exact HV).
  rewrite kernels_waves in Ers by (try assumption; lra).
  destruct (nth_error ls i) as [l|] eqn:El; [|apply nth_error_None in El; lia].
  assert (Hv : wl_vel (wlayer_of l) <> RtoC 0) by (rewrite Forall_forall in HV; apply HV; now apply nth_error_In in El).
  destruct (strain_derivative w _ rs lin xin i (wlayer_of l) Ht Ers (map_nth_error _ _ _ El) Hv Hx Nx) as (acc & A1 & A2).
  exists st, acc. split; [exact Hst|]. split; [exact A1|]. destruct (A2 z) as (st' & E' & D'). rewrite E' in Est.
  replace st with st'; [exact D'|congruence].
Qed.
