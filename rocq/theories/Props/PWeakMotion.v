(** Property C161: weak motions leave a nonlinear site as it was. *)
From Verif Require Import Common Model.Curve Model.Layer Model.Waves Model.Eql Model.Motion Model.Results.
From Verif Require Import Spec.CurveSpec Spec.MotionSpec Spec.WaveSpec Spec.EqlSpec Spec.WeakSpec Proof.CommonFacts Proof.CurveFacts Proof.VariationEx Proof.EqlFacts Proof.EqlResults Proof.EqlPhysical Proof.ResultsProps Proof.ResultsRuns Proof.ResultsEx Proof.WeakMotion.
From Coq Require Import String List.
From Coquelicot Require Import Complex.
Local Open Scope R_scope.

(** Sand whose curves begin at a strain of 0.0001, on rock. *)
Definition wk_sand : soil := mkSoil 0 "Sand"%string 18
  (Some (mkCurve 0 [0.0001; 0.01; 1] [1; 0.6; 0.1] 0.001 1)) (DCurve (mkCurve 1 [0.0001; 0.01; 1] [0.01; 0.05; 0.2] 0 1)).
Definition wk_site : list layer := cons (layer_make wk_sand 10 200 0.01) (cons (layer_make ex_rock 0 800 0.005) nil).

(** C161,C29: if the curves of every layer begin at their small-strain values and
    neither the first estimate of its strain nor its effective strain under the linear
    waves exceeds its first tabulated strain, the run ends after one pass with the
    initial moduli and damping and the linear-elastic waves, unless computing the
    strains fails. *)
Theorem C161_run : forall P m lin ls wv (e : nat -> R),
  ls <> [] ->
  (forall i l, nth_error ls i = Some l -> unaffected_below (l_soil l) (e i)) ->
  0 < e_tol P -> (0 < e_max P)%Z ->
  le_call m true ls = Ok wv ->
  (forall i l, nth_error ls i = Some l -> (m_pgv m / 100) / l_vs l <= e i) ->
  (forall i l mx, nth_error ls i = Some l -> (i < length ls - 1)%nat ->
     calc_strain_max m (length ls) wv lin i l = Ok mx -> e_ratio P * mx <= e i) ->
  forall t r, eql_call P m lin true ls = (t, r) ->
  (exists x, r = Err x /\ (kernel_exn x \/ exists tf, m_peak m tf = Err x)) \/
  (length t = 1%nat /\ exists ls', r = Ok (Converged, ls', wv) /\ length ls' = length ls /\
   forall i l0, nth_error ls i = Some l0 -> exists l, nth_error ls' i = Some l /\
     l_soil l = l_soil l0 /\ l_thick l = l_thick l0 /\
     shear_mod l = initial_shear_mod l0 /\ damping l = l_dmin l0).
Proof. exact eql_weak. Qed.
Print Assumptions C161_run.
Example C161_soils : unaffected_below wk_sand 0.0001 /\ is_nonlinear wk_sand = true /\ unaffected_below ex_rock 0.0001.
Proof.
  assert (G : forall v w x, good_table [0.0001; 0.01; 1] [v; w; x]).
  { intros v w x. split; [reflexivity|]. split; [discriminate|]. split; repeat constructor; lra. }
  split; [|split; [reflexivity|]]; split; intros c H; try discriminate; cbn in H; injection H as <-; exists 0.0001.
  - split; [|lra]. split; [apply G|]. split; [now split|]. cbn; lra.
  - exists 0.01. split; [|lra]. split; [apply G|]. split; [now split|]. cbn; lra.
Qed.

(** C161,C29: for physical profiles it cannot fail. *)
Theorem C161_physical : forall P m lin ls wv (e : nat -> R),
  ls <> [] -> List.Forall physical ls -> clear_freqs m ->
  (forall i l, nth_error ls i = Some l -> unaffected_below (l_soil l) (e i)) ->
  0 < e_tol P -> (0 < e_max P)%Z ->
  (loc_index lin < length ls)%nat -> loc_field lin <> Within ->
  answers m -> (forall tf, m_peak m tf <> Err RuntimeError) ->
  le_call m true ls = Ok wv ->
  (forall i l, nth_error ls i = Some l -> (m_pgv m / 100) / l_vs l <= e i) ->
  (forall i l mx, nth_error ls i = Some l -> (i < length ls - 1)%nat ->
     calc_strain_max m (length ls) wv lin i l = Ok mx -> e_ratio P * mx <= e i) ->
  exists t ls', eql_call P m lin true ls = (t, Ok (Converged, ls', wv)) /\ length t = 1%nat /\ length ls' = length ls /\
   forall i l0, nth_error ls i = Some l0 -> exists l, nth_error ls' i = Some l /\
     l_soil l = l_soil l0 /\ l_thick l = l_thick l0 /\
     shear_mod l = initial_shear_mod l0 /\ damping l = l_dmin l0.
Proof. exact eql_weak_physical. Qed.
Print Assumptions C161_physical.

(** C161,C29: every record, multiplied by a small enough factor, leaves the site as it
    was: one pass, the initial moduli and damping, and the same linear-elastic waves
    whatever the factor. *)
Theorem C161_scaled : forall P lin ls dt a fa m n v wv e0,
  ls <> [] -> List.Forall physical ls -> 0 < e0 ->
  List.Forall (fun l => unaffected_below (l_soil l) e0) ls ->
  0 < e_tol P -> (0 < e_max P)%Z ->
  (loc_index lin < length ls)%nat -> loc_field lin <> Within ->
  0 < dt -> new_motion dt a fa = Ok m -> fft_length (length a) fa n -> Z.even n = true -> IZR n * dt <= 6e8 ->
  calc_pgv m None = Ok v ->
  le_call (as_motion m v) true ls = Ok wv ->
  exists c0, 0 < c0 /\ forall c mc vc, Rabs c <= c0 ->
    new_motion dt (map (Rmult c) a) fa = Ok mc -> calc_pgv mc None = Ok vc ->
    exists t ls', eql_call P (as_motion mc vc) lin true ls = (t, Ok (Converged, ls', wv)) /\ length t = 1%nat /\
      length ls' = length ls /\
      forall i l0, nth_error ls i = Some l0 -> exists l, nth_error ls' i = Some l /\
        l_soil l = l_soil l0 /\ l_thick l = l_thick l0 /\
        shear_mod l = initial_shear_mod l0 /\ damping l = l_dmin l0.
Proof. exact weak_enough. Qed.
Print Assumptions C161_scaled.
Example C161_ex P : 0 < e_tol P -> (0 < e_max P)%Z -> exists m v wv c0, new_motion 0.01 rx_rec None = Ok m /\
  calc_pgv m None = Ok v /\ le_call (as_motion m v) true wk_site = Ok wv /\ 0 < c0 /\
  forall c mc vc, Rabs c <= c0 -> new_motion 0.01 (map (Rmult c) rx_rec) None = Ok mc -> calc_pgv mc None = Ok vc ->
  exists t ls', eql_call P (as_motion mc vc) (mkLoc 1 0 Outcrop) true wk_site = (t, Ok (Converged, ls', wv)).
Proof.
  intros Ht Hx. destruct rx_motion as [m Hm].
  assert (HP : List.Forall physical wk_site).
  { unfold wk_site. apply Forall_cons; [|apply Forall_cons; [|apply Forall_nil]].
    - unfold physical, positive_modulus; cbn; repeat split; lra.
    - unfold physical, positive_modulus; cbn; repeat split; lra. }
  assert (HA : List.length (tf_av m) = List.length (m_freqs (as_motion m 0))).
  { unfold tf_av, as_motion, angular_freqs; cbn [m_freqs]. now rewrite !map_length. }
  assert (Hv : exists v, calc_pgv m None = Ok v).
  { unfold calc_pgv. cbn [np_mul bind].
    destruct (ts_answers 0.01 rx_rec None m 4 0 Hm rx_length eq_refl (map (Cmult (RtoC 1)) (tf_av m))) as [p Hp]; [now rewrite map_length|].
    cbn [as_motion m_peak] in Hp. rewrite Hp. now eexists. }
  destruct Hv as [v Hv].
  assert (HS : List.Forall sound (map layer_reset wk_site)).
  { apply Forall_forall. intros x Hi. apply in_map_iff in Hi. destruct Hi as (l & <- & Hl).
    rewrite Forall_forall in HP. now apply reset_sound', HP. }
  destruct (waves_sound (as_motion m v) (map layer_reset wk_site) ltac:(discriminate) HS
    (clear_record 0.01 rx_rec None m 4 v ltac:(lra) Hm rx_length ltac:(lra))) as [wv Hw].
  destruct (C161_scaled P (mkLoc 1 0 Outcrop) wk_site 0.01 rx_rec None m 4 v wv 0.0001) as (c0 & H0 & HC);
    try assumption; try lra; try reflexivity; try discriminate; try exact rx_length; cbn; try lia.
  - destruct C161_soils as (A & _ & B). apply Forall_cons; [exact A|apply Forall_cons; [exact B|apply Forall_nil]].
  - exists m, v, wv, c0. split; [exact Hm|]. split; [exact Hv|]. split; [exact Hw|]. split; [exact H0|].
    intros c mc vc H1 H2 H3. destruct (HC c mc vc H1 H2 H3) as (t & ls' & E & _). now exists t, ls'.
Qed.
