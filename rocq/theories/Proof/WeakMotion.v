(** Equivalent-linear runs of weak motions: as long as every strain stays below the first
    strain of the curves, the run is the linear one. *)
From Verif Require Import Common Model.Curve Model.Layer Model.Profile Model.Cplx Model.Waves Model.Eql
  Model.Averages Model.Output Model.Motion Model.Results
  Spec.CurveSpec Spec.LayerSpec Spec.WaveSpec Spec.EqlSpec Spec.MotionSpec Spec.ResultsSpec Spec.WeakSpec
  Proof.CommonFacts Proof.CurveFacts Proof.LayerFacts Proof.CplxFacts Proof.MotionFacts Proof.MotionProps
  Proof.WaveFacts Proof.WaveEnergy Proof.WaveProps Proof.EqlFacts Proof.EqlProps Proof.EqlResults Proof.EqlPhysical
  Proof.ResultsProps Proof.ResultsRuns.
From Coq Require Import List.
From Coquelicot Require Import Complex.
Local Open Scope R_scope.

Lemma begins_call c s0 v0 s : begins_at c s0 v0 -> s <= s0 -> curve_call c s = Ok v0.
Proof.
  intros (G & H & H9 & Hv) Hs. rewrite (curve_first c s0 v0 s G H H9 Hs). f_equal. apply clip_id; lra.
Qed.

Lemma weak_set l s e : unaffected_below (l_soil l) e -> s <= e ->
  l_G (set_strain l s) = mkIter (initial_shear_mod l) (shear_mod l) /\
  l_D (set_strain l s) = mkIter (l_dmin l) (damping l).
Proof.
  intros [HM HD] Hs. unfold set_strain, iter_set; cbn [l_G l_D].
  assert (E1 : compute_mod l s = initial_shear_mod l).
  { unfold compute_mod. destruct (s_mod (l_soil l)) as [c|] eqn:Em; [|ring].
    destruct (HM c eq_refl) as (s0 & B & Hb). rewrite (begins_call c s0 1 s B) by lra. ring. }
  assert (E2 : compute_damping l s = l_dmin l).
  { destruct (s_damp (l_soil l)) as [d|c] eqn:Ed.
    - unfold compute_damping. rewrite Ed. ring.
    - destruct (HD c eq_refl) as (s0 & v0 & (G & H & H9 & Hv) & Hb).
      apply (compute_damping_small l c s0 v0 s Ed G H H9); [lra|exact Hv]. }
  rewrite E1, E2. now split.
Qed.

Lemma used_below P mx s e : used_strain P mx s -> e_ratio P * mx <= e -> s <= e.
Proof.
  intros [U1 U2] H. destruct (e_limit P) as [x|] eqn:El.
  - destruct (Req_dec x 0) as [->|Nx].
    + rewrite U2; [exact H|]. intros y [Hy Ny]. congruence.
    + destruct (Rlt_le_dec x (e_ratio P * mx)) as [L|L].
      * rewrite (U1 x (conj El Nx) L). lra.
      * rewrite U2; [exact H|]. intros y [Hy _]. assert (y = x) by congruence. subst. exact L.
  - rewrite U2; [exact H|]. intros y [Hy _]. congruence.
Qed.

(** The layers are left at rest. *)
Lemma eql_weak_rest P m lin ls wv (e : nat -> R) : ls <> [] ->
  (forall i l, nth_error ls i = Some l -> unaffected_below (l_soil l) (e i)) ->
  0 < e_tol P -> (0 < e_max P)%Z ->
  le_call m true ls = Ok wv ->
  (forall i l, nth_error ls i = Some l -> (m_pgv m / 100) / l_vs l <= e i) ->
  (forall i l mx, nth_error ls i = Some l -> (i < length ls - 1)%nat ->
     calc_strain_max m (length ls) wv lin i l = Ok mx -> e_ratio P * mx <= e i) ->
  forall t r, eql_call P m lin true ls = (t, r) ->
  (exists x, r = Err x /\ (kernel_exn x \/ exists tf, m_peak m tf = Err x)) \/
  (length t = 1%nat /\ exists ls', r = Ok (Converged, ls', wv) /\ length ls' = length ls /\
   forall i l0, nth_error ls i = Some l0 -> exists l, nth_error ls' i = Some l /\
     same_site l l0 /\ at_rest l /\ max_error l = EFin 0).
Proof.
  intros Hne HF Htol Hmax Hle Hest Hstr t r H. unfold le_call in Hle.
  destruct (call_loop P m lin true ls t r H) as [(_ & x & _ & Ew)|(wv0 & out & Ew & El & ->)]; [congruence|].
  set (ls1 := start_layers m true ls) in *.
  assert (HR : forall i l0, nth_error ls i = Some l0 -> exists l1, nth_error ls1 i = Some l1 /\
     same_site l1 l0 /\ at_rest l1 /\ max_error l1 = EFin 0).
  { intros i l0 Hi. unfold ls1, start_layers, estimate_strains. rewrite map_map.
    eexists. split; [apply map_nth_error, Hi|].
    destruct (weak_set (layer_reset (layer_reset l0)) ((m_pgv m / 100) / l_vs (layer_reset (layer_reset l0))) (e i)
      (HF i l0 Hi) (Hest i l0 Hi)) as [G1 G2].
    split; [now repeat split|]. split.
    - split; [unfold shear_mod at 1; now rewrite G1|unfold damping; now rewrite G2].
    - apply rest_error; [rewrite G1|rewrite G2]; reflexivity. }
  assert (Hlen1 : length ls1 = length ls) by apply start_length.
  assert (EW : calc_waves m ls1 = Ok wv).
  { rewrite <- Hle. unfold calc_waves. f_equal.
    replace (map wlayer_of ls1) with (map wlayer_of (map layer_reset ls)); [reflexivity|].
    apply nth_error_ext_len; [rewrite !map_length; lia|]. intros i x y Hx Hy.
    rewrite map_map in Hx. apply map_nth_inv in Hx. destruct Hx as (l0 & Hl0 & <-).
    apply map_nth_inv in Hy. destruct Hy as (l1 & Hl1 & <-).
    destruct (HR i l0 Hl0) as (l1' & E & Hs & A & _). replace l1' with l1 in * by congruence.
    symmetry. apply wlayer_at_rest; [|exact A|].
    - destruct Hs as (? & ? & ? & ?). now repeat split.
    - split; reflexivity. }
  destruct (Z.to_nat (e_max P)) as [|fuel] eqn:Ef; [lia|]. cbn [eql_loop] in El. rewrite EW in El.
  assert (Hne1 : ls1 <> []) by (now apply start_nonempty).
  destruct (eql_pass P m lin wv ls1) as [st|x] eqn:Ep.
  2:{ injection El as <- <-. left. exists x. split; [reflexivity|]. exact (pass_err _ _ _ _ _ _ Hne1 Ep). }
  destruct (last_some ls1 Hne1) as [b Hb].
  destruct (pass_nth _ _ _ _ _ _ _ Hb Ep) as (L1 & L2 & L3).
  destruct (pass_spec _ _ _ _ _ _ _ Hb Ep) as (upd & Eu & Hlu & Eup & Emax).
  assert (HQ : forall i l0, nth_error ls i = Some l0 -> exists l, nth_error (st_layers st) i = Some l /\
     same_site l l0 /\ at_rest l /\ max_error l = EFin 0).
  { intros i l0 Hi. destruct (HR i l0 Hi) as (l1 & E1 & S1 & A1 & X1).
    assert (Hil : (i < length ls)%nat) by (apply nth_error_Some; congruence).
    destruct (Nat.eq_dec i (length ls1 - 1)) as [->|Ni].
    - exists l1. rewrite <- L1, <- last_opt_nth, L2. rewrite <- last_opt_nth in E1.
      split; [congruence|]. split; [exact S1|]. split; [exact A1|exact X1].
    - assert (E1' : nth_error (removelast ls1) i = Some l1) by (rewrite nth_removelast_lt by lia; exact E1).
      destruct (L3 i l1 E1') as (mx & s & M1 & M2 & E3). exists (set_strain l1 s).
      assert (HL : unaffected_below (l_soil l1) (e i)).
      { destruct S1 as [-> _]. now apply HF. }
      assert (Hs : s <= e i).
      { apply (used_below P mx s _ M2). apply (Hstr i l0 mx Hi); [lia|]. rewrite <- Hlen1, <- M1.
        apply strain_max_thick. destruct S1 as (_ & E & _). congruence. }
      destruct (weak_set l1 s (e i) HL Hs) as [G1 G2].
      split; [now apply nth_removelast|]. split; [exact S1|]. split.
      + split; [unfold shear_mod at 1; now rewrite G1|unfold damping; now rewrite G2].
      + destruct A1 as [A1 A2].
        apply rest_error; [rewrite G1|rewrite G2]; cbn [it_value it_prev]; congruence. }
  assert (HE0 : st_error st = EFin 0).
  { assert (HE : forall xs, xs <> [] -> (forall x, In x xs -> max_error x = EFin 0) -> max_errors xs = Ok (EFin 0)).
    { clear. induction xs as [|x xs IH]; [congruence|]. intros _ H. cbn [max_errors]. destruct xs as [|y ys].
      - rewrite (H x (or_introl eq_refl)). reflexivity.
      - rewrite IH; [|discriminate|intros z Hz; apply H; now right]. cbn [bind].
        rewrite (H x (or_introl eq_refl)). cbn [perr_max]. do 2 f_equal. apply Rmax_left. lra. }
    rewrite HE in Emax; [congruence| |].
    - rewrite Eu. now destruct upd.
    - intros x Hx. apply In_nth_error in Hx. destruct Hx as [i Hi].
      destruct (nth_error ls i) as [l0|] eqn:El0.
      + destruct (HQ i l0 El0) as (l & E & _ & _ & X). congruence.
      + apply nth_error_None in El0. assert (i < length (st_layers st))%nat by (apply nth_error_Some; congruence). lia. }
  assert (Hbel : err_below (st_error st) (e_tol P) = true).
  { rewrite HE0. cbn. unfold Rltb. destruct (Rlt_dec 0 (e_tol P)); [reflexivity|contradiction]. }
  rewrite Hbel in El. injection El as <- <-. right. split; [reflexivity|]. cbn [bind].
  destruct (set_maxs_spec m (length (st_layers st)) wv lin (removelast (st_layers st)) 0) as (u & E1 & E2 & E3).
  { intros j l Hj. cbn [plus].
    assert (HJ : (j < length (removelast ls1))%nat).
    { assert (j < length (removelast (st_layers st)))%nat by (apply nth_error_Some; congruence).
      pose proof (length_removelast _ _ L2). pose proof (length_removelast _ _ Hb). lia. }
    destruct (nth_error (removelast ls1) j) as [l1|] eqn:E1; [|apply nth_error_None in E1; lia].
    destruct (L3 j l1 E1) as (mx & s & B1 & _ & B3). exists mx. rewrite L1, <- B1.
    apply strain_max_thick. replace l with (set_strain l1 s) by congruence. reflexivity. }
  rewrite E1, L2. cbn [bind]. eexists. split; [reflexivity|]. pose proof (length_removelast _ _ L2) as R.
  split; [rewrite app_length; cbn [length]; lia|].
  intros i l0 Hi. destruct (HQ i l0 Hi) as (l & Q1 & Q2 & Q3 & Q4).
  assert (Hil : (i < length ls)%nat) by (apply nth_error_Some; congruence).
  destruct (Nat.eq_dec i (length (st_layers st) - 1)) as [->|Ni].
  - exists l. rewrite <- last_opt_nth in Q1. rewrite nth_error_app2 by lia.
    replace (length (st_layers st) - 1 - length u)%nat with 0%nat by lia. cbn [nth_error].
    split; [congruence|]. now split.
  - rewrite <- nth_removelast_lt in Q1 by lia. destruct (E3 i l Q1) as (mx & _ & Eu').
    exists (set_strain_max l mx). rewrite nth_error_app1 by (apply nth_error_Some; congruence).
    split; [exact Eu'|]. split; [exact Q2|]. split; [exact Q3|exact Q4].
Qed.

(** Every soil starts at its small-strain values, up to a strain its layer does not reach:
    neither with the first estimate nor with the strain of the linear waves. *)
Theorem eql_weak P m lin ls wv (e : nat -> R) : ls <> [] ->
  (forall i l, nth_error ls i = Some l -> unaffected_below (l_soil l) (e i)) ->
  0 < e_tol P -> (0 < e_max P)%Z ->
  le_call m true ls = Ok wv ->
  (forall i l, nth_error ls i = Some l -> (m_pgv m / 100) / l_vs l <= e i) ->
  (forall i l mx, nth_error ls i = Some l -> (i < length ls - 1)%nat ->
     calc_strain_max m (length ls) wv lin i l = Ok mx -> e_ratio P * mx <= e i) ->
  forall t r, eql_call P m lin true ls = (t, r) ->
  (exists x, r = Err x /\ (kernel_exn x \/ exists tf, m_peak m tf = Err x)) \/
  (length t = 1%nat /\ exists ls', r = Ok (Converged, ls', wv) /\ length ls' = length ls /\
   forall i l0, nth_error ls i = Some l0 -> exists l, nth_error ls' i = Some l /\
     l_soil l = l_soil l0 /\ l_thick l = l_thick l0 /\
     shear_mod l = initial_shear_mod l0 /\ damping l = l_dmin l0).
Proof.
  intros Hne HF Htol Hmax Hle Hest Hstr t r H.
  destruct (eql_weak_rest P m lin ls wv e Hne HF Htol Hmax Hle Hest Hstr t r H) as [E|(Ht & ls' & -> & HL & HQ)]; [now left|].
  right. split; [exact Ht|]. exists ls'. split; [reflexivity|]. split; [exact HL|]. intros i l0 Hi.
  destruct (HQ i l0 Hi) as (l & E & (S1 & S2 & S3 & S4) & [A1 A2] & _). exists l. split; [exact E|]. split; [exact S1|]. split; [exact S2|].
  rewrite A1, A2. split; [|exact S4]. unfold initial_shear_mod. now rewrite S1, S3.
Qed.

(** For physical profiles nothing fails. *)
Theorem eql_weak_physical P m lin ls wv (e : nat -> R) : ls <> [] -> List.Forall physical ls -> clear_freqs m ->
  (forall i l, nth_error ls i = Some l -> unaffected_below (l_soil l) (e i)) ->
  0 < e_tol P -> (0 < e_max P)%Z ->
  (loc_index lin < length ls)%nat -> loc_field lin <> Within ->
  answers m -> (forall tf, m_peak m tf <> Err RuntimeError) ->
  le_call m true ls = Ok wv ->
  (forall i l, nth_error ls i = Some l -> (m_pgv m / 100) / l_vs l <= e i) ->
  (forall i l mx, nth_error ls i = Some l -> (i < length ls - 1)%nat ->
     calc_strain_max m (length ls) wv lin i l = Ok mx -> e_ratio P * mx <= e i) ->
  exists t ls', eql_call P m lin true ls = (t, Ok (Converged, ls', wv)) /\ length t = 1%nat /\ length ls' = length ls /\
   forall i l0, nth_error ls i = Some l0 -> exists l, nth_error ls' i = Some l /\
     l_soil l = l_soil l0 /\ l_thick l = l_thick l0 /\
     shear_mod l = initial_shear_mod l0 /\ damping l = l_dmin l0.
Proof.
  intros Hne HP Hm HF Htol Hmax Hlin Hfld Hpk Hrt Hle Hest Hstr.
  destruct (eql_call P m lin true ls) as [t r] eqn:E.
  destruct (eql_weak P m lin ls wv e Hne HF Htol Hmax Hle Hest Hstr t r E) as [(x & -> & He)|(Ht & ls' & -> & HL & HQ)].
  - exfalso. destruct (eql_only_limit_error P m lin ls t _ Hne HP Hm Hlin Hfld Hpk E) as [G|[o G]]; [|discriminate].
    injection G as ->. destruct He as [[G|G]|[tf G]]; try discriminate. now apply (Hrt tf).
  - exists t, ls'. split; [reflexivity|]. split; [exact Ht|]. now split.
Qed.

(** ** Scaled records *)
Lemma peak_scaled dt c a fa m m' tf p : new_motion dt a fa = Ok m -> new_motion dt (map (Rmult c) a) fa = Ok m' ->
  calc_peak m tf = Ok p -> calc_peak m' tf = Ok (Rabs c * p).
Proof.
  intros H H' Hp. unfold calc_peak in *. destruct (calc_time_series m tf) as [s|] eqn:Es; [|discriminate].
  rewrite (series_scale dt c a fa m m' tf s H H' Es). cbn [bind] in *. injection Hp as <-. now rewrite peak_scale.
Qed.
Lemma scaled_freqs dt c a fa m m' : new_motion dt a fa = Ok m -> new_motion dt (map (Rmult c) a) fa = Ok m' ->
  t_freqs m' = t_freqs m.
Proof. intros H H'. now destruct (motion_comb _ _ _ _ _ _ _ _ _ _ (scale_combines c a) H H H') as (_ & EF & _). Qed.
Lemma pgv_scaled dt c a fa m m' v : new_motion dt a fa = Ok m -> new_motion dt (map (Rmult c) a) fa = Ok m' ->
  calc_pgv m None = Ok v -> calc_pgv m' None = Ok (Rabs c * v).
Proof.
  intros H H' Hv. unfold calc_pgv in *. unfold tf_av in *. rewrite (scaled_freqs _ _ _ _ _ _ H H').
  match type of Hv with bind ?x _ = _ => destruct x as [t|]; [|discriminate] end. cbn [bind] in *.
  destruct (calc_peak m (Some (OArray t))) as [p|] eqn:Ep; [|discriminate].
  rewrite (peak_scaled dt c a fa m m' _ p H H' Ep). cbn [bind] in *. injection Hv as <-. f_equal. ring.
Qed.

(** A bound of finitely many numbers. *)
Lemma bounded_below_all (n : nat) (f : nat -> R) : exists b, 0 <= b /\ forall i, (i < n)%nat -> f i <= b.
Proof.
  induction n as [|n (b & Hb & IH)]; [exists 0; split; [lra|lia]|].
  exists (Rmax b (f n)). split; [apply Rle_trans with b; [exact Hb|apply Rmax_l]|]. intros i Hi.
  destruct (Nat.eq_dec i n) as [->|Ni]; [apply Rmax_r|].
  apply Rle_trans with b; [apply IH; lia|apply Rmax_l].
Qed.

(** Every record, made weak enough, leaves the site as it was. *)
Theorem weak_enough P lin ls dt a fa m n v wv e0 : ls <> [] -> List.Forall physical ls -> 0 < e0 ->
  List.Forall (fun l => unaffected_below (l_soil l) e0) ls ->
  0 < e_tol P -> (0 < e_max P)%Z ->
  (loc_index lin < length ls)%nat -> loc_field lin <> Within ->
  0 < dt -> new_motion dt a fa = Ok m -> fft_length (length a) fa n -> Z.even n = true -> IZR n * dt <= 6e8 ->
  calc_pgv m None = Ok v ->
  le_call (as_motion m v) true ls = Ok wv ->
  exists c0, 0 < c0 /\ forall c mc vc, Rabs c <= c0 ->
    new_motion dt (map (Rmult c) a) fa = Ok mc -> calc_pgv mc None = Ok vc ->
    exists t ls', eql_call P (as_motion mc vc) lin true ls = (t, Ok (Converged, ls', wv)) /\ length t = 1%nat /\
      length ls' = length ls /\
      forall i l0, nth_error ls i = Some l0 -> exists l, nth_error ls' i = Some l /\
        l_soil l = l_soil l0 /\ l_thick l = l_thick l0 /\
        shear_mod l = initial_shear_mod l0 /\ damping l = l_dmin l0.
Proof.
  intros Hne HP He0 HF Htol Hmax Hlin Hfld Hdt Hm Hn Heven Hlong Hv Hle.
  set (A := as_motion m v).
  destruct (bounded_below_all (length ls) (fun i => match nth_error ls i with Some l => (v / 100) / l_vs l | None => 0 end))
    as (b1 & Hb1 & B1).
  destruct (bounded_below_all (length ls) (fun i => match nth_error ls i with
      Some l => match calc_strain_max A (length ls) wv lin i l with Ok mx => e_ratio P * mx | Err _ => 0 end | None => 0 end))
    as (b2 & Hb2 & B2).
  exists (e0 / (1 + b1 + b2)). assert (HD : 0 < 1 + b1 + b2) by lra.
  split; [now apply Rdiv_lt_0_compat|]. intros c mc vc Hc Hmc Hvc.
  assert (HK : Rabs c * (1 + b1 + b2) <= e0).
  { apply (Rmult_le_compat_r (1 + b1 + b2)) in Hc; [|lra]. unfold Rdiv in Hc. rewrite Rmult_assoc, Rinv_l in Hc by lra. lra. }
  pose proof (Rabs_pos c) as Hc0.
  assert (Evc : vc = Rabs c * v) by (pose proof (pgv_scaled _ _ _ _ _ _ _ Hm Hmc Hv); congruence).
  pose proof (scaled_freqs _ _ _ _ _ _ Hm Hmc) as EF.
  assert (EA : m_freqs (as_motion mc vc) = m_freqs A) by (unfold A, as_motion, angular_freqs; cbn [m_freqs]; now rewrite EF).
  assert (Hn' : fft_length (length (map (Rmult c) a)) fa n) by now rewrite map_length.
  apply (eql_weak_physical P (as_motion mc vc) lin ls wv (fun _ => e0)); try assumption.
  - exact (clear_record dt _ fa mc n vc Hdt Hmc Hn' Hlong).
  - intros i l Hl. rewrite Forall_forall in HF. exact (HF l (nth_error_In _ _ Hl)).
  - exact (ts_answers dt _ fa mc n vc Hmc Hn' Heven).
  - exact (ts_no_runtime mc vc).
  - rewrite <- Hle. unfold le_call, calc_waves. now rewrite EA.
  - intros i l Hl. cbn [as_motion m_pgv]. rewrite Evc.
    assert (Hi : (i < length ls)%nat) by (apply nth_error_Some; congruence).
    specialize (B1 i Hi). cbv beta in B1. rewrite Hl in B1.
    replace (Rabs c * v / 100 / l_vs l) with (Rabs c * (v / 100 / l_vs l)) by (unfold Rdiv; ring).
    nra.
  - intros i l mx Hl Hi Hmx.
    assert (Hi' : (i < length ls)%nat) by lia.
    specialize (B2 i Hi'). cbv beta in B2. rewrite Hl in B2.
    unfold calc_strain_max in Hmx, B2.
    assert (ET : calc_strain_tfs (as_motion mc vc) (length ls) wv lin (mkLoc i (l_thick l / 2) Within) =
                 calc_strain_tfs A (length ls) wv lin (mkLoc i (l_thick l / 2) Within)).
    { unfold calc_strain_tfs. now rewrite EA. }
    rewrite ET in Hmx. destruct (calc_strain_tfs A (length ls) wv lin (mkLoc i (l_thick l / 2) Within)) as [tf|] eqn:Et; [|discriminate].
    cbn [bind] in Hmx, B2. cbn [as_motion m_peak A] in Hmx, B2. unfold A in B2. cbn [as_motion m_peak] in B2.
    assert (HLt : length tf = length (m_freqs A)).
    { unfold calc_strain_tfs in Et. cbn [loc_field] in Et. destruct (_ && _)%bool; [|discriminate].
      apply mapM_nth in Et. destruct Et as [Et _]. rewrite Et, combine_length.
      unfold le_call, calc_waves in Hle. apply mapM_nth in Hle. destruct Hle as [Hle _]. rewrite Hle. fold A. lia. }
    destruct (ts_answers dt a fa m n v Hm Hn Heven tf HLt) as [p Hp]. cbn [as_motion m_peak] in Hp.
    rewrite Hp in B2. rewrite (peak_scaled dt c a fa m mc _ p Hm Hmc Hp) in Hmx. injection Hmx as <-.
    replace (e_ratio P * (Rabs c * p)) with (Rabs c * (e_ratio P * p)) by ring. nra.
Qed.
