(** Whole runs of the equivalent-linear calculator on time-series records. *)
From Verif Require Import Common Model.Curve Model.Layer Model.Profile Model.Cplx Model.Waves Model.Eql.
From Verif Require Import Model.Averages Model.Output Model.Motion Model.Results.
From Verif Require Import Spec.ProfileSpec Spec.MotionSpec Spec.WaveSpec Spec.EqlSpec Spec.ResultsSpec.
From Verif Require Import Proof.CommonFacts Proof.MotionFacts Proof.MotionProps Proof.EqlFacts Proof.EqlProps Proof.EqlPhysical
  Proof.EqlResults Proof.ResultsProps.
From Coquelicot Require Import Complex.
Local Open Scope R_scope.

Lemma length_given dt a fa m n : new_motion dt a fa = Ok m -> fft_length (length a) fa n -> new_motion dt a (Some n) = Ok m.
Proof.
  intros H Hn. assert (E : n = match fa with None => Z.of_nat (next_length (length a)) | Some n => n end).
  { apply (fft_length_unique _ _ _ _ Hn). unfold fft_length. destruct fa; [reflexivity|]. split; [lia|]. rewrite Nat2Z.id. apply next_length_spec. }
  subst n. destruct fa; exact H.
Qed.

(** A record with an even FFT length has a peak for every transfer function. *)
Lemma ts_answers dt a fa m n v : new_motion dt a fa = Ok m -> fft_length (length a) fa n -> Z.even n = true -> answers (as_motion m v).
Proof.
  intros H Hn He tf HL. cbn [as_motion m_freqs] in HL. unfold angular_freqs in HL. rewrite map_length in HL.
  destruct (response_spectrum dt a n m tf He (length_given _ _ _ _ _ H Hn) HL) as (ts & rec & E & _).
  cbn [as_motion m_peak]. unfold calc_peak. rewrite E. now eexists.
Qed.
Lemma ts_no_runtime m v tf : m_peak (as_motion m v) tf <> Err RuntimeError.
Proof.
  cbn [as_motion m_peak]. unfold calc_peak, calc_time_series. destruct (np_mul (OArray tf) (fourier_amps m)) as [p|e] eqn:E; cbn [bind].
  - unfold irfft. destruct (length _) as [|[|h]]; discriminate.
  - cbn [np_mul] in E. destruct (Nat.eqb _ _); [discriminate|]. destruct tf as [|x [|y tf]]; [|discriminate|];
    destruct (fourier_amps m) as [|z [|z' A]]; try discriminate; injection E as <-; discriminate.
Qed.

(** The waves that a run leaves behind are those of some sound layers. *)
Lemma eql_waves P m lin ls t stop ls' wv : ls <> [] -> List.Forall physical ls ->
  eql_call P m lin true ls = (t, Ok (stop, ls', wv)) ->
  length ls' = length ls /\
  exists lsw, lsw <> [] /\ List.Forall sound lsw /\ calc_waves m lsw = Ok wv /\ length lsw = length ls.
Proof.
  intros Hne HF H.
  assert (HR : List.Forall sound (map layer_reset ls)).
  { apply Forall_forall. intros x Hx. apply in_map_iff in Hx. destruct Hx as (l & <- & Hl).
    rewrite Forall_forall in HF. now apply reset_sound', HF. }
  destruct (call_loop P m lin true ls t _ H) as [(_ & e & E & _)|(wv0 & out & Ew & El & Er)]; [discriminate|].
  destruct out as [[[stop2 ls2] wv2]|e]; cbn [bind] in Er; [|discriminate].
  destruct (set_strain_maxs m (length ls2) wv2 lin 0 (removelast ls2)) as [upd|e] eqn:Es; cbn [bind] in Er; [|discriminate].
  injection Er as <- E2 <-. destruct (set_maxs_nth _ _ _ _ _ _ _ Es) as [M1 _].
  assert (L2 : length ls' = length ls2).
  { rewrite E2, app_length, M1. destruct (last_opt ls2) as [b|] eqn:Eb.
    - pose proof (length_removelast _ _ Eb). cbn. lia.
    - apply last_opt_none in Eb. now subst ls2. }
  destruct (loop_last _ _ _ _ _ _ _ _ _ _ _ _ El) as [(-> & -> & ->)|(h0 & lsp & st & E1 & _ & <- & E4 & E5)].
  - rewrite start_length in L2. split; [exact L2|].
    exists (map layer_reset ls). split; [now destruct ls|]. split; [exact HR|]. split; [exact Ew|]. now rewrite map_length.
  - pose proof (loop_passes _ _ _ _ _ _ _ _ _ _ El) as HP.
    assert (Hin : In lsp (history (start_layers m true ls) t)) by (rewrite E1; apply in_or_app; right; now left).
    pose proof (passes_kept P m lin t _ (start_nonempty m true ls Hne) HP lsp Hin) as (K1 & _ & _).
    rewrite start_length in K1.
    assert (Hlsp : lsp <> []) by (intros ->; destruct ls; [contradiction|discriminate]).
    destruct (pass_kept _ _ _ _ _ _ Hlsp E5) as [K _].
    split; [congruence|]. exists lsp. split; [exact Hlsp|]. split; [|split; [exact E4|exact K1]].
    apply fit_sounds. clear -HP Hin HF Hne.
    revert HP Hin. pose proof (start_fit m ls HF) as HS. pose proof (start_nonempty m true ls Hne) as HN.
    revert HS HN. generalize (start_layers m true ls) as ls1. revert lsp.
    induction t as [|s t IH]; intros lsp ls1 HS HN HP Hin.
    + destruct Hin as [<-|[]]. exact HS.
    + destruct HP as (w & _ & Ep & HP). destruct Hin as [<-|Hin]; [exact HS|].
      apply (IH lsp (st_layers s)); [exact (pass_fit _ _ _ _ _ _ HN HS Ep)| |exact HP|exact Hin].
      exact (pass_nonempty _ _ _ _ _ _ HN Ep).
Qed.

Theorem eql_record dt a fa m n v P lin ls : 0 < dt -> new_motion dt a fa = Ok m -> fft_length (length a) fa n ->
  Z.even n = true -> IZR n * dt <= 6e8 -> ls <> [] -> List.Forall physical ls -> (loc_index lin < length ls)%nat ->
  loc_field lin <> Within -> (forall x, ~ limit_on P x) ->
  exists t stop ls' wv, eql_call P (as_motion m v) lin true ls = (t, Ok (stop, ls', wv)).
Proof.
  intros Hdt H Hn He Hl Hne HF Hi Hf HX. destruct (eql_call P (as_motion m v) lin true ls) as [t r] eqn:E.
  destruct (eql_only_limit_error P _ lin ls t r Hne HF (clear_record dt a fa m n v Hdt H Hn Hl) Hi Hf (ts_answers dt a fa m n v H Hn He) E) as [->|[[[stop ls'] wv] ->]].
  - exfalso. destruct (eql_limit_error P _ lin true ls t _ Hne (ts_no_runtime m v) E) as [[HE _] _].
    destruct (HE eq_refl) as (pre & x & y & post & Et & Lx & _).
    assert (Hin : In x t) by (rewrite Et; apply in_or_app; right; now left).
    destruct (eql_limited_flag P _ lin true ls t _ Hne ltac:(discriminate) E x Hin Lx) as (z & _ & Hz & _). exact (HX z Hz).
  - now exists t, stop, ls', wv.
Qed.

(** After a run the motion at the input location is the record. *)
Theorem eql_input dt a fa m n v P lin ls t stop ls' wv wt : 0 < dt -> new_motion dt a fa = Ok m -> fft_length (length a) fa n ->
  Z.even n = true -> IZR n * dt <= 6e8 -> ls <> [] -> List.Forall physical ls -> (loc_index lin < length ls)%nat ->
  loc_field lin <> Within -> eql_call P (as_motion m v) lin true ls = (t, Ok (stop, ls', wv)) ->
  let K := mkCalc m ls' wt lin wv in
  exists ts, accel_series K lin = Ok (Some ts) /\ is_padded (Z.to_nat n) a ts.
Proof.
  intros Hdt H Hn He Hl Hne HF Hi Hf E K.
  destruct (eql_waves P _ lin ls t stop ls' wv Hne HF E) as (L' & lsw & W1 & W2 & W3 & W4).
  destruct (input_physical dt a fa m n v lsw K Hdt H Hn He Hl W1 W2 W3 eq_refl) as (G & _); cbn [K k_layers k_input].
  - congruence.
  - now rewrite W4.
  - intros Q. contradiction.
  - exact G.
Qed.

(** With an odd FFT length of at least 3 every run fails. *)
Theorem eql_odd dt a m n v P lin ls : 0 < dt -> new_motion dt a (Some n) = Ok m -> Z.odd n = true -> (3 <= n)%Z ->
  IZR n * dt <= 6e8 -> (2 <= length ls)%nat -> List.Forall physical ls -> (loc_index lin < length ls)%nat ->
  loc_field lin <> Within -> eql_call P (as_motion m v) lin true ls = ([], Err ValueError).
Proof.
  intros Hdt H Ho Hn Hl Hlen HF Hi Hf. set (mo := as_motion m v).
  assert (Hc : clear_freqs mo) by (exact (clear_record dt a (Some n) m n v Hdt H eq_refl Hl)).
  assert (Hne : ls <> []) by (intros ->; cbn in Hlen; lia).
  assert (HR : List.Forall sound (map layer_reset ls)).
  { apply Forall_forall. intros x Hx. apply in_map_iff in Hx. destruct Hx as (l & <- & Hl').
    rewrite Forall_forall in HF. now apply reset_sound', HF. }
  destruct (waves_sound mo (map layer_reset ls) ltac:(now destruct ls) HR Hc) as [wv0 Ew].
  assert (HS : forall lsw wv l, lsw <> [] -> List.Forall sound lsw -> calc_waves mo lsw = Ok wv -> length lsw = length ls ->
     calc_strain_max mo (length ls) wv lin 0 l = Err ValueError).
  { intros lsw wv l N1 N2 N3 N4. unfold calc_strain_max. rewrite <- N4.
    destruct (strain_sound mo lsw wv lin 0 (l_thick l / 2) N1 N2 Hc N3 ltac:(lia) Hf ltac:(lia)) as (tf & -> & Lt). cbn [bind].
    cbn [mo as_motion m_peak m_freqs] in *. unfold angular_freqs in Lt. rewrite map_length in Lt.
    unfold calc_peak. rewrite (odd_length_fails dt a n m tf Ho Hn H Lt). reflexivity. }
  unfold eql_call, le_call. rewrite Ew.
  assert (EST : estimate_strains mo (map layer_reset ls) = start_layers mo true ls) by reflexivity. rewrite EST.
  pose proof (start_fit mo ls HF) as SF. pose proof (start_length mo true ls) as SL. pose proof (start_nonempty mo true ls Hne) as SN.
  destruct (start_layers mo true ls) as [|l0 [|l1 rest]] eqn:ES; cbn [length] in SL; try lia.
  assert (HRL : removelast (l0 :: l1 :: rest) = l0 :: removelast (l1 :: rest)) by reflexivity.
  destruct (Z.to_nat (e_max P)) as [|fuel]; cbn [eql_loop].
  - cbn [bind]. cbn [length]. rewrite SL, HRL. cbn [set_strain_maxs].
    rewrite (HS (map layer_reset ls) wv0 l0 ltac:(now destruct ls) HR Ew ltac:(now rewrite map_length)). reflexivity.
  - destruct (waves_sound mo (l0 :: l1 :: rest) SN (fit_sounds _ SF) Hc) as [wv1 Ew1]. rewrite Ew1.
    unfold eql_pass. cbn [length]. rewrite SL, HRL. cbn [update_strains].
    rewrite (HS (l0 :: l1 :: rest) wv1 l0 SN (fit_sounds _ SF) Ew1 SL). reflexivity.
Qed.
