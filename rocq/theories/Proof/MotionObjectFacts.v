(** Motions as objects: cached measures and the shared array. *)
From Verif Require Import Common Model.Layer Model.Averages Model.Output Model.Motion Model.MotionObject Spec.MotionSpec
  Spec.IntensitySpec Proof.CommonFacts Proof.MotionFacts Proof.MotionProps Proof.IntensityProps.
From Coquelicot Require Import Complex.
Local Open Scope R_scope.

(** Everything the measures depend on, and caches that hold them. *)
Definition same_spectrum (m m' : ts_motion) : Prop := t_dt m' = t_dt m /\ t_amps m' = t_amps m /\ t_freqs m' = t_freqs m.
Lemma series_same m m' tf : same_spectrum m m' -> calc_time_series m' tf = calc_time_series m tf.
Proof. intros (E1 & E2 & E3). unfold calc_time_series, fourier_amps. now rewrite E1, E2. Qed.
Lemma measured_same m m' q : same_spectrum m m' -> measured m' q = measured m q.
Proof.
  intros HS. pose proof HS as (E1 & E2 & E3). destruct q; cbn [measured]; unfold calc_pgv, motion_arias, motion_cav, calc_peak, tf_av;
    rewrite ?E3, ?E1, ?(series_same m m') by exact HS; try reflexivity.
  destruct (np_mul _ _); [|reflexivity]. cbn [bind]. now rewrite (series_same m m') by exact HS.
Qed.
Definition holds (m0 : ts_motion) (o : motion_obj) : Prop :=
  same_spectrum m0 (o_motion o) /\
  (forall v, o_pga o = Some v -> measured m0 Pga = Ok v) /\ (forall v, o_pgv o = Some v -> measured m0 Pgv = Ok v) /\
  (forall v, o_arias o = Some v -> measured m0 Arias = Ok v) /\ (forall v, o_cav o = Some v -> measured m0 Cav = Ok v).
Lemma call_holds m0 o c r o' : holds m0 o -> do_call c o = (r, o') ->
  holds m0 o' /\ (forall q, c = Read q -> r = measured m0 q).
Proof.
  intros (HS & H1 & H2 & H3 & H4) H.
  assert (M : forall q, measured (o_motion o) q = measured m0 q) by (intros q; now apply measured_same).
  destruct c as [[]|i x]; cbn [do_call] in H.
  - unfold read_pga in H. specialize (M Pga). cbn [measured] in M. destruct (o_pga o) as [v|] eqn:E.
    + injection H as <- <-. split; [|intros q [= <-]; symmetry; now apply H1]. repeat split; auto; try apply HS. intros v' Hv. apply H1. congruence.
    + rewrite M in H. destruct (calc_peak m0 None) as [v|e] eqn:EC; injection H as <- <-.
      * split; [|intros q [= <-]; now cbn]. split; [exact HS|]. cbn. split; [now intros v' [= <-]|]. repeat split; auto.
      * split; [|intros q [= <-]; now cbn]. split; [exact HS|]. repeat split; auto. intros v' Hv. congruence.
  - unfold read_pgv in H. specialize (M Pgv). cbn [measured] in M. destruct (o_pgv o) as [v|] eqn:E.
    + injection H as <- <-. split; [|intros q [= <-]; symmetry; now apply H2]. repeat split; auto; try apply HS. intros v' Hv. apply H2. congruence.
    + rewrite M in H. destruct (calc_pgv m0 None) as [v|e] eqn:EC; injection H as <- <-.
      * split; [|intros q [= <-]; now cbn]. split; [exact HS|]. cbn. split; [exact H1|]. split; [now intros v' [= <-]|]. repeat split; auto.
      * split; [|intros q [= <-]; now cbn]. split; [exact HS|]. repeat split; auto. intros v' Hv. congruence.
  - unfold read_arias in H. specialize (M Arias). cbn [measured] in M. destruct (o_arias o) as [v|] eqn:E.
    + injection H as <- <-. split; [|intros q [= <-]; symmetry; now apply H3]. repeat split; auto; try apply HS. intros v' Hv. apply H3. congruence.
    + rewrite M in H. destruct (motion_arias m0 None) as [v|e] eqn:EC; injection H as <- <-.
      * split; [|intros q [= <-]; now cbn]. split; [exact HS|]. cbn. split; [exact H1|]. split; [exact H2|]. split; [now intros v' [= <-]|exact H4].
      * split; [|intros q [= <-]; now cbn]. split; [exact HS|]. repeat split; auto. intros v' Hv. congruence.
  - unfold read_cav in H. specialize (M Cav). cbn [measured] in M. destruct (o_cav o) as [v|] eqn:E.
    + injection H as <- <-. split; [|intros q [= <-]; symmetry; now apply H4]. repeat split; auto; try apply HS. intros v' Hv. apply H4. congruence.
    + rewrite M in H. destruct (motion_cav m0 None) as [v|e] eqn:EC; injection H as <- <-.
      * split; [|intros q [= <-]; now cbn]. split; [exact HS|]. cbn. split; [exact H1|]. split; [exact H2|]. split; [exact H3|now intros v' [= <-]].
      * split; [|intros q [= <-]; now cbn]. split; [exact HS|]. repeat split; auto. intros v' Hv. congruence.
  - unfold write_entry in H. destruct (i <? _)%nat; injection H as <- <-; (split; [|intros q Q; discriminate Q]); split; cbn; auto.
Qed.
Lemma calls_hold m0 cs : forall o rs o', holds m0 o -> do_calls cs o = (rs, o') ->
  holds m0 o' /\ Forall2 (fun c r => forall q, c = Read q -> r = measured m0 q) cs rs.
Proof.
  induction cs as [|c cs IH]; intros o rs o' HO H; cbn [do_calls] in H; [injection H as <- <-; now split|].
  destruct (do_call c o) as [r o1] eqn:E1. destruct (do_calls cs o1) as [rs' o2] eqn:E2. injection H as <- <-.
  destruct (call_holds _ _ _ _ _ HO E1) as [HO1 HR]. destruct (IH _ _ _ HO1 E2) as [HO2 HRs]. split; [exact HO2|]. now constructor.
Qed.
Theorem measures_kept dt a fa m o cs rs o' : new_motion dt a fa = Ok m -> new_object dt a fa = Ok o -> do_calls cs o = (rs, o') ->
  Forall2 (fun c r => forall q, c = Read q -> r = measured m q) cs rs /\
  forall tf, calc_time_series (o_motion o') tf = calc_time_series m tf.
Proof.
  intros H HO HC. unfold new_object in HO. rewrite H in HO. cbn [bind] in HO. injection HO as <-.
  assert (H0 : holds m (mkMO m None None None None)) by (split; [now repeat split|repeat split; cbn; discriminate]).
  destruct (calls_hold m cs _ _ _ H0 HC) as [(HS & _) HR]. split; [exact HR|]. intros tf. now apply series_same.
Qed.

(** The array follows the writes. *)
Lemma nth_written {A} (l : list A) i x j : (i < length l)%nat ->
  nth_error (firstn i l ++ x :: skipn (S i) l) j = if Nat.eqb i j then Some x else nth_error l j.
Proof.
  revert i j; induction l as [|y l IH]; intros [|i] [|j] H; cbn in *; try lia; try reflexivity. apply IH. lia.
Qed.
Theorem record_written dt a fa o cs rs o' i x : new_object dt a fa = Ok o -> do_calls cs o = (rs, o') -> nth_error a i = Some x ->
  nth_error (t_accels (o_motion o')) i = Some (entry_after cs i x).
Proof.
  intros HO HC Hx. unfold new_object in HO. destruct (new_motion dt a fa) as [m|] eqn:H; [|discriminate]. cbn [bind] in HO. injection HO as <-.
  destruct (new_motion_inv _ _ _ _ H) as (_ & _ & _ & _ & _ & Ea & _).
  assert (H0 : nth_error (t_accels (o_motion (mkMO m None None None None))) i = Some x) by (cbn; congruence). clear H Ea Hx a fa dt.
  revert HC H0. generalize (mkMO m None None None None). intros o. revert o rs x. induction cs as [|c cs IH]; intros o rs x HC H0; cbn [do_calls] in HC.
  { injection HC as <- <-. exact H0. }
  destruct (do_call c o) as [r o1] eqn:E1. destruct (do_calls cs o1) as [rs' o2] eqn:E2. injection HC as <- <-.
  assert (RD : forall q, c = Read q -> o_motion o1 = o_motion o).
  { intros q ->. cbn in E1. destruct q; cbn in E1; [unfold read_pga in E1|unfold read_pgv in E1|unfold read_arias in E1|unfold read_cav in E1];
      match type of E1 with match ?X with _ => _ end = _ => destruct X end; try (now injection E1 as <- <-);
      match type of E1 with match ?X with _ => _ end = _ => destruct X end; now injection E1 as <- <-. }
  destruct c as [q|j y]; cbn [entry_after].
  - apply (IH o1 rs' x E2). now rewrite (RD q eq_refl).
  - apply (IH o1 rs' (if Nat.eqb j i then y else x) E2). cbn [do_call] in E1. unfold write_entry in E1. cbv zeta in E1. destruct (Nat.ltb_spec j (length (t_accels (o_motion o)))) as [L|L]; injection E1 as <- <-; cbn [o_motion t_accels].
    + change (nth_error (firstn j (t_accels (o_motion o)) ++ y :: skipn (S j) (t_accels (o_motion o))) i = Some (if Nat.eqb j i then y else x)).
      rewrite nth_written by exact L. destruct (Nat.eqb j i); [reflexivity|exact H0].
    + destruct (Nat.eqb_spec j i) as [->|_]; [|exact H0]. assert (i < length (t_accels (o_motion o)))%nat by (apply nth_error_Some; congruence). lia.
Qed.
(** Reading alone keeps the record and its series together. *)
Theorem record_unwritten dt a fa n o cs rs o' : new_object dt a fa = Ok o -> do_calls cs o = (rs, o') ->
  (forall c, In c cs -> exists q, c = Read q) -> fft_length (length a) fa n -> Z.even n = true ->
  exists ts, calc_time_series (o_motion o') None = Ok ts /\ is_padded (Z.to_nat n) (t_accels (o_motion o')) ts.
Proof.
  intros HO HC HR Hn He. pose proof HO as HO'. unfold new_object in HO'. destruct (new_motion dt a fa) as [m|] eqn:H; [|discriminate]. clear HO'.
  destruct (measures_kept _ _ _ _ _ _ _ _ H HO HC) as [_ ES]. rewrite ES.
  destruct (round_trip dt a fa m None H) as (n' & Hn' & G). rewrite (Proof.ResultsProps.fft_length_unique _ _ _ _ Hn' Hn) in G.
  destruct (G He (or_introl eq_refl)) as (ts & E & HP). exists ts. split; [exact E|].
  assert (EA : t_accels (o_motion o') = a); [|now rewrite EA].
  unfold new_object in HO. rewrite H in HO. cbn [bind] in HO. injection HO as <-. destruct (new_motion_inv _ _ _ _ H) as (_ & _ & _ & _ & _ & Ea & _).
  rewrite <- Ea. assert (G0 : t_accels (o_motion o') = t_accels (o_motion (mkMO m None None None None))); [|exact G0].
  revert HC. generalize (mkMO m None None None None). intros o. revert o rs. clear - HR. induction cs as [|c cs IH]; intros o rs HC; cbn [do_calls] in HC.
  { now injection HC as <- <-. }
  destruct (do_call c o) as [r o1] eqn:E1. destruct (do_calls cs o1) as [rs' o2] eqn:E2. injection HC as <- <-.
  rewrite (IH ltac:(intros; apply HR; now right) o1 rs' E2). f_equal. destruct (HR c (or_introl eq_refl)) as [q ->].
  cbn in E1. destruct q; cbn in E1; [unfold read_pga in E1|unfold read_pgv in E1|unfold read_arias in E1|unfold read_cav in E1];
      match type of E1 with match ?X with _ => _ end = _ => destruct X end; try (now injection E1 as <- <-);
      match type of E1 with match ?X with _ => _ end = _ => destruct X end; now injection E1 as <- <-.
Qed.
(** After a write the record and everything computed disagree. *)
Theorem record_disagrees : exists o i x rs o', new_object 1 (1 :: 2 :: nil) None = Ok o /\ do_calls (cons (Write i x) nil) o = (rs, o') /\
  exists ts, calc_time_series (o_motion o') None = Ok ts /\ ~ is_padded 2 (t_accels (o_motion o')) ts.
Proof.
  destruct (proj2 (new_motion_defined 1 (1 :: 2 :: nil) None)) as [m H]; [split; [lra|exact I]|].
  assert (HO : new_object 1 (1 :: 2 :: nil) None = Ok (mkMO m None None None None)) by (unfold new_object; now rewrite H).
  destruct (do_calls (cons (Write 0 5) nil) (mkMO m None None None None)) as [rs o'] eqn:HC.
  exists (mkMO m None None None None), 0%nat, 5, rs, o'. split; [exact HO|]. split; [exact HC|].
  assert (Hn : fft_length 2 None 2%Z).
  { split; [lia|]. split; [now exists 1%nat|]. split; [cbn; lia|]. intros j Hj. exact Hj. }
  destruct (round_trip _ _ _ m None H) as (n' & Hn' & G). rewrite (Proof.ResultsProps.fft_length_unique _ _ _ _ Hn' Hn) in G.
  destruct (G eq_refl (or_introl eq_refl)) as (ts & E & HP). exists ts.
  destruct (measures_kept _ _ _ _ _ _ _ _ H HO HC) as [_ ES]. rewrite ES. split; [exact E|]. intros [_ HB].
  destruct HP as [_ HP]. change (Z.to_nat 2) with 2%nat in HP. specialize (HB 0%nat ltac:(lia)). specialize (HP 0%nat ltac:(lia)). cbn in HP.
  rewrite (record_written _ _ _ _ _ _ _ 0 1 HO HC eq_refl) in HB. cbn in HB. rewrite HP in HB. injection HB as HB. lra.
Qed.
