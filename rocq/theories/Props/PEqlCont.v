(** Property C168: equivalent-linear results depend continuously on the site. *)
From Verif Require Import Common Model.Curve Model.Layer Model.Profile Model.Cplx Model.Waves Model.Averages Model.Output Model.Eql Model.Motion Model.Results.
From Verif Require Import Spec.CurveSpec Spec.MotionSpec Spec.WaveSpec Spec.EqlSpec Spec.ResultsSpec Spec.CompatibleSpec Spec.ContinuitySpec Spec.EqlContinuitySpec.
From Verif Require Import Proof.CommonFacts Proof.EqlFacts Proof.EqlProps Proof.EqlPhysical Proof.EqlResults Proof.EqlRefute Proof.CompatibleEx Proof.CompatibleExists Proof.CompatibleRecord Proof.ResultsProps Proof.ResultsRuns Proof.ResultsEx Proof.EqlContinuity Proof.EqlRunContinuity Proof.EqlOutputsContinuity.
From Coq Require Import String List.
From Coquelicot Require Import Complex.
Local Open Scope R_scope.

(** C168: if no pass of a run ends with an error exactly equal to the tolerance, no
    strain asked for is exactly the strain limit (which may be reached, or switched
    off), and all dampings are positive, then every site close enough, with the same
    curves, is also analysed without an exception, in the same number of passes,
    stopping for the same reason, and all moduli, dampings and recorded maximum strains
    differ by less than any given amount. The motion is any that has a peak for every
    array and a continuous one (every record, see the next theorem). *)
Theorem C168_call : forall P m lin ls t stop out wv,
  clear_freqs m -> steady_peak m -> answers m ->
  ls <> nil -> List.Forall physical ls -> List.Forall (fun l => tabulated (l_soil l)) ls -> (loc_index lin < length ls)%nat -> loc_field lin <> Within ->
  eql_call P m lin true ls = (t, Ok (stop, out, wv)) -> List.Forall (clear_cut P) t -> clear_limits P m lin ls t ->
  forall eps, 0 < eps -> exists d, 0 < d /\ forall ls', List.Forall physical ls' -> Forall2 (near_site d) ls' ls ->
  exists t' out' wv', eql_call P m lin true ls' = (t', Ok (stop, out', wv')) /\ length t' = length t /\ Forall2 (near_result eps) out' out.
Proof. exact eql_continuous. Qed.
Print Assumptions C168_call.

(** C168: the condition on the tolerance excludes finitely many tolerances only, for
    sites whose damping is positive at every strain. *)
Theorem C168_clear : forall P m lin ls,
  ls <> nil -> List.Forall (fun l => forall s, 0 < compute_damping l s) ls ->
  exists bad : list R, forall x t r, ~ In x bad -> eql_call (with_tol P x) m lin true ls = (t, r) -> List.Forall (clear_cut (with_tol P x)) t.
Proof. exact eql_clear_generic. Qed.
Print Assumptions C168_clear.

(** C168: the condition on the strain limit holds for every limit above some strain, and
    such a limit changes nothing. *)
Theorem C168_limit : forall P m lin ls,
  exists M, 0 < M /\ forall x, M < x ->
  eql_call (with_limit P (Some x)) m lin true ls = eql_call (with_limit P None) m lin true ls /\
  forall t r, eql_call (with_limit P (Some x)) m lin true ls = (t, r) -> clear_limits (with_limit P (Some x)) m lin ls t.
Proof. exact eql_unreached. Qed.
Print Assumptions C168_limit.

(** A nonlinear layer on rock. *)
Definition ec_site : list layer :=
  cons (layer_make (mkSoil 0 "soft"%string 18 (s_mod soft_soil) (DConst 0.05)) 10 200 0.05)
    (cons (layer_make (mkSoil 0 "rock"%string 22 None (DConst 0.01)) 0 800 0.01) nil).
Definition ec_params : eql_params := mkEql 0.65 0.01 15 None.
Lemma ec_physical : List.Forall physical ec_site.
Proof. apply Forall_cons; [|apply Forall_cons; [|apply Forall_nil]]; unfold physical, positive_modulus; cbn; repeat split; lra. Qed.
Lemma ec_damped : List.Forall (fun l => forall s, 0 < compute_damping l s) ec_site.
Proof. apply Forall_cons; [|apply Forall_cons; [|apply Forall_nil]]; intros s; unfold compute_damping; cbn; lra. Qed.
Lemma ec_tabulated : List.Forall (fun l => tabulated (l_soil l)) ec_site.
Proof.
  apply Forall_cons; [|apply Forall_cons; [|apply Forall_nil]]; split; try discriminate.
  intros c E. cbn in E. injection E as <-. exact soft_table.
Qed.
Lemma above_all (bad : list R) : exists x, 0 < x /\ ~ In x bad.
Proof.
  assert (H : exists M, 0 < M /\ forall y, In y bad -> y < M).
  { induction bad as [|y bad (M & M0 & IH)]; [exists 1; split; [lra|intros y []]|]. exists (Rmax M (y + 1)).
    pose proof (Rmax_l M (y + 1)). pose proof (Rmax_r M (y + 1)). split; [lra|]. intros z [<-|Hz]; [lra|]. specialize (IH z Hz). lra. }
  destruct H as (M & M0 & H). exists M. split; [exact M0|]. intros Q. specialize (H M Q). lra.
Qed.
Definition ec_with (x y : R) : eql_params := with_limit (with_tol ec_params x) (Some y).
Lemma ec_run : exists x y t K, 0 < x /\ 0 < y /\ eql_run 0.01 rx_rec None 4 10 (ec_with x y) ec_site t K /\ k_input K = mkLoc 1 0 Outcrop /\
  t <> nil /\ List.Forall (clear_cut (ec_with x y)) t /\ clear_limits (ec_with x y) (as_motion (k_motion K) 10) (k_input K) ec_site t.
Proof.
  destruct rx_motion as [m Hm].
  destruct (C168_clear ec_params (as_motion m 10) (mkLoc 1 0 Outcrop) ec_site ltac:(discriminate) ec_damped) as [bad HB].
  destruct (above_all bad) as (x & X0 & NX).
  destruct (eql_record 0.01 rx_rec None m 4 10 (with_tol ec_params x) (mkLoc 1 0 Outcrop) ec_site ltac:(lra) Hm rx_length eq_refl ltac:(lra)
    ltac:(discriminate) ec_physical ltac:(cbn; lia) ltac:(discriminate)) as (t & stop & out & wv & E).
  { intros y [Q _]. discriminate Q. }
  destruct (C168_limit (with_tol ec_params x) (as_motion m 10) (mkLoc 1 0 Outcrop) ec_site) as (M & M0 & HM).
  destruct (HM (M + 1) ltac:(lra)) as [H1 H2].
  assert (E' : eql_call (ec_with x (M + 1)) (as_motion m 10) (mkLoc 1 0 Outcrop) true ec_site = (t, Ok (stop, out, wv))) by (unfold ec_with; rewrite H1; exact E).
  exists x, (M + 1), t, (mkCalc m out 3 (mkLoc 1 0 Outcrop) wv). split; [exact X0|]. split; [lra|]. split; [|split; [reflexivity|split; [|split]]].
  - unfold eql_run; cbn [k_motion k_layers k_waves k_input]. split; [lra|]. split; [exact Hm|]. split; [exact rx_length|]. split; [reflexivity|].
    split; [lra|]. split; [discriminate|]. split; [exact ec_physical|]. exists stop. exact E'.
  - intros ->. destruct (call_loop _ _ _ _ _ _ _ E) as [(_ & e & Q & _)|(wv0 & o & _ & EL & Er)]; [discriminate|].
    destruct o as [[[so Y] w]|]; [|discriminate Er]. exact (loop_some _ _ _ 14 _ _ _ _ _ EL).
  - exact (HB x t _ NX E).
  - exact (H2 t _ E').
Qed.
Example C168_clear_ex : exists x y t K, 0 < x /\ 0 < y /\ eql_run 0.01 rx_rec None 4 10 (ec_with x y) ec_site t K /\ t <> nil /\
  List.Forall (clear_cut (ec_with x y)) t /\
  exists d, 0 < d /\ forall ls', List.Forall physical ls' -> Forall2 (near_site d) ls' ec_site ->
  exists t' out' wv' stop, eql_call (ec_with x y) (as_motion (k_motion K) 10) (mkLoc 1 0 Outcrop) true ls' = (t', Ok (stop, out', wv')) /\
    length t' = length t /\ Forall2 (near_result 1e-3) out' (k_layers K).
Proof.
  destruct ec_run as (x & y & t & K & X0 & Y0 & HR & HI & NT & HC & HK). exists x, y, t, K. split; [exact X0|]. split; [exact Y0|]. split; [exact HR|]. split; [exact NT|]. split; [exact HC|].
  destruct HR as (Hdt & HM & Hn & Hev & Hl & NE & HF & stop & EC). rewrite HI in EC, HK.
  destruct (C168_call (ec_with x y) (as_motion (k_motion K) 10) (mkLoc 1 0 Outcrop) ec_site t stop (k_layers K) (k_waves K)) with (eps := 1e-3) as (d & Hd & HD);
    try exact ec_tabulated; try exact HF; try exact HC; try exact HK; try exact EC; try discriminate; try lra.
  - exact (clear_record 0.01 rx_rec None _ 4 10 Hdt HM Hn Hl).
  - exact (record_steady 0.01 rx_rec None _ 4 10 HM Hn Hev).
  - exact (ts_answers 0.01 rx_rec None _ 4 10 HM Hn Hev).
  - cbn. lia.
  - exists d. split; [exact Hd|]. intros ls' F' N. destruct (HD ls' F' N) as (t' & out' & wv' & A & B). exists t', out', wv', stop. now split.
Qed.

(** C168: the same for a record and two calculators: the number of passes is the same,
    and the reported series, spectra and transfer functions at any location differ by
    less than any given amount at every entry. *)
Theorem C168_outputs : forall dt a fa n v P ls t K loc xi fs eps,
  eql_run dt a fa n v P ls t K ->
  List.Forall (fun l => tabulated (l_soil l)) ls -> List.Forall (clear_cut P) t ->
  clear_limits P (as_motion (k_motion K) v) (k_input K) ls t ->
  (loc_index (k_input K) < length ls)%nat -> loc_field (k_input K) <> Within -> (loc_index loc < length ls)%nat ->
  0 < xi -> List.Forall (fun f => 0 < f) fs -> 0 < eps ->
  exists d, 0 < d /\ forall ls' t' K', eql_run dt a fa n v P ls' t' K' -> k_input K' = k_input K -> Forall2 (near_site d) ls' ls ->
  length t' = length t /\ Forall2 (near_result eps) (k_layers K') (k_layers K) /\
  (exists ts ts', accel_series K loc = Ok (Some ts) /\ accel_series K' loc = Ok (Some ts') /\ near_array eps ts' ts) /\
  (exists ps ps', response_spectrum_at K xi fs loc = Ok (Some ps) /\ response_spectrum_at K' xi fs loc = Ok (Some ps') /\ near_array eps ps' ps) /\
  (exists vs vs', fourier_spectrum K None fs loc = Ok (Some vs) /\ fourier_spectrum K' None fs loc = Ok (Some vs') /\ near_array eps vs' vs) /\
  (exists vs vs', transfer_function K None fs (k_input K) loc = Ok (Some vs) /\ transfer_function K' None fs (k_input K) loc = Ok (Some vs') /\ near_array eps vs' vs) /\
  (loc_field loc = Within -> forall pct, exists ts ts', strain_series K pct loc = Ok ts /\ strain_series K' pct loc = Ok ts' /\ near_array eps ts' ts).
Proof. exact eql_outputs_continuous. Qed.
Print Assumptions C168_outputs.
Example C168_outputs_ex : exists x y t K d, 0 < d /\ eql_run 0.01 rx_rec None 4 10 (ec_with x y) ec_site t K /\ t <> nil /\
  forall ls' t' K', eql_run 0.01 rx_rec None 4 10 (ec_with x y) ls' t' K' -> k_input K' = k_input K -> Forall2 (near_site d) ls' ec_site ->
  exists ts ts', accel_series K (mkLoc 0 0 Outcrop) = Ok (Some ts) /\ accel_series K' (mkLoc 0 0 Outcrop) = Ok (Some ts') /\ near_array 1e-3 ts' ts.
Proof.
  destruct ec_run as (x & y & t & K & X0 & Y0 & HR & HI & NT & HC & HK).
  destruct (C168_outputs 0.01 rx_rec None 4 10 (ec_with x y) ec_site t K (mkLoc 0 0 Outcrop) 0.05 (cons 1 nil) 1e-3 HR) as (d & Hd & HD);
    try exact ec_tabulated; try exact HC; try exact HK; rewrite ?HI; try discriminate; try lra.
  - cbn. lia.
  - cbn. lia.
  - apply Forall_cons; [lra|apply Forall_nil].
  - exists x, y, t, K, d. split; [exact Hd|]. split; [exact HR|]. split; [exact NT|]. intros ls' t' K' HR' EI N.
    destruct (HD ls' t' K' HR' EI N) as (_ & _ & A & _). exact A.
Qed.
