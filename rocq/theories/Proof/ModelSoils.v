(** The soil types built from the two-parameter and the Alemu models: what their curves give. *)
From Coq Require Import String.
From Verif Require Import Common Proof.CommonFacts Model.Curve Model.Layer Model.Waves Model.Eql Model.SoilModels.
From Verif Require Import Spec.CurveSpec Spec.LayerSpec Spec.EqlSpec Spec.SoilModelSpec Proof.CurveProps Proof.EqlProps Proof.EqlResults Proof.EqlPhysical Proof.TwoParamProps.
From Coq Require Import List Sorted.
Local Open Scope R_scope.

Lemma soil_curves_read id cls name wt ss ms ds : length ms = length ss -> length ds = length ss -> ss <> [] ->
  List.Forall (fun e => 0 < e) ss -> StronglySorted Rlt ss ->
  let s := soil_curves id cls name wt ss ms ds in
  s_unit_wt s = wt /\ is_nonlinear s = true /\
  exists cm cd, s_mod s = Some cm /\ s_damp s = DCurve cd /\
    (forall e, exists g d, curve_call cm e = Ok g /\ 0.001 <= g <= 1 /\ curve_call cd e = Ok d /\ 0 <= d <= 0.49) /\
    forall i e v d, nth_error ss i = Some e -> 1e-9 <= e -> nth_error ms i = Some v -> nth_error ds i = Some d ->
      exists g x, curve_call cm e = Ok g /\ limited 0.001 1 v g /\ curve_call cd e = Ok x /\ limited 0 0.49 d x.
Proof.
  intros L1 L2 NE HP HS. cbv zeta. split; [reflexivity|]. split; [reflexivity|].
  exists (modulus_curve id ss ms), (damping_curve (S id) ss ds). split; [reflexivity|]. split; [reflexivity|].
  assert (T1 : good_table ss ms) by (exact (conj (eq_sym L1) (conj NE (conj HP HS)))).
  assert (T2 : good_table ss ds) by (exact (conj (eq_sym L2) (conj NE (conj HP HS)))).
  assert (C1 : c_lo (modulus_curve id ss ms) <= c_hi (modulus_curve id ss ms)) by (cbn; lra).
  assert (C2 : c_lo (damping_curve (S id) ss ds) <= c_hi (damping_curve (S id) ss ds)) by (cbn; lra).
  split.
  - intros e. destruct (curve_defined (modulus_curve id ss ms) e T1) as [g Eg]. destruct (curve_defined (damping_curve (S id) ss ds) e T2) as [d Ed].
    exists g, d. pose proof (modulus_default_limits _ _ _ _ _ Eg). pose proof (damping_default_limits _ _ _ _ _ Ed). tauto.
  - intros i e v d H1 H2 H3 H4.
    destruct (curve_at_point (modulus_curve id ss ms) i e v C1 T1 (conj H1 H3) H2) as (g & G1 & G2).
    destruct (curve_at_point (damping_curve (S id) ss ds) i e d C2 T2 (conj H1 H4) H2) as (x & X1 & X2).
    exists g, x. exact (conj G1 (conj G2 (conj X1 X2))).
Qed.

Theorem alemu_soil_reads id name wt m ss : 0 <= al_pi m -> 0 < al_ocr m -> 0 < al_stress m -> 0 <= al_fines m ->
  ss <> nil -> List.Forall (fun e => 0 < e) ss -> StronglySorted Rlt ss ->
  exists s ms ds, alemu_soil id name wt m (Some ss) = Some s /\ alemu_values m ss = Some (ms, ds) /\ s_unit_wt s = wt /\ is_nonlinear s = true /\
  exists cm cd, s_mod s = Some cm /\ s_damp s = DCurve cd /\
    (forall e, exists g d, curve_call cm e = Ok g /\ 0.001 <= g <= 1 /\ curve_call cd e = Ok d /\ 0 <= d <= 0.49) /\
    forall i e v d, nth_error ss i = Some e -> 1e-9 <= e -> nth_error ms i = Some v -> nth_error ds i = Some d ->
      exists g x, curve_call cm e = Ok g /\ limited 0.001 1 v g /\ curve_call cd e = Ok x /\ limited 0 0.49 d x.
Proof.
  intros H1 H2 H3 H4 NE HP HS.
  assert (HN : List.Forall (fun e => 0 <= e) ss) by (eapply Forall_impl; [|exact HP]; cbn; intros; lra).
  destruct (alemu_shape m ss H1 H2 H3 H4 HN) as (ms & ds & dm & E & _ & _ & L1 & L2 & _).
  destruct (soil_curves_read id 5 name wt ss ms ds L1 L2 NE HP HS) as (A & B & C).
  eexists. exists ms, ds. split; [unfold alemu_soil, strains_or_default; rewrite E; reflexivity|]. split; [exact E|]. split; [exact A|]. split; [exact B|exact C].
Qed.

Theorem two_param_soil_reads id name wt p ss k : 0 < tp_a k -> 0 < tp_g1 k -> 0 < tp_c k -> 0 < tp_gd1 k -> 0 < p ->
  0 < tp_b k (p * KPA_TO_ATM) -> ss <> nil -> List.Forall (fun e => 0 < e) ss -> StronglySorted Rlt ss ->
  exists s ms ds, two_param_soil id name wt p (Some ss) (Some k) = Some s /\ two_param_values k p ss = Some (ms, ds) /\ s_unit_wt s = wt /\ is_nonlinear s = true /\
  exists cm cd, s_mod s = Some cm /\ s_damp s = DCurve cd /\
    (forall e, exists g d, curve_call cm e = Ok g /\ 0.001 <= g <= 1 /\ curve_call cd e = Ok d /\ 0 <= d <= 0.49) /\
    forall i e v d, nth_error ss i = Some e -> 1e-9 <= e -> nth_error ms i = Some v -> nth_error ds i = Some d ->
      exists g x, curve_call cm e = Ok g /\ limited 0.001 1 v g /\ curve_call cd e = Ok x /\ limited 0 0.49 d x.
Proof.
  intros H1 H2 H3 H4 H5 H6 NE HP HS.
  assert (HN : List.Forall (fun e => 0 <= e) ss) by (eapply Forall_impl; [|exact HP]; cbn; intros; lra).
  destruct (two_param_shape k p ss H1 H2 H3 H4 H5 H6 HN) as (ms & ds & dm & E & _ & L1 & L2 & _).
  destruct (soil_curves_read id 4 name wt ss ms ds L1 L2 NE HP HS) as (A & B & C).
  eexists. exists ms, ds. split; [unfold two_param_soil, strains_or_default; rewrite E; reflexivity|]. split; [exact E|]. split; [exact A|]. split; [exact B|exact C].
Qed.

(** The reported modulus reduction after a run. *)
Theorem eql_reduction P m lin reset ls t stop ls' wv : ls <> nil -> List.Forall physical ls -> (reset = false -> List.Forall assignable ls) -> t <> nil ->
  eql_call P m lin reset ls = (t, Ok (stop, ls', wv)) ->
  forall i l0, (i < length ls - 1)%nat -> nth_error ls i = Some l0 ->
  exists l, nth_error ls' i = Some l /\ shear_mod_reduc l = modred (soil_behaviour (l_soil l0)) (strain l) /\ 0 < shear_mod_reduc l.
Proof.
  intros NE HP HA NT H i l0 Hi Hl. destruct (eql_compatible _ _ _ _ _ _ _ _ _ NE HA NT H) as [_ HC].
  destruct (HC i l0 Hi Hl) as (l & mx & E1 & S1 & S2 & S3 & S4 & _ & _ & E4 & _). exists l. split; [exact E1|].
  assert (PL : physical l0) by (rewrite Forall_forall in HP; apply HP; now apply nth_error_In with i).
  pose proof (EqlPhysical.physical_G l0 PL) as HG.
  assert (EG : initial_shear_mod l = initial_shear_mod l0) by (unfold initial_shear_mod; now rewrite S1, S3).
  assert (ER : shear_mod_reduc l = modred (soil_behaviour (l_soil l0)) (strain l)).
  { unfold shear_mod_reduc. rewrite E4, EG. cbn [spec_G]. unfold initial_shear_mod in *. field_simplify_eq; [ring|]. split; nra. }
  split; [exact ER|]. rewrite ER.
  pose proof (EqlPhysical.set_strain_sound l0 (strain l) PL) as (SG & _). 
  change (shear_mod (set_strain l0 (strain l))) with (compute_mod l0 (strain l)) in SG.
  assert (EC : compute_mod l0 (strain l) = initial_shear_mod l0 * modred (soil_behaviour (l_soil l0)) (strain l)).
  { unfold compute_mod. cbn [soil_behaviour modred]. destruct (s_mod (l_soil l0)) as [c|]; [destruct (curve_call c _)|]; reflexivity. }
  rewrite EC in SG. nra.
Qed.
