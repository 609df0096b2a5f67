(** Properties C26-C29 and C71: the equivalent-linear iteration. *)
From Coq Require Import String List.
From Verif Require Import Common Model.Curve Model.Layer Model.Cplx Model.Waves Model.Eql
  Spec.CurveSpec Spec.LayerSpec Spec.WaveSpec Spec.EqlSpec
  Proof.EqlFacts Proof.EqlProps Proof.EqlResults Proof.EqlPhysical Proof.EqlRefute.
From Coquelicot Require Import Complex.
Local Open Scope R_scope.

(** The examples use the site, motion and parameters of Proof/EqlRefute.v: a soft
    nonlinear layer over a linear half-space, a sinusoidal motion, ratio 0.65,
    tolerance 0.01 and 15 iterations. *)

(** C26: at most max_iterations passes; a normal stop is either the first pass whose
    error is below the tolerance, or max_iterations passes without one; before an
    exception no pass was below the tolerance. *)
Theorem C26_stops : forall P m lin reset ls t r,
  eql_call P m lin reset ls = (t, r) ->
  (length t <= Z.to_nat (e_max P))%nat /\
  match r with
  | Ok (Converged, _, _) => exists t0 st, t = t0 ++ [st] /\ below (e_tol P) st /\
      Forall (fun s => ~ below (e_tol P) s) t0
  | Ok (Exhausted, _, _) => length t = Z.to_nat (e_max P) /\
      Forall (fun s => ~ below (e_tol P) s) t
  | Err e => Forall (fun s => ~ below (e_tol P) s) t
  end.
Proof. exact eql_stops. Qed.
Print Assumptions C26_stops.
Example C26_ex : exists t r, eql_call soft_params soft_motion soft_input true soft_site = (t, r).
Proof. destruct (eql_call soft_params soft_motion soft_input true soft_site) as [t r]. now exists t, r. Qed.

(** C26: for physical profiles, motions with total peak and frequencies that are zero or
    above the threshold, with outcrop or incoming input, the run ends normally or with
    the strain-limit error. *)
Theorem C26_only_limit_error : forall P m lin ls t r,
  ls <> [] -> List.Forall physical ls -> clear_freqs m ->
  (loc_index lin < length ls)%nat -> loc_field lin <> Within ->
  answers m ->
  eql_call P m lin true ls = (t, r) ->
  r = Err RuntimeError \/ exists out, r = Ok out.
Proof. exact eql_only_limit_error. Qed.
Print Assumptions C26_only_limit_error.
Example C26_only_ex : List.Forall physical soft_site /\ clear_freqs soft_motion /\
  (loc_index soft_input < length soft_site)%nat /\ loc_field soft_input <> Within /\
  answers soft_motion.
Proof.
  split; [exact soft_physical|]. split; [exact soft_clear|]. split; [cbn; auto|]. split; [discriminate|].
  intros tf _. now eexists.
Qed.

(** C27: what convergence does mean: in the last pass no modulus and no damping ratio
    fell by the tolerance or more (rises are not bounded). *)
Theorem C27_one_sided_partial : forall P m lin reset ls t ls' wv,
  ls <> [] ->
  eql_call P m lin reset ls = (t, Ok (Converged, ls', wv)) ->
  exists h0 before after, history (start_layers m reset ls) t = h0 ++ [before; after] /\
  forall i l l', (i < length ls - 1)%nat -> nth_error before i = Some l -> nth_error ls' i = Some l' ->
    (0 < shear_mod l' -> pct (shear_mod l) (shear_mod l') < e_tol P) /\
    (0 < damping l' -> pct (damping l) (damping l') < e_tol P).
Proof. exact eql_converged_one_sided. Qed.
Print Assumptions C27_one_sided_partial.
Example C27_one_sided_ex : exists t ls' wv,
  eql_call soft_params soft_motion soft_input true soft_site = (t, Ok (Converged, ls', wv)).
Proof. exact soft_converges. Qed.

(** C27: a physical site with tolerance 0.01 percent whose run stops as converged in a
    pass in which the modulus of the soil layer rose from 4000 to 40000 (a change of -90
    percent of the new value). *)
Theorem C27_refuted : exists P m lin ls t ls' wv,
  List.Forall physical ls /\ limit_on P 0.05 /\ e_tol P = 0.01 /\
  eql_call P m lin true ls = (t, Ok (Converged, ls', wv)) /\
  exists before after l l', history (start_layers m true ls) t = [before; after] /\
    nth_error before 0 = Some l /\ nth_error ls' 0 = Some l' /\
    pct (shear_mod l) (shear_mod l') = - 90.
Proof. exact convergence_refuted. Qed.
Print Assumptions C27_refuted.

(** C27: this is systematic: whenever damping is constant, moduli fall with strain and
    the strains of the first pass do not exceed the initial estimates, the run stops
    after one pass, however much the moduli changed. *)
Theorem C27_early_stop : forall P m lin ls b wv0 wv1,
  last_opt ls = Some b ->
  List.Forall physical ls -> is_nonlinear (l_soil b) = false ->
  List.Forall (fun l => falling (l_soil l)) (removelast ls) -> 0 < e_tol P -> (0 < e_max P)%Z ->
  le_call m true ls = Ok wv0 -> calc_waves m (estimate_strains m ls) = Ok wv1 ->
  (forall i l, nth_error (removelast ls) i = Some l -> exists mx,
     calc_strain_max m (length ls) wv1 lin i l = Ok mx /\
     e_ratio P * mx <= (m_pgv m / 100) / l_vs l) ->
  exists st ls', eql_call P m lin true ls = ([st], Ok (Converged, ls', wv1)).
Proof. exact eql_early_stop. Qed.
Print Assumptions C27_early_stop.
Example C27_early_ex : List.Forall physical soft_site /\ falling (l_soil soft_layer) /\
  is_nonlinear (l_soil soft_layer) = true /\ is_nonlinear (l_soil stiff_layer) = false /\
  forall wv, calc_waves soft_motion (estimate_strains soft_motion soft_site) = Ok wv ->
  exists mx, calc_strain_max soft_motion 2 wv soft_input 0 soft_layer = Ok mx /\ 0.65 * mx <= 5e-3.
Proof.
  split; [exact soft_physical|]. split; [exact soft_falling|]. split; [reflexivity|]. split; [reflexivity|].
  exact soft_first_strain.
Qed.

(** C27: the opposite failure: the half-space is updated once, from the initial
    estimate, so if its modulus fell by the tolerance or more there, the run never
    converges. *)
Theorem C27_bedrock_blocks : forall P m lin ls t r b,
  last_opt ls = Some b ->
  eql_call P m lin true ls = (t, r) ->
  let s := (m_pgv m / 100) / l_vs b in
  let G0 := density (l_soil b) * (l_vs b * l_vs b) in
  let G := spec_G (density (l_soil b)) (l_vs b) (soil_behaviour (l_soil b)) (Some s) in
  0 < G -> e_tol P <= pct G0 G ->
  forall ls' wv, r <> Ok (Converged, ls', wv).
Proof. exact eql_bedrock_blocks. Qed.
Print Assumptions C27_bedrock_blocks.
Example C27_blocks_ex : let G := spec_G (density soft_soil) 200 (soil_behaviour soft_soil) (Some 1e-2) in
  0 < G /\ 0.01 <= pct (density soft_soil * (200 * 200)) G.
Proof. exact soft_bedrock_stale. Qed.

(** C28: with a limit in force, after every pass all layers except the half-space are at
    or below it. *)
Theorem C28_enforced_partial : forall P m lin reset ls t r x,
  ls <> [] -> limit_on P x ->
  (reset = false -> Forall assignable ls) ->
  eql_call P m lin reset ls = (t, r) ->
  forall st, In st t -> Forall (fun l => strain l <= x) (removelast (st_layers st)).
Proof. exact eql_limit_enforced. Qed.
Print Assumptions C28_enforced_partial.
Example C28_enforced_ex : limit_on soft_params 0.05.
Proof. split; [reflexivity|lra]. Qed.

(** C28: a pass is marked as limited only if some layer sits exactly at the limit. *)
Theorem C28_limited_flag : forall P m lin reset ls t r,
  ls <> [] -> (reset = false -> Forall assignable ls) ->
  eql_call P m lin reset ls = (t, r) ->
  forall st, In st t -> st_limited st = true ->
  exists x l, limit_on P x /\ In l (removelast (st_layers st)) /\ strain l = x.
Proof. exact eql_limited_flag. Qed.
Print Assumptions C28_limited_flag.

(** C28: the strain-limit error is raised exactly when two consecutive unconverged
    passes were limited, and it is raised at the first such pair. *)
Theorem C28_error : forall P m lin reset ls t r,
  ls <> [] ->
  (forall tf, m_peak m tf <> Err RuntimeError) ->
  eql_call P m lin reset ls = (t, r) ->
  (r = Err RuntimeError <->
   exists pre a b post, t = pre ++ a :: b :: post /\ st_limited a = true /\ st_limited b = true /\
     ~ below (e_tol P) a /\ ~ below (e_tol P) b) /\
  (forall pre a b post, t = pre ++ a :: b :: post -> st_limited a = true -> st_limited b = true ->
     ~ below (e_tol P) b -> post = []).
Proof. exact eql_limit_error. Qed.
Print Assumptions C28_error.
Example C28_error_ex : forall tf, m_peak soft_motion tf <> Err RuntimeError.
Proof. discriminate. Qed.

(** C28: the half-space is never limited: a converged run whose half-space strain
    exceeds the limit. *)
Theorem C28_refuted_half_space : exists P m lin ls t ls' wv b x,
  List.Forall physical ls /\ limit_on P x /\
  eql_call P m lin true ls = (t, Ok (Converged, ls', wv)) /\
  last_opt ls' = Some b /\ x < strain b.
Proof. exact limit_refuted. Qed.
Print Assumptions C28_refuted_half_space.

(** C28: the half-space keeps the strain estimated from the peak velocity, with the
    matching modulus and damping, through the whole run. *)
Theorem C28_half_space_strain : forall P m lin ls t stop ls' wv b,
  last_opt ls = Some b ->
  eql_call P m lin true ls = (t, Ok (stop, ls', wv)) ->
  exists b', last_opt ls' = Some b' /\ strain b' = (m_pgv m / 100) / l_vs b /\
    shear_mod b' = spec_G (density (l_soil b)) (l_vs b) (soil_behaviour (l_soil b)) (Some (strain b')) /\
    damping b' = spec_D (l_dmin b) (soil_behaviour (l_soil b)) (Some (strain b')) /\
    forall st, In st t -> last_opt (st_layers st) = Some b'.
Proof. exact eql_bedrock. Qed.
Print Assumptions C28_half_space_strain.
Example C28_half_space_ex : last_opt soft_site = Some stiff_layer.
Proof. reflexivity. Qed.

(** C29: for a linear profile the run ends after one pass with the initial moduli and
    damping and the linear-elastic waves, unless computing the strains fails. *)
Theorem C29_linear : forall P m lin ls wv,
  ls <> [] ->
  List.Forall (fun l => is_nonlinear (l_soil l) = false) ls -> 0 < e_tol P -> (0 < e_max P)%Z ->
  le_call m true ls = Ok wv ->
  forall t r, eql_call P m lin true ls = (t, r) ->
  (exists e, r = Err e /\ (kernel_exn e \/ exists tf, m_peak m tf = Err e)) \/
  (length t = 1%nat /\ exists ls', r = Ok (Converged, ls', wv) /\ length ls' = length ls /\
   forall i l0, nth_error ls i = Some l0 -> exists l, nth_error ls' i = Some l /\
     l_soil l = l_soil l0 /\ l_thick l = l_thick l0 /\
     shear_mod l = initial_shear_mod l0 /\ damping l = l_dmin l0).
Proof. exact eql_linear. Qed.
Print Assumptions C29_linear.
Example C29_ex : List.Forall (fun l => is_nonlinear (l_soil l) = false) [stiff_layer; stiff_layer].
Proof. repeat constructor. Qed.

(** C29: for physical linear profiles it cannot fail. *)
Theorem C29_linear_physical : forall P m lin ls wv,
  ls <> [] -> List.Forall physical ls -> clear_freqs m ->
  List.Forall (fun l => is_nonlinear (l_soil l) = false) ls -> 0 < e_tol P -> (0 < e_max P)%Z ->
  (loc_index lin < length ls)%nat -> loc_field lin <> Within ->
  answers m -> (forall tf, m_peak m tf <> Err RuntimeError) ->
  le_call m true ls = Ok wv ->
  exists t ls', eql_call P m lin true ls = (t, Ok (Converged, ls', wv)) /\ length t = 1%nat.
Proof. exact eql_linear_physical. Qed.
Print Assumptions C29_linear_physical.

(** C71: the strain ratio offered for a magnitude is the straight line through 0.40 at
    magnitude 5 and 0.65 at 7.5, the default ratio. *)
Theorem C71_ratio : calc_strain_ratio 7.5 = 0.65 /\ calc_strain_ratio 5 = 0.4 /\
  forall a b t, calc_strain_ratio (a + t * (b - a)) = calc_strain_ratio a + t * (calc_strain_ratio b - calc_strain_ratio a).
Proof. exact strain_ratio_line. Qed.
Print Assumptions C71_ratio.

(** C71: after a run with at least one pass, every layer but the half-space reports a
    maximum strain, a strain that is the strain ratio times it (cut at the limit), and
    the modulus and damping of its curves at exactly that strain; the rest of the layer
    is unchanged. *)
Theorem C71_compatible : forall P m lin reset ls t stop ls' wv,
  ls <> [] ->
  (reset = false -> Forall assignable ls) -> t <> [] ->
  eql_call P m lin reset ls = (t, Ok (stop, ls', wv)) ->
  length ls' = length ls /\
  forall i l0, (i < length ls - 1)%nat -> nth_error ls i = Some l0 ->
  exists l mx, nth_error ls' i = Some l /\
    l_soil l = l_soil l0 /\ l_thick l = l_thick l0 /\ l_vs l = l_vs l0 /\ l_dmin l = l_dmin l0 /\
    l_smax l = Some mx /\ used_strain P mx (strain l) /\
    shear_mod l = spec_G (density (l_soil l0)) (l_vs l0) (soil_behaviour (l_soil l0)) (Some (strain l)) /\
    damping l = spec_D (l_dmin l0) (soil_behaviour (l_soil l0)) (Some (strain l)).
Proof. exact eql_compatible. Qed.
Print Assumptions C71_compatible.
Example C71_ex : exists t ls' wv, t <> [] /\
  eql_call soft_params soft_motion soft_input true soft_site = (t, Ok (Converged, ls', wv)).
Proof.
  destruct soft_converges as (t & ls' & wv & E). exists t, ls', wv. split; [|exact E].
  destruct (eql_stops _ _ _ _ _ _ _ E) as [_ (t0 & st & -> & _)]. now destruct t0.
Qed.
