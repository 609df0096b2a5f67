(** Properties C36, C37, C38, C63, C64, C77, C78 and C79: random soil types and truncated normal variates. *)
From Coq Require Import String.
From Verif Require Import Common Model.Curve Model.Layer Model.Profile Model.Gauss Model.Variation
  Spec.ProfileSpec Spec.VariationSpec Proof.CommonFacts Proof.VariationEx
  Proof.GaussFacts Proof.SoilVarProps Proof.IterVaryProps.
Local Open Scope R_scope.

Definition ex_var : soil_var := mkSoilVar Darendeli (-0.5) (0.05, 1) (0, 0.15) false (FixedPercentiles [0.2; 1 / 2; 0.8]).
Lemma ex_values : List.Forall (fun m => 0 <= m <= 1) (mod_values ex_sand) /\ List.Forall (fun d => 0 <= d) (damping_values (s_damp ex_sand)).
Proof. split; cbn; repeat (apply Forall_cons; [lra|]); apply Forall_nil. Qed.

(** C36: for every pair of random numbers the variation of a soil type with modulus
    reduction in [0, 1] and non-negative damping is defined; its values are the varied
    ones cut to the limits; the strains, the number of points, the name, class and unit
    weight are those of the seed. *)
Theorem C36_limits : forall k lm ld id z s,
  fst lm <= snd lm -> fst ld <= snd ld ->
  List.Forall (fun m => 0 <= m <= 1) (mod_values s) -> List.Forall (fun d => 0 <= d) (damping_values (s_damp s)) ->
  exists s', vary_soil k lm ld id z s = Some s' /\
    s_class s' = s_class s /\ s_name s' = s_name s /\ s_unit_wt s' = s_unit_wt s /\
    within lm (mod_values s') /\ within ld (damping_values (s_damp s')) /\
    length (mod_values s') = length (mod_values s) /\ mod_strains s' = mod_strains s /\
    length (damping_values (s_damp s')) = length (damping_values (s_damp s)) /\
    damping_strains (s_damp s') = damping_strains (s_damp s) /\
    Forall2 (fun v y => exists x, vary_mod k (fst z) v = Some x /\ y = clip x (fst lm) (snd lm)) (mod_values s) (mod_values s') /\
    Forall2 (fun v y => exists x, vary_damp k (snd z) v = Some x /\ y = clip x (fst ld) (snd ld))
      (damping_values (s_damp s)) (damping_values (s_damp s')).
Proof. exact soil_variation. Qed.
Print Assumptions C36_limits.
Example C36_ex : fst (sv_lim_mod ex_var) <= snd (sv_lim_mod ex_var) /\ fst (sv_lim_damp ex_var) <= snd (sv_lim_damp ex_var).
Proof. cbn; lra. Qed.

(** C36: outside [0, 1] the varied modulus reduction of the Darendeli model is not a
    number. *)
Theorem C36_outside : forall z m,
  m < 0 \/ 1 < m -> vary_mod Darendeli z m = None.
Proof. exact darendeli_nan. Qed.
Print Assumptions C36_outside.

(** C37,C78: whenever a profile is varied: every varied layer keeps thickness, velocity
    and minimum damping, and has the realisation drawn at the last layer of the same
    soil type; layers with the same soil type get the same realisation; an unvaried
    half-space is the same object as in the input, and no other object changes. *)
Theorem C37_shared_partial : forall ppf v w p si keys id dr w' q,
  allocated w p -> view w p <> [] -> length keys = length (view w p) -> length dr = length (view w p) ->
  vary_profile ppf v w p si keys id dr = (w', Some (Ok q)) ->
  length (view w' q) = length (view w p) /\
  (forall i l l' key, nth_error (view w p) i = Some l -> nth_error (view w' q) i = Some l' -> nth_error keys i = Some key ->
     (S i < length (view w p))%nat \/ sv_bedrock v = true ->
     l_thick l' = l_thick l /\ l_vs l' = l_vs l /\ l_dmin l' = l_dmin l /\ damping l' = l_dmin l /\
     exists j lj z id', nth_error (view w p) j = Some lj /\ nth_error keys j = Some key /\ nth_error dr j = Some z /\
       soil_call ppf v si id' z (l_soil lj) = Ok (Some (l_soil l')) /\ (id <= id')%nat /\
       (forall j', nth_error keys j' = Some key -> (j' <= j)%nat)) /\
  (forall i j li lj key, nth_error keys i = Some key -> nth_error keys j = Some key ->
     nth_error (view w' q) i = Some li -> nth_error (view w' q) j = Some lj ->
     ((S i < length (view w p))%nat /\ (S j < length (view w p))%nat) \/ sv_bedrock v = true -> l_soil li = l_soil lj) /\
  (sv_bedrock v = false -> last_opt (layers_of w' q) = last_opt (layers_of w p)) /\
  p_wt (w_profs w' q) = p_wt (w_profs w p) /\
  (forall a, (a < w_next w)%nat -> same_core (w_heap w a) (w_heap w' a)) /\
  (forall a, (a < w_next w)%nat -> sv_bedrock v = true \/ last_opt (layers_of w p) <> Some a -> w_heap w' a = w_heap w a) /\
  (forall r, (r < w_pnext w)%nat -> w_profs w' r = w_profs w r) /\
  (w_next w <= w_next w')%nat /\ q = w_pnext w /\ w_pnext w' = S (w_pnext w) /\
  (forall a, In a (layers_of w' q) ->
     (w_next w <= a < w_next w')%nat \/ (sv_bedrock v = false /\ last_opt (layers_of w p) = Some a)).
Proof. exact vary_profile_spec. Qed.
Print Assumptions C37_shared_partial.
Example C37_ex : allocated ex_w 0 /\ view ex_w 0 <> [] /\ List.length [7; 7; 9]%nat = List.length (view ex_w 0).
Proof. split; [exact ex_allocated|]. split; [discriminate|reflexivity]. Qed.

(** C37: the iteration over soil types yields one for every layer, so a shared one is
    yielded more than once. *)
Theorem C37_refuted : forall above l1 middle l2 below,
  l_soil l1 = l_soil l2 ->
  let ls := above ++ l1 :: middle ++ l2 :: below in
  length (iter_soil_types ls) = length ls /\ ~ NoDup (iter_soil_types ls).
Proof. exact soil_types_repeated. Qed.
Print Assumptions C37_refuted.
Example C37_refuted_ex : l_soil (ex_heap 0) = l_soil (ex_heap 1).
Proof. reflexivity. Qed.

(** C78: the initial damping of every varied layer is the minimum damping of the
    original layer, whatever was drawn; the two differ whenever the varied soil type
    starts from another value. *)
Theorem C78_refuted : forall ppf v w p si keys id dr w' q i l l' key,
  allocated w p -> view w p <> [] -> length keys = length (view w p) -> length dr = length (view w p) ->
  vary_profile ppf v w p si keys id dr = (w', Some (Ok q)) ->
  nth_error (view w p) i = Some l -> nth_error (view w' q) i = Some l' -> nth_error keys i = Some key ->
  (S i < length (view w p))%nat \/ sv_bedrock v = true ->
  damping l' = l_dmin l /\
  (forall d, soil_damping_min (l_soil l') = Ok d -> d <> l_dmin l -> damping l' <> d).
Proof. exact varied_damping_ignored. Qed.
Print Assumptions C78_refuted.

(** C38: with fixed percentiles the count is accepted exactly if it is a multiple of
    their number, and ValueError is raised otherwise. *)
Theorem C38_count : forall v ps count,
  sv_mode v = FixedPercentiles ps -> ps <> [] ->
  (check_count (Some v) count = Ok tt <-> exists k, count = (k * length ps)%nat) /\
  (check_count (Some v) count = Ok tt \/ check_count (Some v) count = Err ValueError).
Proof. exact fixed_count_rejected. Qed.
Print Assumptions C38_count.
Example C38_ex : check_count (Some ex_var) 6 = Ok tt /\ check_count (Some ex_var) 7 = Err ValueError.
Proof. split; reflexivity. Qed.

(** C38: among the realisations of an accepted count every percentile is used equally
    often. *)
Theorem C38_cycle : forall n k j,
  (j < n)%nat -> 
  length (filter (fun i => Nat.eqb (i mod n) j) (seq 0 (k * n))) = k.
Proof. exact cycle_count. Qed.
Print Assumptions C38_cycle.
Example C38_cycle_ex : filter (fun i => Nat.eqb (i mod 3) 1) (seq 0 (2 * 3)) = [1; 4]%nat.
Proof. reflexivity. Qed.

(** C38: realisation i uses percentile i mod n, whatever the random numbers. *)
Theorem C38_index : forall ppf v ps i id draw s,
  sv_mode v = FixedPercentiles ps -> ps <> [] ->
  exists p, nth_error ps (i mod length ps) = Some p /\
    soil_call ppf v (sample_index v i) id draw s
    = Ok (vary_soil (sv_kind v) (sv_lim_mod v) (sv_lim_damp v) id (correlated_at_percentile ppf rand_limit (sv_corr v) p) s).
Proof. exact fixed_percentile_used. Qed.
Print Assumptions C38_index.

(** C38: the same index gives the same realisation. *)
Theorem C38_deterministic : forall ppf v ps i id draw draw' s,
  sv_mode v = FixedPercentiles ps ->
  soil_call ppf v (Some i) id draw s = soil_call ppf v (Some i) id draw' s.
Proof. exact fixed_same_index. Qed.
Print Assumptions C38_deterministic.

(** C38: the documented cycling does not hold for a direct call with an index past the
    end, which raises IndexError. *)
Theorem C38_refuted_direct_call : forall ppf v ps i id draw s,
  sv_mode v = FixedPercentiles ps ->
  (Z.of_nat (length ps) <= i)%Z -> soil_call ppf v (Some i) id draw s = Err IndexError.
Proof. exact direct_call_no_cycle. Qed.
Print Assumptions C38_refuted_direct_call.
Example C38_direct_ex : (Z.of_nat (List.length [0.2; 1 / 2; 0.8]%R) <= 3)%Z.
Proof. cbn. lia. Qed.

(** C63: the pair is within the limits for every percentile and correlation. *)
Theorem C63_inside : forall ppf limit correl p,
  0 <= limit ->
  inside_closed limit (correlated_at_percentile ppf limit correl p).
Proof. exact percentile_inside. Qed.
Print Assumptions C63_inside.

(** C63: the first of the pair, unscaled, is the quantile of the normal truncated to the
    scaled limits; it is never clipped. *)
Theorem C63_quantile : forall ppf limit correl p,
  is_ppf ppf -> 0 < p < 1 -> 0 < limit ->
  let s := tn_scale limit in
  quantile p (- limit / s) (limit / s) (fst (correlated_at_percentile ppf limit correl p) / s).
Proof. exact percentile_first. Qed.
Print Assumptions C63_quantile.
Example C63_quantile_ex : exists q, quantile 0.3 (-2) 2 q.
Proof. apply quantile_exists; lra. Qed.

(** C63: at the median the pair is (0, 0) for every correlation. *)
Theorem C63_median : forall ppf limit correl,
  is_ppf ppf -> 0 < limit ->
  correlated_at_percentile ppf limit correl (1 / 2) = (0, 0).
Proof. exact percentile_median. Qed.
Print Assumptions C63_median.

(** C63: quantiles are unique, *)
Theorem C63_quantile_unique : forall p a b q q',
  a < b -> quantile p a b q -> quantile p a b q' -> q = q'.
Proof. exact quantile_unique. Qed.
Print Assumptions C63_quantile_unique.

(** C63: and exist, so the assumption on the inverse distribution function describes
    exactly one function. *)
Theorem C63_quantile_exists : forall p a b,
  0 < p < 1 -> a < b -> exists q, quantile p a b q.
Proof. exact quantile_exists. Qed.
Print Assumptions C63_quantile_exists.

(** C63: the median Darendeli realisation is the seed cut to the limits. *)
Theorem C63_median_soil : forall lm ld id s,
  fst lm <= snd lm -> fst ld <= snd ld ->
  List.Forall (fun m => 0 <= m <= 1) (mod_values s) -> List.Forall (fun d => 0 <= d) (damping_values (s_damp s)) ->
  forall ppf v i draw, is_ppf ppf -> sv_kind v = Darendeli -> sv_lim_mod v = lm -> sv_lim_damp v = ld ->
  (exists ps n, sv_mode v = FixedPercentiles ps /\ py_index i (length ps) = Some n /\ nth_error ps n = Some (1 / 2)) ->
  exists s', soil_call ppf v (Some i) id draw s = Ok (Some s') /\
    mod_values s' = map (fun m => clip m (fst lm) (snd lm)) (mod_values s) /\
    damping_values (s_damp s') = map (fun d => clip d (fst ld) (snd ld)) (damping_values (s_damp s)).
Proof. exact darendeli_median. Qed.
Print Assumptions C63_median_soil.
Example C63_soil_ex : py_index 1 3 = Some 1%nat /\ nth_error [0.2; 1 / 2; 0.8] 1 = Some (1 / 2).
Proof. split; reflexivity. Qed.

(** C63: the median SPID modulus reduction m is m / (1 + eps): smaller than the seed by
    at most eps. *)
Theorem C63_median_spid : forall sm sd m,
  0 <= m <= 1 ->
  exists x, vary_mod (Spid sm sd) 0 m = Some x /\ x = m / (1 + feps) /\ (0 < m -> x < m) /\ m - feps <= x.
Proof. exact spid_median. Qed.
Print Assumptions C63_median_spid.

(** C64: the sampler returns a pair exactly if it is the first of all draws, in order,
    with both components strictly inside the limit. *)
Theorem C64_first_valid : forall limit batches z,
  correlated limit batches = Some z <->
  exists before after, concat batches = before ++ z :: after /\ inside limit z /\
    List.Forall (fun y => ~ inside limit y) before.
Proof. exact correlated_first. Qed.
Print Assumptions C64_first_valid.
Example C64_ex : inside 2 (1.5, -0.3) /\ ~ inside 2 (0.1, 2).
Proof. unfold inside; cbn. split; [lra|]. intros [_ H]. lra. Qed.

(** C79: the scale makes the variance of the truncated normal equal to 1. *)
Theorem C79_unit_variance : forall a,
  0 < a -> tn_scale a ^ 2 * truncnorm_var a = 1.
Proof. exact tn_unit_variance. Qed.
Print Assumptions C79_unit_variance.

(** C79: the variates lie within scale times the limit, *)
Theorem C79_range : forall a u,
  0 < a -> - a <= u <= a -> - (tn_scale a * a) <= tn_call a u <= tn_scale a * a.
Proof. exact tn_range. Qed.
Print Assumptions C79_range.

(** C79: but not within the limit: draws in an interval of positive length give values
    beyond it. *)
Theorem C79_refuted : forall a,
  0 < a -> exists u0, 0 <= u0 < a /\ forall u, u0 < u <= a -> a < tn_call a u.
Proof. exact tn_out_of_limits. Qed.
Print Assumptions C79_refuted.
Example C79_ex : 0 < rand_limit.
Proof. unfold rand_limit. lra. Qed.

(** C77: a completed iteration yields the requested number of profiles; the seed profile
    and all objects that existed before are unchanged; no realisation shares a layer
    with the seed or with another realisation. *)
Theorem C77_iteration : forall ppf vt vv vs w p ds w' qs,
  (p < w_pnext w)%nat -> allocated w p ->
  iter_varied_profiles ppf vt vv vs w p ds = (w', Some (Ok qs)) ->
  length qs = length ds /\
  view w' p = view w p /\ p_wt (w_profs w' p) = p_wt (w_profs w p) /\
  (forall a, (a < w_next w)%nat -> w_heap w' a = w_heap w a) /\
  List.Forall (fun q => q <> p /\ forall a, In a (layers_of w' q) -> (w_next w <= a < w_next w')%nat) qs /\
  ForallOrdPairs (fun q q' => q <> q' /\ forall a, In a (layers_of w' q) -> ~ In a (layers_of w' q')) qs.
Proof. exact iter_varied_spec. Qed.
Print Assumptions C77_iteration.
Example C77_ex : (0 < w_pnext ex_w)%nat /\ allocated ex_w 0.
Proof. split; [cbn; lia|exact ex_allocated]. Qed.

(** C77: an iteration that fails leaves the seed alone too. *)
Theorem C77_frame : forall ppf vt vv vs w p ds,
  (p < w_pnext w)%nat -> allocated w p ->
  let w' := fst (iter_varied_profiles ppf vt vv vs w p ds) in
  view w' p = view w p /\ p_wt (w_profs w' p) = p_wt (w_profs w p) /\ (forall a, (a < w_next w)%nat -> w_heap w' a = w_heap w a).
Proof. exact iter_varied_frame. Qed.
Print Assumptions C77_frame.
