(** Properties C45-C47, C62, C66 and C72-C74: results collected by the outputs. *)
From Coq Require Import String List.
From Verif Require Import Common Model.Curve Model.Layer Model.Output
  Spec.LayerSpec Spec.ProfileSpec Spec.OutputSpec Proof.OutputFacts Proof.OutputProps Proof.OutputValues.
Local Open Scope R_scope.

(** The examples use three calls, with results of different lengths and one given
    name, and a site of two layers on a half-space. *)
Definition ex_calls : list call :=
  [mkCall None true 1 [Some 0; Some 2] (Ok [Some 5; Some 6]);
   mkCall (Some "b"%string) true 1 [Some 0] (Ok [Some 7]);
   mkCall None true 1 [Some 0; Some 1; Some 4] (Ok [Some 8; None; Some 9])].
Definition ex_layer (t d e : R) : layer :=
  mkLayer (mkSoil 0 "clay"%string 18 None (DConst 0)) t d 0 100 0 (iter_new 1) (iter_new 0) (SRaw e) (Some e) None.
Definition ex_site : list layer := [ex_layer 2 0 1e-3; ex_layer 3 2 2e-3; ex_layer 0 5 0].
Lemma ex_site_depths : depths_cumulative ex_site.
Proof.
  intros above l below E. unfold ex_site in E.
  destruct above as [|a [|b [|c [|d above]]]]; cbn in E; try discriminate; injection E; intros; subst;
    try (now destruct below); cbn; lra.
Qed.

(** C45,C46: after any sequence of calls that can be answered, each with at least one
    reference, every call returned normally and the output holds exactly the results of
    the calls, in order: one column each, padded with missing values, references
    likewise, and the names given or r1, r2, ... by position. *)
Theorem C45_accumulates : forall k refs cs,
  k <> KFixed -> Forall (answered k) cs ->
  all_ok k (out_new k refs) cs /\
  exists es, results_of k cs es /\ holds (out_run k (out_new k refs) (map OCall cs)) es.
Proof. exact accumulates. Qed.
Print Assumptions C45_accumulates.
Example C45_ex : Forall (answered KTop) ex_calls /\ Forall (answered KSeries) ex_calls.
Proof.
  split; repeat (apply Forall_cons; [split; [reflexivity|]; eexists; split; [reflexivity|discriminate]|]); apply Forall_nil.
Qed.

(** C45,C46: the same for outputs with fixed references (response spectra, ratios,
    transfer functions), without any condition on the references. *)
Theorem C45_accumulates_fixed : forall refs cs,
  Forall (answered KFixed) cs ->
  all_ok KFixed (out_new KFixed refs) cs /\
  exists es, results_of KFixed cs es /\ holds_fixed refs (out_run KFixed (out_new KFixed refs) (map OCall cs)) es.
Proof. exact accumulates_fixed. Qed.
Print Assumptions C45_accumulates_fixed.
Example C45_fixed_ex : Forall (answered KFixed) ex_calls.
Proof.
  repeat (apply Forall_cons; [split; [discriminate|]; eexists; split; [reflexivity|congruence]|]); apply Forall_nil.
Qed.

(** C45: an empty first result (an Arias series of a one-sample record, for instance) is
    stored as a column, but its references are not: two results, one reference column.
    *)
Theorem C45_refuted_empty : forall refs c1 c2 vs,
  ca_series c1 = true -> ca_series c2 = true ->
  ca_values c1 = Ok [] -> ca_values c2 = Ok vs ->
  let o := out_run KSeries (out_new KSeries refs) [OCall c1; OCall c2] in
  o_refs o = A1 (times (ca_dt c2) (length vs)) /\ stored o = 2%nat.
Proof. exact empty_refs_forgotten. Qed.
Print Assumptions C45_refuted_empty.
Example C45_empty_ex : map Some (arias_series 0.01 [1]) = @nil cell.
Proof. reflexivity. Qed.

(** C46: a call raises exactly when a time-series output gets a motion without a time
    series, or computing the values raises. *)
Theorem C46_fails_iff : forall k c o e,
  snd (out_call k c o) = Err e <->
  (k = KSeries /\ ca_series c = false /\ e = NotImplementedError) \/
  ((k = KSeries -> ca_series c = true) /\ ca_values c = Err e).
Proof. exact call_fails_iff. Qed.
Print Assumptions C46_fails_iff.

(** C46: the exact count: after any history of calls and resets there is one name per
    stored result plus one for every call that raised while computing its values since
    the last reset. *)
Theorem C46_names_count_partial : forall k refs ps,
  let o := out_run k (out_new k refs) ps in
  length (o_names o) = (stored o + raised k (out_new k refs) 0 ps)%nat.
Proof. exact names_count. Qed.
Print Assumptions C46_names_count_partial.

(** C46: the default name is r followed by the number of stored results plus one. *)
Theorem C46_default_name : forall k c o,
  ca_name c = None -> (k = KSeries -> ca_series c = true) ->
  o_names (fst (out_call k c o)) = o_names o ++ [rname (S (stored o))].
Proof. exact default_name. Qed.
Print Assumptions C46_default_name.
Example C46_default_ex : ca_name (hd (mkCall None true 1 [] (Ok [])) ex_calls) = None.
Proof. reflexivity. Qed.

(** C46: a failing call followed by a good one: two names and one stored result, and
    iterating reports the good result under the name of the failed one. *)
Theorem C46_refuted : exists c1 c2 : call,
  snd (out_call KFixed c1 (out_new KFixed [1%R])) = Err ValueError /\
  ca_name c1 = Some "failed"%string /\ ca_name c2 = Some "good"%string /\
  let o := out_run KFixed (out_new KFixed [1%R]) [OCall c1; OCall c2] in
  length (o_names o) = 2%nat /\ stored o = 1%nat /\
  iter_results o = ([("failed"%string, [Some 1%R], [Some 5%R]); ("good"%string, [Some 1%R], [Some 5%R])], Ok tt).
Proof. exact failure_misattributes. Qed.
Print Assumptions C46_refuted.

(** C46: after a failing first call the next default name is r1 again. *)
Theorem C46_refuted_duplicate : forall k refs c1 c2 e,
  ca_name c1 = None -> ca_name c2 = None ->
  (k = KSeries -> ca_series c1 = true /\ ca_series c2 = true) -> ca_values c1 = Err e ->
  o_names (out_run k (out_new k refs) [OCall c1; OCall c2]) = [rname 1; rname 1].
Proof. exact failure_repeats_name. Qed.
Print Assumptions C46_refuted_duplicate.
Example C46_duplicate_ex : ca_values (mkCall None true 1 [] (top_values damping [])) = Err IndexError.
Proof. reflexivity. Qed.

(** C46: a profile consisting only of a half-space makes the damping, modulus and
    velocity outputs raise after the name and the references were stored. *)
Theorem C46_refuted_half_space : forall l,
  exists o e,
  out_call KTop (mkCall None true 0.01 (map Some (top_refs [l])) (top_values damping [l])) (out_new KTop []) = (o, Err e) /\
  o_values o = None /\ o_names o = [rname 1] /\ o_refs o = A1 [Some (l_depth l)].
Proof. exact half_space_desync. Qed.
Print Assumptions C46_refuted_half_space.

(** C46: a collection whose call returns normally has called every output once, in
    order, each successfully. *)
Theorem C46_collection : forall os os',
  coll_call os = (os', Ok tt) ->
  length os' = length os /\
  forall i k o c, nth_error os i = Some (k, o, c) ->
    nth_error os' i = Some (k, fst (out_call k c o)) /\ snd (out_call k c o) = Ok tt.
Proof. exact collection_ok. Qed.
Print Assumptions C46_collection.
Example C46_collection_ex : exists os', coll_call [(KFixed, out_new KFixed [1], mkCall None true 1 [] (Ok [Some 5]))] = (os', Ok tt).
Proof. eexists. reflexivity. Qed.

(** C46: if it raises, one output raised, and the outputs after it were not called. *)
Theorem C46_collection_failure : forall os os' e,
  coll_call os = (os', Err e) ->
  exists pre k o c post pre', os = pre ++ (k, o, c) :: post /\
    snd (out_call k c o) = Err e /\ length pre' = length pre /\
    os' = pre' ++ (k, fst (out_call k c o)) :: map fst post.
Proof. exact collection_failure. Qed.
Print Assumptions C46_collection_failure.
Example C46_collection_failure_ex : exists os',
  coll_call [(KFixed, out_new KFixed [1], mkCall None true 1 [] (Err ValueError))] = (os', Err ValueError).
Proof. eexists. reflexivity. Qed.

(** C47: after any history a reset gives the freshly constructed output; only fixed
    references survive. *)
Theorem C47_reset : forall k refs ps,
  out_reset k (out_run k (out_new k refs) ps) = out_new k refs.
Proof. exact reset_fresh. Qed.
Print Assumptions C47_reset.

(** C47: hence nothing before a reset can be observed after it. *)
Theorem C47_reset_forgets : forall k refs ps qs,
  out_run k (out_new k refs) (ps ++ OReset :: qs) = out_run k (out_new k refs) qs.
Proof. exact out_reset_forgets. Qed.
Print Assumptions C47_reset_forgets.

(** C72: iterating over an output yields each result in order: its own name, references
    and values, padded. *)
Theorem C72_iterates : forall o es,
  holds o es ->
  iter_results o =
  (map (fun e => (en_name e, padded (longest (map en_refs es)) (en_refs e), padded (longest (map en_vals es)) (en_vals e))) es, Ok tt).
Proof. exact iter_results_spec. Qed.
Print Assumptions C72_iterates.
Example C72_ex : exists es, length es = 3%nat /\ holds (out_run KTop (out_new KTop []) (map OCall ex_calls)) es.
Proof.
  destruct (accumulates KTop [] ex_calls ltac:(discriminate) (proj1 C45_ex)) as (_ & es & [HL _] & H).
  exists es. split; [exact HL|exact H].
Qed.

(** C72: the same for fixed references. *)
Theorem C72_iterates_fixed : forall refs o es,
  holds_fixed refs o es ->
  iter_results o =
  (map (fun e => (en_name e, map Some refs, padded (longest (map en_vals es)) (en_vals e))) es, Ok tt).
Proof. exact iter_results_fixed. Qed.
Print Assumptions C72_iterates_fixed.
Example C72_fixed_ex : exists es, length es = 3%nat /\ holds_fixed [1; 2] (out_run KFixed (out_new KFixed [1; 2]) (map OCall ex_calls)) es.
Proof.
  destruct (accumulates_fixed [1; 2] ex_calls C45_fixed_ex) as (_ & es & [HL _] & H).
  exists es. split; [exact HL|exact H].
Qed.

(** C66: the maximum-strain output adds one value per depth for every non-empty profile.
    *)
Theorem C66_max_strain : forall ls,
  ls <> [] -> length (max_strain_values ls) = length (mid_refs ls).
Proof. exact max_strain_lengths. Qed.
Print Assumptions C66_max_strain.

(** C66: so do the damping, modulus and velocity outputs with at least two layers. *)
Theorem C66_top : forall f ls,
  (2 <= length ls)%nat -> exists vs, top_values f ls = Ok vs /\ length vs = length (top_refs ls).
Proof. exact top_lengths. Qed.
Print Assumptions C66_top.
Example C66_ex : (2 <= length ex_site)%nat.
Proof. cbn. lia. Qed.

(** C66: so does the cyclic stress ratio output whenever it returns. *)
Theorem C66_csr : forall ls sv vs,
  length sv = length ls -> csr_values (combine ls sv) = Ok vs ->
  length vs = length (mid_refs ls).
Proof. exact csr_lengths. Qed.
Print Assumptions C66_csr.
Example C66_csr_ex : exists vs, csr_values (combine ex_site [Ok 18; Ok 63; Ok 90]) = Ok vs.
Proof. eexists. reflexivity. Qed.

(** C66: its entry after the repeated first one is 0.65 times the peak shear stress over
    the effective vertical stress at mid-height of that layer. *)
Theorem C66_csr_content : forall ls sv vs,
  csr_values (combine ls sv) = Ok vs ->
  forall i l s m, nth_error (removelast (combine ls sv)) i = Some (l, Ok s) -> l_smax l = Some m -> s <> 0 ->
  nth_error vs (S i) = Some (Some (0.65 * (shear_mod l * m / s))).
Proof. exact csr_content. Qed.
Print Assumptions C66_csr_content.

(** C66: the values go with the right depths: the strain of a layer is stored at the
    middle of that layer and zero at the surface; damping, modulus and velocity of a
    layer are stored at its base. *)
Theorem C66_pairs : forall ls above l below,
  depths_cumulative ls -> ls = above ++ l :: below -> below <> nil ->
  nth_error (mid_refs ls) 0 = Some 0 /\ nth_error (max_strain_values ls) 0 = Some (Some 0) /\
  nth_error (mid_refs ls) (S (length above)) = Some (total_thick above + l_thick l / 2) /\
  nth_error (max_strain_values ls) (S (length above)) = Some (l_smax l) /\
  nth_error (top_refs ls) (S (length above)) = Some (total_thick above + l_thick l) /\
  forall f vs, top_values f ls = Ok vs -> nth_error vs (S (length above)) = Some (Some (f l)).
Proof. exact profile_pairs. Qed.
Print Assumptions C66_pairs.
Example C66_pairs_ex : nth_error (mid_refs ex_site) 2 = Some (2 + 3 / 2) /\ nth_error (max_strain_values ex_site) 2 = Some (Some 2e-3).
Proof.
  destruct (C66_pairs ex_site (cons (ex_layer 2 0 1e-3) nil) (ex_layer 3 2 2e-3) (cons (ex_layer 0 5 0) nil) ex_site_depths eq_refl ltac:(discriminate))
    as (_ & _ & A & B & _). split; [|exact B]. etransitivity; [exact A|]. f_equal. cbn. lra.
Qed.

(** C66: so does the peak acceleration output whenever it returns. *)
Theorem C66_accel : forall acc ls vs,
  accel_values acc (top_refs ls) = Ok vs -> length vs = length (top_refs ls).
Proof. exact accel_lengths. Qed.
Print Assumptions C66_accel.
Example C66_accel_ex : accel_values (fun z => Ok (Some z)) (top_refs ex_site) = Ok [Some 0; Some 2; Some 5].
Proof. reflexivity. Qed.

(** C73: damping, modulus and velocity profiles read back at a depth inside a layer (top
    excluded, base included) give the value of that layer, also when the table is
    padded. *)
Theorem C73_read_back_partial : forall f ls z l n,
  depths_cumulative ls ->
  Forall (fun l => 0 < l_thick l /\ 0 < f l) (removelast ls) -> inside ls z l ->
  exists vs, top_values f ls = Ok vs /\
    profile_at (padded n (map Some (top_refs ls))) (padded n vs) z = Some (f l).
Proof. exact profile_read_back. Qed.
Print Assumptions C73_read_back_partial.
Example C73_ex : depths_cumulative ex_site /\ Forall (fun l => 0 < l_thick l /\ 0 < l_vs l) (removelast ex_site) /\
  inside ex_site 4 (ex_layer 3 2 2e-3).
Proof.
  split; [exact ex_site_depths|]. split.
  - repeat (apply Forall_cons; [cbn; lra|]). apply Forall_nil.
  - exists [ex_layer 2 0 1e-3], [ex_layer 0 5 0]. split; [reflexivity|]. split; [discriminate|]. cbn. lra.
Qed.

(** C73: the maximum-strain profile does not: anywhere in the lower half of the top
    layer it gives the strain of the second layer. *)
Theorem C73_refuted_strain : forall a b h ea eb n z,
  depths_cumulative [a; b; h] ->
  l_smax a = Some ea -> l_smax b = Some eb -> 0 < l_thick a -> 0 < l_thick b -> 0 < eb ->
  l_thick a / 2 < z <= l_thick a ->
  inside [a; b; h] z a /\
  profile_at (padded n (map Some (mid_refs [a; b; h]))) (padded n (max_strain_values [a; b; h])) z = Some eb.
Proof. exact strain_profile_below. Qed.
Print Assumptions C73_refuted_strain.
Example C73_strain_ex : depths_cumulative ex_site /\ 2 / 2 < 1.5 <= 2.
Proof. split; [exact ex_site_depths|]. lra. Qed.

(** C74: the median is the geometric mean of the available values (so it lies between
    any bounds on them), and the deviation is non-negative and zero exactly when all are
    equal. *)
Theorem C74_statistics : forall row,
  present row <> [] -> Forall (fun x => 0 < x) (present row) ->
  exists med sd, row_stats row = Some (med, sd) /\ 0 < med /\
    med ^ length (present row) = product (present row) /\
    (forall lo hi, 0 < lo -> Forall (fun x => lo <= x <= hi) (present row) -> lo <= med <= hi) /\
    0 <= sd /\ (sd = 0 <-> forall x, In x (present row) -> x = med).
Proof. exact row_stats_spec. Qed.
Print Assumptions C74_statistics.
Example C74_ex : present [Some 2; None; Some 8] <> [] /\ Forall (fun x => 0 < x) (present [Some 2; None; Some 8]).
Proof. split; [discriminate|]. repeat constructor; lra. Qed.

(** C74: missing entries do not change the statistics. *)
Theorem C74_missing : forall a b,
  row_stats (a ++ None :: b) = row_stats (a ++ b).
Proof. exact row_stats_missing. Qed.
Print Assumptions C74_missing.

(** C74: the statistics of an output are those of its rows when it holds at least two
    results; with a single result (stored as a 1-D array) or none they raise. *)
Theorem C74_table : forall refs o es,
  holds_fixed refs o es ->
  calc_stats o = match es with
                 | [] => Err TypeError
                 | [_] => Err IndexError
                 | _ => Ok (map (fun i => row_stats (map (fun e => nth i (en_vals e) None) es)) (seq 0 (longest (map en_vals es))))
                 end.
Proof. exact calc_stats_rows. Qed.
Print Assumptions C74_table.
Example C74_table_ex : exists es, length es = 3%nat /\ holds_fixed [1; 2] (out_run KFixed (out_new KFixed [1; 2]) (map OCall ex_calls)) es.
Proof. exact C72_fixed_ex. Qed.

(** C62: the Arias series is non-negative and non-decreasing. *)
Theorem C62_monotone : forall dt accels i j u v,
  0 <= dt -> (i <= j)%nat ->
  nth_error (arias_series dt accels) i = Some u -> nth_error (arias_series dt accels) j = Some v -> 0 <= u <= v.
Proof. exact arias_monotone. Qed.
Print Assumptions C62_monotone.
Example C62_ex : length (arias_series 0.01 [1; -2; 3]) = 2%nat.
Proof. reflexivity. Qed.

(** C62: its last value is the Arias intensity of the same response. *)
Theorem C62_last : forall dt accels,
  (2 <= length accels)%nat ->
  last_opt (arias_series dt accels) = Some (calc_arias_intensity dt accels).
Proof. exact arias_last. Qed.
Print Assumptions C62_last.

(** C62: it is one sample shorter than the response. *)
Theorem C62_length : forall dt accels,
  length (arias_series dt accels) = (length accels - 1)%nat.
Proof. exact arias_length. Qed.
Print Assumptions C62_length.

(** C62: the value reported at time i dt is the intensity up to time (i + 1) dt: every
    value is reported one step early. *)
Theorem C62_refuted_times : forall c accels i v,
  ca_values c = Ok (map Some (arias_series (ca_dt c) accels)) ->
  nth_error (arias_series (ca_dt c) accels) i = Some v ->
  nth_error (call_refs KSeries c (map Some (arias_series (ca_dt c) accels))) i = Some (Some (ca_dt c * INR i)) /\
  v = calc_arias_intensity (ca_dt c) (firstn (S (S i)) accels).
Proof. exact arias_times. Qed.
Print Assumptions C62_refuted_times.
Example C62_times_ex : exists v, nth_error (arias_series 0.01 [1; -2; 3]) 1 = Some v.
Proof. eexists. reflexivity. Qed.
