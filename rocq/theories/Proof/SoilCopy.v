(** Copies of soil types: when they are equal, and that they compute the same. *)
From Coq Require Import String.
From Verif Require Import Common Proof.CommonFacts Model.Curve Model.Layer Model.Cplx Model.Waves Model.Eql Model.SoilCopy Spec.SoilCopySpec.
Local Open Scope R_scope.

Lemma reqb_refl x : Reqb x x = true.
Proof. unfold Reqb. destruct (Req_EM_T x x); congruence. Qed.

Lemma copy_equal s : soil_eqb s (soil_copy s) = true <-> s_class s = 0%nat.
Proof.
  destruct s as [k n w m d]. unfold soil_eqb, soil_copy; cbn [s_class s_name s_unit_wt s_mod s_damp].
  rewrite String.eqb_refl, reqb_refl.
  assert (M : mod_eqb m m = true) by (destruct m; [apply Nat.eqb_refl|reflexivity]).
  assert (D : damp_eqb d d = true) by (destruct d; [apply reqb_refl|apply Nat.eqb_refl]).
  rewrite M, D, !Bool.andb_true_r. apply Nat.eqb_eq.
Qed.
Lemma copy_stored s : s_name (soil_copy s) = s_name s /\ s_unit_wt (soil_copy s) = s_unit_wt s /\
  s_mod (soil_copy s) = s_mod s /\ s_damp (soil_copy s) = s_damp s /\ soil_eqb (soil_copy (soil_copy s)) (soil_copy s) = true.
Proof.
  repeat split. apply (copy_equal (soil_copy s)). reflexivity.
Qed.
Lemma copy_layer_equal s h v d : layer_eqb (layer_make s h v d) (layer_make (soil_copy s) h v d) = true <-> s_class s = 0%nat.
Proof. unfold layer_eqb, layer_make, layer_reset; cbn [l_soil l_thick l_vs]. rewrite !reqb_refl, !Bool.andb_true_r. apply copy_equal. Qed.

Lemma quality_value s d : soil_damping_min s = Ok d ->
  (d <> 0 -> exists q, soil_quality s = Ok (Some q) /\ q * (2 * d) = 1) /\
  (d = 0 -> soil_quality s = match s_damp s with DConst _ => Err ZeroDivisionError | DCurve _ => Ok None end) /\
  soil_quality (soil_copy s) = soil_quality s.
Proof.
  intros E. unfold soil_quality. change (soil_damping_min (soil_copy s)) with (soil_damping_min s). rewrite E. cbn [bind].
  unfold Reqb. split; [|split; [|reflexivity]].
  - intros N. destruct (Req_EM_T (2 * d) 0) as [Z|Z]; [lra|]. eexists. split; [reflexivity|]. now field.
  - intros ->. destruct (Req_EM_T (2 * 0) 0) as [Z|Z]; [reflexivity|lra].
Qed.

(** ** Runs *)
Local Notation g := (on_soil soil_copy).
Lemma waves_on m ls : calc_waves m (map g ls) = calc_waves m ls.
Proof. unfold calc_waves. now rewrite map_map. Qed.
Lemma removelast_map {A B} (f : A -> B) xs : removelast (map f xs) = map f (removelast xs).
Proof. induction xs as [|x [|y xs] IH]; [reflexivity..|]. cbn [map removelast] in *. now rewrite IH. Qed.
Lemma last_opt_map {A B} (f : A -> B) xs : last_opt (map f xs) = option_map f (last_opt xs).
Proof. induction xs as [|x [|y xs] IH]; [reflexivity..|]. exact IH. Qed.
Lemma update_on P m n wv lin ls : forall i, update_strains P m n wv lin i (map g ls) =
  bind (update_strains P m n wv lin i ls) (fun '(u, b) => Ok (map g u, b)).
Proof.
  induction ls as [|l ls IH]; intros i; [reflexivity|]. cbn [map update_strains]. rewrite IH.
  change (calc_strain_max m n wv lin i (g l)) with (calc_strain_max m n wv lin i l).
  destruct (calc_strain_max m n wv lin i l) as [mx|]; [|reflexivity]. cbn [bind]. destruct (limit_strain _ _) as [s b].
  destruct (update_strains P m n wv lin (S i) ls) as [[u b']|]; reflexivity.
Qed.
Lemma errors_on ls : max_errors (map g ls) = max_errors ls.
Proof. induction ls as [|l [|k ls] IH]; [reflexivity..|]. cbn [map max_errors] in *. now rewrite IH. Qed.
Lemma tail_on (u ls : list layer) : map g u ++ match last_opt (map g ls) with Some b => [b] | None => [] end =
  map g (u ++ match last_opt ls with Some b => [b] | None => [] end).
Proof. rewrite last_opt_map, map_app. now destruct (last_opt ls). Qed.
Lemma pass_on P m lin wv ls : eql_pass P m lin wv (map g ls) = bind (eql_pass P m lin wv ls) (fun st => Ok (step_on soil_copy st)).
Proof.
  unfold eql_pass. rewrite map_length, removelast_map, update_on.
  destruct (update_strains _ _ _ _ _ _ _) as [[u b]|]; [|reflexivity]. cbn [bind]. cbv zeta. rewrite tail_on, errors_on.
  now destruct (max_errors _).
Qed.
Lemma loop_on P m lin k : forall it lim ls wv, eql_loop P m lin k it lim (map g ls) wv =
  (map (step_on soil_copy) (fst (eql_loop P m lin k it lim ls wv)),
   bind (snd (eql_loop P m lin k it lim ls wv)) (fun '(stop, ls2, w) => Ok (stop, map g ls2, w))).
Proof.
  induction k as [|k IH]; intros it lim ls wv; [reflexivity|]. cbn [eql_loop]. rewrite waves_on.
  destruct (calc_waves m ls) as [w|]; [|reflexivity]. rewrite pass_on.
  destruct (eql_pass P m lin w ls) as [st|]; [|reflexivity]. cbn [bind step_on st_error st_limited st_layers].
  destruct (err_below _ _); [reflexivity|]. destruct (_ && _)%bool; [reflexivity|]. cbv zeta. rewrite IH. reflexivity.
Qed.
Lemma maxs_on m n wv lin ls : forall i, set_strain_maxs m n wv lin i (map g ls) =
  bind (set_strain_maxs m n wv lin i ls) (fun u => Ok (map g u)).
Proof.
  induction ls as [|l ls IH]; intros i; [reflexivity|]. cbn [map set_strain_maxs]. rewrite IH.
  change (calc_strain_max m n wv lin i (g l)) with (calc_strain_max m n wv lin i l).
  destruct (calc_strain_max m n wv lin i l) as [mx|]; [|reflexivity]. cbn [bind].
  now destruct (set_strain_maxs _ _ _ _ _ _).
Qed.
Lemma call_on P m lin reset ls : eql_call P m lin reset (map g ls) =
  (map (step_on soil_copy) (fst (eql_call P m lin reset ls)),
   bind (snd (eql_call P m lin reset ls)) (fun '(stop, ls2, w) => Ok (stop, map g ls2, w))).
Proof.
  unfold eql_call, le_call, estimate_strains.
  replace (if reset then map layer_reset (map g ls) else map g ls) with (map g (if reset then map layer_reset ls else ls))
    by (destruct reset; [now rewrite !map_map|reflexivity]).
  rewrite waves_on. destruct (calc_waves m (if reset then map layer_reset ls else ls)) as [w0|]; [|reflexivity]. cbv zeta.
  set (l0 := if reset then map layer_reset ls else ls).
  replace (if reset then map (fun l => set_strain (layer_reset l) (m_pgv m / 100 / l_vs (layer_reset l))) (map g l0) else map g l0)
    with (map g (if reset then map (fun l => set_strain (layer_reset l) (m_pgv m / 100 / l_vs (layer_reset l))) l0 else l0))
    by (destruct reset; [now rewrite !map_map|reflexivity]).
  rewrite loop_on. destruct (eql_loop _ _ _ _ _ _ _ _) as [t out]. cbn [fst snd].
  destruct out as [[[stop l2] w]|]; [|reflexivity]. cbn [bind]. rewrite map_length, removelast_map, maxs_on.
  destruct (set_strain_maxs _ _ _ _ _ _) as [u|]; [|reflexivity]. cbn [bind]. now rewrite tail_on.
Qed.

Lemma copy_run P m lin reset ls t r : eql_call P m lin reset ls = (t, r) ->
  exists t' r', eql_call P m lin reset (map (on_soil soil_copy) ls) = (t', r') /\ length t' = length t /\
  match r, r' with
  | Err e, Err e' => e' = e
  | Ok (stop, out, w), Ok (stop', out', w') => stop' = stop /\ w' = w /\ Forall2 same_numbers out out'
  | _, _ => False
  end.
Proof.
  intros E. rewrite call_on, E. cbn [fst snd]. do 2 eexists. split; [reflexivity|]. split; [apply map_length|].
  destruct r as [[[stop out] w]|e]; cbn [bind]; [|reflexivity]. split; [reflexivity|]. split; [reflexivity|].
  clear E. induction out as [|l out IH]; cbn [map]; [constructor|]. constructor; [now repeat split|exact IH].
Qed.
Lemma copy_linear_run m reset ls : le_call m reset (map (on_soil soil_copy) ls) = le_call m reset ls.
Proof.
  unfold le_call. destruct reset; [|apply waves_on]. rewrite map_map.
  change (map (fun x => layer_reset (g x)) ls) with (map (fun x => g (layer_reset x)) ls). rewrite <- map_map. apply waves_on.
Qed.
