(** Model of variation.py: random site profiles.  Random numbers are arguments.
    A value that is not finite in numpy is [None]. *)
From Coq Require Import String.
From Verif Require Import Common Model.Curve Model.Layer Model.Profile Model.Gauss.
Local Open Scope R_scope.

(** ** [TruncatedNorm] (variation.py:38-148) *)

(** variation.py:71-93: [truncnorm.rvs(-limit, limit, scale=s)] is [s] times a
    draw [u] of the normal restricted to [[-limit, limit]]. *)
Definition tn_call (limit u : R) : R := tn_scale limit * u.

(** variation.py:95-112; the batches are those returned by
    [np.random.multivariate_normal], [None] means that they do not suffice. *)
Definition valid_pair (limit : R) (z : R * R) : bool :=
  Rltb (Rabs (fst z)) limit && Rltb (Rabs (snd z)) limit.
Fixpoint correlated (limit : R) (batches : list (list (R * R))) : option (R * R) :=
  match batches with
  | [] => None
  | b :: rest =>
      match filter (valid_pair limit) b with
      | z :: _ => Some z
      | [] => correlated limit rest
      end
  end.

(** variation.py:114-148.  [ppf p a b] is the standard [truncnorm.ppf(p, a, b)]. *)
Definition correlated_at_percentile (ppf : R -> R -> R -> R) (limit correl percentile : R) : R * R :=
  let s := tn_scale limit in
  let z1 := s * ppf percentile (- limit / s) (limit / s) in
  let z2 := correl * z1 + sqrt (Rmax (1 - correl ^ 2) 0) * z1 in
  (clip z1 (- limit) limit, clip z2 (- limit) limit).

(** variation.py:154 *)
Definition rand_limit : R := 2.

(** ** [ToroThicknessVariation] (variation.py:157-282) *)

Record toro_thick := mkToroThick { tt_c1 : R; tt_c2 : R; tt_c3 : R }.
(** variation.py:179 *)
Definition toro_thick_default : toro_thick := mkToroThick 10.86 (-0.89) 1.98.

(** variation.py:227-235: the depth of the accumulated [total]. *)
Definition toro_depth (m : toro_thick) (total : R) : res (option R) :=
  if Reqb (tt_c3 m) 0 || Reqb (tt_c2 m + 1) 0 then Err ZeroDivisionError
  else Ok
    (opt_bind (pow_opt (tt_c1 m) (tt_c2 m + 1)) (fun k =>
     opt_bind (pow_opt (tt_c2 m * total / tt_c3 m + total / tt_c3 m + k) (1 / (tt_c2 m + 1)))
       (fun r => Some (r - tt_c1 m)))).

(** How the generator ends: exhausted, an exception, or waiting for more numbers. *)
Inductive gen_end := Done | Raised (e : exn) | More.

(** variation.py:219-247, the loop; every yield is a thickness and a mid-depth, or
    [None] for nan, after which the loop condition is false. *)
Fixpoint iter_from (m : toro_thick) (depth_total : R) (incs : list R) (total depth_prev : R)
    : list (option (R * R)) * gen_end :=
  if Rltb depth_prev depth_total then
    match incs with
    | [] => ([], More)
    | e :: rest =>
        let total1 := total + e in
        match toro_depth m total1 with
        | Err x => ([], Raised x)
        | Ok None => ([None], Done)
        | Ok (Some d) =>
            let thickness := if Rltb depth_total d then depth_total - depth_prev else d - depth_prev in
            let depth := if Rltb depth_total d then depth_prev + thickness else d in
            let (ys, o) := iter_from m depth_total rest total1 depth in
            (Some (thickness, (depth_prev + depth) / 2) :: ys, o)
        end
    end
  else ([], Done).
Definition iter_thickness (m : toro_thick) (depth_total : R) (incs : list R) :=
  iter_from m depth_total incs 0 0.

(** variation.py:265-277: the layer that contains the mid-depth. *)
Definition host (ls : list layer) (mid : R) : option layer :=
  find (fun l => Rltb (l_depth l) mid && Rleb mid (depth_base l)) ls.
Fixpoint host_layers (ls : list layer) (ys : list (option (R * R))) : res (list layer) :=
  match ys with
  | [] => Ok []
  | None :: _ => Err LookupError
  | Some (thick, mid) :: rest =>
      match host ls mid with
      | None => Err LookupError
      | Some l =>
          bind (host_layers ls rest) (fun r =>
          Ok (layer_make (l_soil l) thick (l_vs l) (l_dmin l) :: r))
      end
  end.

(** [profile[-2]] *)
Definition second_last {A} (xs : list A) : option A := last_opt (removelast xs).

(** variation.py:249-282; the inner [None] means that more increments are needed. *)
Definition toro_thickness_call (m : toro_thick) (w : world) (p : nat) (incs : list R)
    : world * option (res nat) :=
  let ls := view w p in
  match second_last ls, last_opt ls with
  | Some above, Some hsl =>
      let (ys, o) := iter_thickness m (depth_base above) incs in
      match host_layers ls ys with
      | Err e => (w, Some (Err e))
      | Ok layers =>
          match o with
          | More => (w, None)
          | Raised e => (w, Some (Err e))
          | Done =>
              match layer_new (l_soil hsl) 0 (l_vs hsl) None with
              | Err e => (w, Some (Err e))
              | Ok bottom =>
                  let (w1, addrs) := alloc_layers w (layers ++ [bottom]) in
                  let (w2, q) := new_profile w1 addrs (p_wt (w_profs w p)) in
                  (w2, Some (Ok q))
              end
          end
      end
  | _, _ => (w, Some (Err IndexError))
  end.

(** ** [HalfSpaceDepthVariation] (variation.py:285-320) *)

Definition set_last_thick (ls : list layer) (t : R) : list layer :=
  match last_opt ls with
  | Some l => removelast ls ++ [set_thick_raw l t]
  | None => ls
  end.

(** variation.py:302-306: [np.ceil(total_thick // orig_thick).astype(int)]. *)
Definition extra_count (total orig : R) : Z := Rceil (IZR (up (total / orig) - 1)).

(** variation.py:289-320 for the sampled depth [d].  The inner [None]: the new
    thickness is not finite. *)
Definition half_space_call (w : world) (p : nat) (d : R) : world * option (res nat) :=
  let (w1, r) := lookup_depth w p d in
  match r, last_opt (layers_of w1 p) with
  | Ok (index, within), Some half_space =>
      let finish layers :=
        let (w2, addrs) := alloc_layers w1 layers in
        let (w3, q) := new_profile w2 (addrs ++ [half_space]) (p_wt (w_profs w1 p)) in
        (w3, Some (Ok q)) in
      if Nat.ltb index (length (layers_of w1 p) - 1)
      then finish (set_last_thick (map layer_copy (firstn (index + 1) (view w1 p))) within)
      else match second_last (view w1 p) with
           | None => (w1, Some (Err IndexError))
           | Some parent =>
               if Reqb (l_thick parent) 0 then (w1, Some (Err ZeroDivisionError))
               else
                 let total := l_thick parent + within in
                 let count := extra_count total (l_thick parent) in
                 match div_opt total (IZR count) with
                 | None => (w1, None)
                 | Some thick =>
                     let layers := set_last_thick (map layer_copy (removelast (view w1 p))) thick in
                     finish (layers ++
                       match last_opt layers with
                       | Some parent' => repeat (layer_copy parent') (Z.to_nat (count - 1))
                       | None => []
                       end)
                 end
           end
  | Ok _, None => (w1, Some (Err IndexError))
  | Err e, _ => (w1, Some (Err e))
  end.

(** ** Velocities (variation.py:333-776) *)

(** variation.py:380-405, without the random scale: adjacent-layer correlations
    and standard deviations give a tridiagonal matrix. *)
Definition covar_entry (corr std : list R) (i j : nat) : R :=
  if Nat.eqb i j then nth i std 0 ^ 2
  else if Nat.eqb (S i) j then nth i corr 0 * nth i std 0 * nth j std 0
  else if Nat.eqb (S j) i then nth j corr 0 * nth j std 0 * nth i std 0
  else 0.
Definition tridiag (corr std : list R) : res (list (list R)) :=
  if Nat.eqb (length corr + 1) (length std)
  then Ok (map (fun i => map (covar_entry corr std i) (seq 0 (length std))) (seq 0 (length std)))
  else Err ValueError.

(** variation.py:380-405 *)
Definition calc_covar_matrix (corr ln_std : list R) : res (list (list R)) :=
  tridiag corr (map (fun s => s * tn_scale rand_limit) ln_std).

(** variation.py:355-359: clipped and exponentiated, one layer. *)
Definition varied_vel (mean variance draw : R) : R :=
  let offset := rand_limit * sqrt variance in
  exp (clip draw (mean - offset) (mean + offset)).
Fixpoint varied_vels (means variances draws : list R) : list R :=
  match means, variances, draws with
  | m :: ms, v :: vs, d :: ds => varied_vel m v d :: varied_vels ms vs ds
  | _, _, _ => []
  end.
Definition diagonal (mat : list (list R)) : list R :=
  map (fun i => nth i (nth i mat []) 0) (seq 0 (length mat)).

(** variation.py:361-366: [varied[i].initial_shear_vel = v]. *)
Fixpoint assign_vels (h : heap) (addrs : list nat) (vels : list R) : heap :=
  match addrs, vels with
  | a :: addrs', v :: vels' => assign_vels (hset h a (set_initial_vs (h a) v)) addrs' vels'
  | _, _ => h
  end.

(** variation.py:333-368.  The subclass gives the correlations and standard
    deviations of the layers; [draw] is the multivariate normal sample. *)
Record vel_var := mkVelVar {
  vv_corr : list layer -> res (list R);
  vv_ln_std : list layer -> res (list R);
  vv_bedrock : bool
}.
Definition velocity_call (v : vel_var) (w : world) (p : nat) (draw : list R) : world * res nat :=
  let ls := view w p in
  match bind (vv_corr v ls) (fun corr => bind (vv_ln_std v ls) (calc_covar_matrix corr)) with
  | Err e => (w, Err e)
  | Ok covar =>
      let vel := varied_vels (map (fun l => ln (l_vs l)) ls) (diagonal covar) draw in
      let (w1, q) := profile_copy w p in
      let vel' := if vv_bedrock v then vel else removelast vel in
      (set_heap w1 (assign_vels (w_heap w1) (layers_of w1 q) vel'), Ok q)
  end.

(** variation.py:521-540 *)
Record toro_vel := mkToroVel {
  tv_ln_std : R; tv_rho_0 : R; tv_delta : R; tv_rho_200 : R; tv_h_0 : R; tv_b : R
}.

Fixpoint pair_means (xs : list R) : list R :=
  match xs with
  | x :: ((y :: _) as rest) => (x + y) / 2 :: pair_means rest
  | _ => []
  end.
Fixpoint diffs (xs : list R) : list R :=
  match xs with
  | x :: ((y :: _) as rest) => (y - x) :: diffs rest
  | _ => []
  end.

(** variation.py:569-582, one pair of layers.  [delta = 0] is taken as not finite. *)
Definition toro_corr_at (m : toro_vel) (depth thick : R) : option R :=
  let t := Rmin thick 100 in
  opt_bind
    (if Rltb 200 depth then Some (tv_rho_200 m)
     else opt_bind (div_opt (depth + tv_h_0 m) (200 + tv_h_0 m)) (fun r =>
          opt_bind (pow_opt r (tv_b m)) (fun x => Some (tv_rho_200 m * x))))
    (fun corr_depth =>
  opt_bind (div_opt (- t) (tv_delta m)) (fun e =>
    let corr_thick := tv_rho_0 m * exp e in
    Some ((1 - corr_depth) * corr_thick + corr_depth))).

(** variation.py:542-587 from the mid-depths. *)
Definition toro_corr_mids (m : toro_vel) (mids : list R) : list (option R) :=
  let depth := pair_means mids in
  map (fun dt => toro_corr_at m (fst dt) (snd dt)) (combine (removelast depth) (diffs depth))
  ++ [Some 1].
Definition toro_corr (m : toro_vel) (ls : list layer) : list (option R) :=
  toro_corr_mids m (map depth_mid ls).
(** variation.py:589-591 *)
Definition toro_ln_std (m : toro_vel) (ls : list layer) : list R := map (fun _ => tv_ln_std m * 1) ls.

(** variation.py:460-519, [PARAMS]. *)
Open Scope string_scope.
Definition toro_params : list (string * toro_vel) :=
  [("Geomatrix AB", mkToroVel 0.46 0.96 13.1 0.96 0 0.095);
   ("Geomatrix CD", mkToroVel 0.38 0.99 8 1 0 0.160);
   ("USGS AB", mkToroVel 0.35 0.95 4.2 1 0 0.138);
   ("USGS CD", mkToroVel 0.36 0.99 3.9 1 0 0.293);
   ("USGS A", mkToroVel 0.36 0.95 3.4 0.42 0 0.063);
   ("USGS B", mkToroVel 0.27 0.97 3.8 1 0 0.293);
   ("USGS C", mkToroVel 0.31 0.99 3.9 0.98 0 0.344);
   ("USGS D", mkToroVel 0.37 0 5 0.50 0 0.744)].
Definition toro_lookup (site_class : string) : res toro_vel :=
  match find (fun kv => String.eqb (fst kv) site_class) toro_params with
  | Some kv => Ok (snd kv)
  | None => Err KeyError
  end.

(** variation.py:659-661 *)
Definition searchsorted (xs : list R) (v : R) : nat := length (filter (fun x => Rltb x v) xs).
Definition usgs_site_class (vs30 : R) : option string :=
  option_map (String.append "USGS ") (nth_error ["D"; "C"; "B"; "A"] (searchsorted [180; 360; 750] vs30)).

(** variation.py:721-736, [DepthDependToroVelVariation._calc_ln_std]; [name in
    layer.soil_type.name] is a substring test. *)
Definition str_in (x s : string) : bool :=
  match String.index 0 x s with Some _ => true | None => false end.
Definition depth_ln_std (depth ln_std : list R) (ln_std_map : list (string * R)) (l : layer) : R :=
  fold_left (fun v nv => if str_in (fst nv) (s_name (l_soil l)) then snd nv else v) ln_std_map
    (np_interp (depth_mid l) (combine depth ln_std)).

(** variation.py:738-776: the depths and standard deviations that [generic_model]
    passes on, from the keyword arguments of the same names. *)
Definition generic_depth_model (site_class : string) (depth ln_std : option (list R))
    : res (option (list R) * option (list R)) :=
  bind (toro_lookup site_class) (fun _ =>
  Ok (match depth with
      | None => (Some [0; 15], Some [0.25; 0.15])
      | Some d => (Some d, ln_std)
      end)).
Close Scope string_scope.

(** ** Soil types (variation.py:779-1075) *)

Definition sqrt_opt (x : R) : option R := if Rleb 0 x then Some (sqrt x) else None.

(** variation.py:976-1017 *)
Definition darendeli_std_mod (m : R) : option R :=
  opt_bind (sqrt_opt (0.25 / exp 3.62 - (m - 0.5) ^ 2 / exp 3.62)) (fun r => Some (exp (-4.23) + r)).
Definition darendeli_std_damp (d : R) : option R :=
  opt_bind (sqrt_opt (100 * d)) (fun r => Some ((exp (-5) + exp (-0.25) * r) / 100)).

(** [np.finfo(float).eps] *)
Definition feps : R := / 2 ^ 52.

Inductive var_kind := Darendeli | Spid (std_mod std_damp : R).

(** variation.py:966-974 and 1047-1067, one value of the curve. *)
Definition vary_mod (k : var_kind) (z : R) (m : R) : option R :=
  match k with
  | Darendeli => opt_bind (darendeli_std_mod m) (fun s => Some (m + z * s))
  | Spid std _ =>
      opt_bind (div_opt m (1 - m + feps)) (fun f_mean =>
      let f_std := std * (1 / (1 - 0.5)) in
      let f_real := exp (z * f_std) * f_mean in
      div_opt f_real (1 + f_real))
  end.
Definition vary_damp (k : var_kind) (z : R) (d : R) : option R :=
  match k with
  | Darendeli => opt_bind (darendeli_std_damp d) (fun s => Some (d + z * s))
  | Spid _ std => Some (exp (z * std) * d)
  end.

(** variation.py:882-895: clipped values in a copy of the curve, which gets a new
    identity. *)
Definition vary_values (f : R -> option R) (lim : R * R) (vs : list R) : option (list R) :=
  map_opt (fun v => opt_bind (f v) (fun x => Some (clip x (fst lim) (snd lim)))) vs.
Definition vary_curve (id : nat) (f : R -> option R) (lim : R * R) (c : curve) : option curve :=
  opt_bind (vary_values f lim (c_values c)) (fun vs =>
  Some (mkCurve id (c_strains c) vs (c_lo c) (c_hi c))).

(** variation.py:858-902 after the pair of random numbers is chosen: [None] when a
    varied value is not a number.  Without a modulus curve the modulus reduction
    becomes a nan that is never used ([mod_reduc(strain)] raises [TypeError] as for
    [None]); it is left [None] here. *)
Definition vary_soil (k : var_kind) (lim_mod lim_damp : R * R) (id : nat) (z : R * R) (s : soil)
    : option soil :=
  opt_bind
    (match s_mod s with
     | None => Some None
     | Some c => opt_bind (vary_curve id (vary_mod k (fst z)) lim_mod c) (fun c' => Some (Some c'))
     end) (fun mr =>
  opt_bind
    (match s_damp s with
     | DConst d =>
         opt_bind (vary_damp k (snd z) d) (fun x => Some (DConst (clip x (fst lim_damp) (snd lim_damp))))
     | DCurve c => opt_bind (vary_curve (S id) (vary_damp k (snd z)) lim_damp c) (fun c' => Some (DCurve c'))
     end) (fun dm =>
  Some (mkSoil (s_class s) (s_name s) (s_unit_wt s) mr dm))).

Inductive sample_mode := Random | FixedPercentiles (ps : list R).
Record soil_var := mkSoilVar {
  sv_kind : var_kind;
  sv_corr : R;
  sv_lim_mod : R * R;
  sv_lim_damp : R * R;
  sv_bedrock : bool;
  sv_mode : sample_mode
}.

(** variation.py:813-842, the checks of the constructor. *)
Definition soil_var_new (k : var_kind) (corr : R) (lm ld : R * R) (bedrock : bool) (mode : sample_mode)
    : res soil_var :=
  match mode with
  | Random => Ok (mkSoilVar k corr lm ld bedrock mode)
  | FixedPercentiles [] => Err ValueError
  | FixedPercentiles ps =>
      if forallb (fun p => Rltb 0 p && Rltb p 1) ps
      then Ok (mkSoilVar k corr lm ld bedrock mode) else Err ValueError
  end.

(** variation.py:868-877: [draw] is what [randnorm.correlated] returns. *)
Definition choose_pair (ppf : R -> R -> R -> R) (v : soil_var) (sample_index : option Z) (draw : R * R)
    : res (R * R) :=
  match sv_mode v with
  | Random => Ok draw
  | FixedPercentiles ps =>
      match sample_index with
      | None => Err ValueError
      | Some i =>
          match opt_bind (py_index i (length ps)) (nth_error ps) with
          | None => Err IndexError
          | Some p => Ok (correlated_at_percentile ppf rand_limit (sv_corr v) p)
          end
      end
  end.
(** variation.py:844-902 *)
Definition soil_call (ppf : R -> R -> R -> R) (v : soil_var) (sample_index : option Z)
    (id : nat) (draw : R * R) (s : soil) : res (option soil) :=
  bind (choose_pair ppf v sample_index draw) (fun z =>
  Ok (vary_soil (sv_kind v) (sv_lim_mod v) (sv_lim_damp v) id z s)).

(** variation.py:916-919: one realisation per layer, as [iter_soil_types] yields
    every layer's soil type, stored under the identity [key] of the soil type. *)
Fixpoint realisations (ppf : R -> R -> R -> R) (v : soil_var) (sample_index : option Z) (id : nat)
    (items : list (nat * soil)) (draws : list (R * R)) : res (list (nat * option soil)) :=
  match items, draws with
  | (key, s) :: items', z :: draws' =>
      bind (soil_call ppf v sample_index id z s) (fun s' =>
      bind (realisations ppf v sample_index (S (S id)) items' draws') (fun r =>
      Ok ((key, s') :: r)))
  | _, _ => Ok []
  end.
(** A dictionary keeps the last value stored under a key. *)
Definition dict_get {A} (d : list (nat * A)) (key : nat) : option A :=
  option_map snd (find (fun kv => Nat.eqb (fst kv) key) (rev d)).

Fixpoint varied_layers (d : list (nat * option soil)) (keys : list nat) (ls : list layer)
    : res (option (list layer)) :=
  match keys, ls with
  | key :: keys', l :: ls' =>
      match dict_get d key with
      | None => Err KeyError
      | Some s' =>
          bind (varied_layers d keys' ls') (fun r =>
          Ok (opt_bind s' (fun s => opt_bind r (fun r' =>
              Some (layer_make s (l_thick l) (l_vs l) (l_dmin l) :: r')))))
      end
  | _, _ => Ok (Some [])
  end.

(** variation.py:904-940.  [keys] are the identities of the layers' soil types,
    [id] the first free curve identity, [draws] one random pair per layer.  The
    inner [None]: a varied value is not a number. *)
Definition vary_profile (ppf : R -> R -> R -> R) (v : soil_var) (w : world) (p : nat)
    (sample_index : option Z) (keys : list nat) (id : nat) (draws : list (R * R))
    : world * option (res nat) :=
  let ls := view w p in
  match realisations ppf v sample_index id (combine keys (iter_soil_types ls)) draws with
  | Err e => (w, Some (Err e))
  | Ok d =>
      let ls' := if sv_bedrock v then ls else removelast ls in
      match varied_layers d keys ls' with
      | Err e => (w, Some (Err e))
      | Ok None => (w, None)
      | Ok (Some layers) =>
          let finish tail :=
            let (w1, addrs) := alloc_layers w layers in
            let (w2, q) := new_profile w1 (addrs ++ tail) (p_wt (w_profs w p)) in
            (w2, Some (Ok q)) in
          if sv_bedrock v then finish []
          else match last_opt (layers_of w p) with
               | None => (w, Some (Err IndexError))
               | Some bottom => finish [bottom]
               end
      end
  end.

(** ** [iter_varied_profiles] (variation.py:1078-1138) *)

(** The random numbers (and soil identities) of one realisation. *)
Record draws := mkDraws {
  dr_incs : list R; dr_vel : list R; dr_keys : list nat; dr_id : nat; dr_pairs : list (R * R)
}.

(** variation.py:1106-1112 *)
Definition check_count (vs : option soil_var) (count : nat) : res unit :=
  match vs with
  | Some v =>
      match sv_mode v with
      | FixedPercentiles ps =>
          if Nat.eqb (length ps) 0 then Err ZeroDivisionError
          else if Nat.eqb (count mod length ps) 0 then Ok tt else Err ValueError
      | Random => Ok tt
      end
  | None => Ok tt
  end.

(** variation.py:1124-1133 *)
Definition sample_index (v : soil_var) (i : nat) : option Z :=
  match sv_mode v with
  | FixedPercentiles ps => Some (Z.of_nat (i mod length ps))
  | Random => None
  end.

(** A step that may fail or run out of random numbers. *)
Definition then_ (x : world * option (res nat)) (f : world -> nat -> world * option (res nat)) :=
  match x with
  | (w, Some (Ok q)) => f w q
  | y => y
  end.

(** variation.py:1114-1138, the body of the loop. *)
Definition varied_once (ppf : R -> R -> R -> R) (vt : option toro_thick) (vv : option vel_var)
    (vs : option soil_var) (w : world) (p i : nat) (d : draws) : world * option (res nat) :=
  let (w1, q1) := profile_copy w p in
  then_ (match vt with
         | Some m => toro_thickness_call m w1 q1 (dr_incs d)
         | None => (w1, Some (Ok q1))
         end) (fun w2 q2 =>
  then_ (match vv with
         | Some v => let (w', r) := velocity_call v w2 q2 (dr_vel d) in (w', Some r)
         | None => (w2, Some (Ok q2))
         end) (fun w3 q3 =>
         match vs with
         | Some v => vary_profile ppf v w3 q3 (sample_index v i) (dr_keys d) (dr_id d) (dr_pairs d)
         | None => (w3, Some (Ok q3))
         end)).
Fixpoint varied_from (ppf : R -> R -> R -> R) (vt : option toro_thick) (vv : option vel_var)
    (vs : option soil_var) (w : world) (p i : nat) (ds : list draws) : world * option (res (list nat)) :=
  match ds with
  | [] => (w, Some (Ok []))
  | d :: rest =>
      match varied_once ppf vt vv vs w p i d with
      | (w1, Some (Ok q)) =>
          let (w2, r) := varied_from ppf vt vv vs w1 p (S i) rest in
          (w2, option_map (fun x => bind x (fun qs => Ok (q :: qs))) r)
      | (w1, Some (Err e)) => (w1, Some (Err e))
      | (w1, None) => (w1, None)
      end
  end.
Definition iter_varied_profiles (ppf : R -> R -> R -> R) (vt : option toro_thick) (vv : option vel_var)
    (vs : option soil_var) (w : world) (p : nat) (ds : list draws) : world * option (res (list nat)) :=
  match check_count vs (length ds) with
  | Err e => (w, Some (Err e))
  | Ok _ => varied_from ppf vt vv vs w p 0 ds
  end.
