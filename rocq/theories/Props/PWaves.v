(** Properties C06, C21-C25, C30: complex modulus, waves, transfer functions. *)
From Coq Require Import String List.
From Verif Require Import Common Model.Curve Model.Layer Model.Profile Model.Cplx Model.Waves Spec.ProfileSpec Spec.WaveSpec
  Proof.CplxFacts Proof.WaveFacts Proof.WaveSplit Proof.WaveEnergy Proof.ProfileProps Proof.ProfileFacts Proof.WaveProps.
From Coquelicot Require Import Complex.
Local Open Scope R_scope.

(** Two soils used by the examples: an elastic layer with 5 percent damping over a
    half-space. *)
Definition ex_s1 : soil := mkSoil 0 "soft"%string 18 None (DConst 0.05).
Definition ex_s2 : soil := mkSoil 0 "rock"%string 22 None (DConst 0.01).
Definition ex_site : list layer := [layer_make ex_s1 10 200 0.05; layer_make ex_s2 0 800 0.01].
Lemma ex_sound : List.Forall sound ex_site.
Proof.
  unfold ex_site. constructor; [|constructor; [|constructor]];
    unfold sound, shear_mod, layer_make, layer_reset, initial_shear_mod, density, iter_new, GRAVITY; cbn; lra.
Qed.
Lemma ex_damped : List.Forall (fun l => 0 < damping l) ex_site.
Proof. unfold ex_site. constructor; [|constructor; [|constructor]]; unfold damping, layer_make, layer_reset, iter_new; cbn; lra. Qed.

(** C06: for every damping value, with d the damping limited to [0, 0.49]: magnitude G,
    imaginary part 2 d G, positive real part; density times the squared complex velocity
    is the complex modulus; the velocity has positive real and non-negative imaginary
    part. *)
Theorem C06_modulus : forall l d,
  0 < shear_mod l -> 0 < s_unit_wt (l_soil l) ->
  limited_damping (damping l) d ->
  Cmod (comp_shear_mod l) = shear_mod l /\
  Im (comp_shear_mod l) = 2 * d * shear_mod l /\
  0 < Re (comp_shear_mod l) /\
  Cmult (RtoC (density (l_soil l))) (Cmult (comp_shear_vel l) (comp_shear_vel l)) = comp_shear_mod l /\
  0 < Re (comp_shear_vel l) /\ 0 <= Im (comp_shear_vel l).
Proof. exact modulus_default. Qed.
Print Assumptions C06_modulus.
Example C06_ex : let l := layer_make ex_s1 10 200 0.7 in
  0 < shear_mod l /\ 0 < s_unit_wt (l_soil l) /\ limited_damping (damping l) 0.49.
Proof.
  cbn zeta. unfold limited_damping, shear_mod, damping, layer_make, layer_reset, initial_shear_mod, density, iter_new, GRAVITY; cbn.
  repeat split; intros; lra.
Qed.

(** C06: the three documented models share the imaginary part 2 d G; their magnitudes
    are G sqrt(1 + 4 d^2), G (1 + d^2) written as a root, and G. *)
Theorem C06_all_models : forall G D d,
  0 < G -> limited_damping D d ->
  (forall m, Im (comp_shear_mod_of m G D) = 2 * d * G) /\
  Cmod (comp_shear_mod_of Seed G D) = G * sqrt (1 + 4 * d ^ 2) /\
  Cmod (comp_shear_mod_of Kramer G D) = G * sqrt (1 + 2 * d ^ 2 + d ^ 4) /\
  Cmod (comp_shear_mod_of Dormieux G D) = G.
Proof. exact modulus_models. Qed.
Print Assumptions C06_all_models.
Example C06_all_models_ex : limited_damping (-0.1) 0.
Proof. unfold limited_damping. repeat split; intros; lra. Qed.

(** C21: at every angular frequency above the threshold 1e-8, the reported motion is
    continuous across every interface, and so is the shear stress (modulus times the
    depth derivative of the motion). *)
Theorem C21_interface : forall w ls rs i l l',
  1e-8 < Rabs w -> List.Forall carries ls ->
  calc_waves_python w ls = Ok rs ->
  nth_error ls i = Some l -> nth_error ls (S i) = Some l' ->
  exists u u', field_in rs i u /\ field_in rs (S i) u' /\ welded l l' u u'.
Proof. exact interface_welded. Qed.
Print Assumptions C21_interface.
Example C21_ex : List.Forall carries (map wlayer_of ex_site).
Proof.
  apply List.Forall_forall. intros x Hx. apply List.in_map_iff in Hx. destruct Hx as (l & <- & Hl).
  apply phys_carries, sound_phys. pose proof ex_sound as H. rewrite List.Forall_forall in H. now apply H.
Qed.

(** C21: inside each layer the reported motion satisfies the wave equation c^2 u'' = -
    w^2 u. *)
Theorem C21_wave_equation : forall w ls rs i l,
  1e-8 < Rabs w -> wl_vel l <> RtoC 0 ->
  calc_waves_python w ls = Ok rs -> nth_error ls i = Some l ->
  exists u, field_in rs i u /\ wave_equation (wl_vel l) w u.
Proof. exact layer_wave_equation. Qed.
Print Assumptions C21_wave_equation.

(** C21: the motion at the surface is twice the (unit) incoming amplitude, and its depth
    derivative vanishes there: no shear stress. *)
Theorem C21_free_surface : forall w l ls rs,
  1e-8 < Rabs w -> wl_vel l <> RtoC 0 ->
  calc_waves_python w (l :: ls) = Ok rs ->
  exists u, field_in rs 0 u /\ u 0 = RtoC 2 /\ stress_free_top u.
Proof. exact surface_free. Qed.
Print Assumptions C21_free_surface.

(** C21: for non-zero frequencies at or below 1e-8 rad/s the code replaces only the
    amplitudes of the bottom layer by 1, and the motion can jump at the interface. *)
Theorem C21_refuted_below_threshold : forall w,
  w <> 0 -> Rabs w <= 1e-8 ->
  exists l l' rs, carries l /\ carries l' /\ calc_waves_python w [l; l'] = Ok rs /\
    forall u u', field_in rs 0 u -> field_in rs 1 u' -> ~ welded l l' u u'.
Proof. exact welded_fails_below. Qed.
Print Assumptions C21_refuted_below_threshold.

(** C22: a location to itself: 1. *)
Theorem C22_self : forall rs lin x,
  wave_at_location rs lin = Ok (Some x) -> x <> RtoC 0 ->
  calc_accel_tf rs lin lin = Ok (Some (RtoC 1)).
Proof. exact tf_self. Qed.
Print Assumptions C22_self.

(** C22: a to b times b to c is a to c. *)
Theorem C22_compose : forall rs la lb lc xa xb xc,
  wave_at_location rs la = Ok (Some xa) -> wave_at_location rs lb = Ok (Some xb) ->
  wave_at_location rs lc = Ok (Some xc) -> xa <> RtoC 0 -> xb <> RtoC 0 ->
  exists t1 t2, calc_accel_tf rs la lb = Ok (Some t1) /\ calc_accel_tf rs lb lc = Ok (Some t2) /\
    calc_accel_tf rs la lc = Ok (Some (Cmult t1 t2)).
Proof. exact tf_compose. Qed.
Print Assumptions C22_compose.

(** C22: for a physical profile at any frequency above the threshold the two laws hold
    for all outcrop or incoming locations, with no assumption on the motions. *)
Theorem C22_physical : forall w ls rs,
  1e-8 < w -> List.Forall sound ls ->
  calc_waves_python w (map wlayer_of ls) = Ok rs ->
  forall la lb lc,
  (loc_index la < length ls)%nat -> (loc_index lb < length ls)%nat -> (loc_index lc < length ls)%nat ->
  loc_field la <> Within -> loc_field lb <> Within ->
  calc_accel_tf rs la la = Ok (Some (RtoC 1)) /\
  exists t1 t2, calc_accel_tf rs la lb = Ok (Some t1) /\ calc_accel_tf rs lb lc = Ok (Some t2) /\
    calc_accel_tf rs la lc = Ok (Some (Cmult t1 t2)).
Proof. exact tf_laws_physical. Qed.
Print Assumptions C22_physical.
Example C22_physical_ex : List.Forall sound ex_site /\
  exists rs, calc_waves_python 6 (map wlayer_of ex_site) = Ok rs.
Proof. split; [exact ex_sound|]. eexists. reflexivity. Qed.

(** C22: outcrop motion is twice the incoming-only motion. *)
Theorem C22_outcrop : forall rs i z x,
  wave_at_location rs (mkLoc i z IncomingOnly) = Ok (Some x) ->
  wave_at_location rs (mkLoc i z Outcrop) = Ok (Some (Cmult (RtoC 2) x)).
Proof. exact outcrop_twice. Qed.
Print Assumptions C22_outcrop.

(** C22: at the free surface within and outcrop motions coincide. *)
Theorem C22_surface : forall w l ls rs,
  wl_vel l <> RtoC 0 -> calc_waves_python w (l :: ls) = Ok rs ->
  wave_at_location rs (mkLoc 0 0 Within) = Ok (Some (RtoC 2)) /\
  wave_at_location rs (mkLoc 0 0 Outcrop) = Ok (Some (RtoC 2)).
Proof. exact surface_outcrop. Qed.
Print Assumptions C22_surface.

(** C22: at zero frequency every within or outcrop pair has transfer function 1. *)
Theorem C22_zero_frequency : forall ls rs,
  List.Forall (fun l => wl_vel l <> RtoC 0) ls ->
  calc_waves_python 0 ls = Ok rs ->
  forall lin lout, (loc_index lin < length ls)%nat -> (loc_index lout < length ls)%nat ->
  loc_field lin <> IncomingOnly -> loc_field lout <> IncomingOnly ->
  calc_accel_tf rs lin lout = Ok (Some (RtoC 1)).
Proof. exact zero_frequency. Qed.
Print Assumptions C22_zero_frequency.
Example C22_zero_ex : List.Forall (fun l => wl_vel l <> RtoC 0) (map wlayer_of ex_site).
Proof. pose proof C21_ex as H. apply List.Forall_impl with (2 := H). intros l [Hv _]. exact Hv. Qed.

(** C23: replacing a layer by parts of the same material and total thickness keeps the
    rows above and below, and each part reports the motion of the whole layer at the
    corresponding depth (for a layer that is not the bottom one, or any layer above the
    frequency threshold). *)
Theorem C23_split : forall w pre v m hs post,
  v <> RtoC 0 -> m <> RtoC 0 -> hs <> [] -> (post <> [] \/ 1e-8 < Rabs w) ->
  exists Ra r Rs Rb,
    calc_waves_python w (pre ++ mkWL v m (Rsum hs) :: post) = Ok (Ra ++ r :: Rb) /\
    calc_waves_python w (pre ++ map (mkWL v m) hs ++ post) = Ok (Ra ++ Rs ++ Rb) /\
    length Ra = length pre /\ length Rs = length hs /\ length Rb = length post /\
    forall j rj, nth_error Rs j = Some rj -> same_motion rj r (Rsum (firstn j hs)).
Proof. exact split_motion. Qed.
Print Assumptions C23_split.
Example C23_split_ex : Rsum [1; 2; 0; 4] = 7.
Proof. unfold Rsum; cbn. lra. Qed.

(** C23: surface-to-base and base-to-surface transfer functions are the same after any
    number of splits. *)
Theorem C23_refinement : forall w ls ls',
  finer ls ls' -> forall rs, calc_waves_python w ls = Ok rs ->
  exists rs', calc_waves_python w ls' = Ok rs' /\
  forall zs zb fs fb,
    calc_accel_tf rs' (mkLoc (length ls' - 1) zb fb) (mkLoc 0 zs fs) =
    calc_accel_tf rs (mkLoc (length ls - 1) zb fb) (mkLoc 0 zs fs) /\
    calc_accel_tf rs' (mkLoc 0 zs fs) (mkLoc (length ls' - 1) zb fb) =
    calc_accel_tf rs (mkLoc 0 zs fs) (mkLoc (length ls - 1) zb fb).
Proof. exact finer_tf. Qed.
Print Assumptions C23_refinement.

(** C23: auto_discretize keeps the surface and base transfer functions of a linear
    analysis, for unstrained profiles, at every frequency. *)
Theorem C23_discretised : forall w p f wf nl w' q freq,
  (forall a, In a (layers_of w p) -> (a < w_next w)%nat) -> NoDup (layers_of w p) ->
  layers_of w p <> [] -> List.Forall site_ok (removelast (view w p)) -> 0 < f -> 0 < wf ->
  List.Forall (fun l => shear_vel l = l_vs l) (removelast (view w p)) ->
  auto_discretize w p f wf nl = (w', Ok q) ->
  forall rs, linear_elastic true freq (view w p) = Ok rs ->
  exists rs', linear_elastic true freq (view w' q) = Ok rs' /\
  forall zs zb fs fb,
    calc_accel_tf rs' (mkLoc (length (view w' q) - 1) zb fb) (mkLoc 0 zs fs) =
    calc_accel_tf rs (mkLoc (length (view w p) - 1) zb fb) (mkLoc 0 zs fs) /\
    calc_accel_tf rs' (mkLoc 0 zs fs) (mkLoc (length (view w' q) - 1) zb fb) =
    calc_accel_tf rs (mkLoc 0 zs fs) (mkLoc (length (view w p) - 1) zb fb).
Proof. exact discretize_tf. Qed.
Print Assumptions C23_discretised.
Example C23_discretised_ex : List.Forall site_ok (removelast ex_site) /\
  List.Forall (fun l => shear_vel l = l_vs l) (removelast ex_site).
Proof.
  assert (E : shear_vel (layer_make ex_s1 10 200 0.05) = 200) by (apply sub_vel; cbn; lra).
  split; (constructor; [|constructor]).
  - unfold site_ok. rewrite E. cbn. lra.
  - exact E.
Qed.

(** C24: wave amplitudes and wave numbers agree for non-zero velocities except at
    exactly |w| = 1e-8. *)
Theorem C24_waves : forall w ls,
  Rabs w <> 1e-8 -> List.Forall (fun l => wl_vel l <> RtoC 0) ls ->
  calc_waves_numba w ls = calc_waves_python w ls.
Proof. exact kernels_waves. Qed.
Print Assumptions C24_waves.

(** C24: the motion at a location agrees. *)
Theorem C24_location : forall k a b z f,
  Some (wave_at_nb k a b z f) = wave_at (mkRow (Some k) a b) z f.
Proof. exact kernels_location. Qed.
Print Assumptions C24_location.

(** C24: strain transfer functions agree except at exactly |w| = 1e-8; where the Python
    kernel gives a non-finite value the Numba kernel raises. *)
Theorem C24_strain : forall ko ao bo zo w ki ai bi zi f g,
  Rabs w <> 1e-8 ->
  strain_tf_numba ko ao bo zo w ki ai bi zi f g =
  match strain_tf_python (mkRow (Some ko) ao bo) zo w (mkRow (Some ki) ai bi) zi f g with
  | Some v => Ok v
  | None => Err ZeroDivisionError
  end.
Proof. exact kernels_strain. Qed.
Print Assumptions C24_strain.

(** C24: at |w| = 1e-8 the kernels give different amplitudes (one uses <=, the other <).
    *)
Theorem C24_refuted_threshold : exists w ls rs rs',
  List.Forall carries ls /\
  calc_waves_python w ls = Ok rs /\ calc_waves_numba w ls = Ok rs' /\ rs <> rs'.
Proof. exact kernels_differ. Qed.
Print Assumptions C24_refuted_threshold.

(** C24: with a zero velocity the Numba kernel raises and the Python kernel returns. *)
Theorem C24_refuted_zero_velocity : forall w l l' ls,
  wl_vel l = RtoC 0 ->
  calc_waves_numba w (l :: l' :: ls) = Err ZeroDivisionError /\
  exists rs, calc_waves_python w (l :: l' :: ls) = Ok rs.
Proof. exact kernels_zero_velocity. Qed.
Print Assumptions C24_refuted_zero_velocity.

(** C24: without Numba the module cannot be imported, so the Python kernels are not
    reachable as a fallback. *)
Theorem C24_no_numba : import_propagation false = Err NameError.
Proof. exact no_numba_no_module. Qed.
Print Assumptions C24_no_numba.

(** C25: for a physical profile (any damping) at any frequency above the threshold all
    up-going amplitudes are non-zero and every transfer function with an outcrop or
    incoming input is defined. *)
Theorem C25_nonzero : forall w ls rs,
  1e-8 < w -> List.Forall sound ls ->
  calc_waves_python w (map wlayer_of ls) = Ok rs ->
  List.Forall (fun r => r_a r <> RtoC 0 /\ r_k r <> None) rs /\
  forall lin lout, (loc_index lin < length ls)%nat -> (loc_index lout < length ls)%nat ->
    loc_field lin <> Within -> exists tf, calc_accel_tf rs lin lout = Ok (Some tf).
Proof. exact upgoing_nonzero. Qed.
Print Assumptions C25_nonzero.
Example C25_ex : List.Forall sound ex_site /\ 1e-8 < 6.
Proof. split; [exact ex_sound|lra]. Qed.

(** C25: with positive damping in all layers the within motion is non-zero at every
    depth, so within inputs are safe too. *)
Theorem C25_damped_within : forall w ls rs,
  1e-8 < w -> List.Forall sound ls ->
  List.Forall (fun l => 0 < damping l) ls ->
  calc_waves_python w (map wlayer_of ls) = Ok rs ->
  forall i l z, nth_error ls i = Some l -> 0 <= z ->
  exists v, wave_at_location rs (mkLoc i z Within) = Ok (Some v) /\ v <> RtoC 0.
Proof. exact damped_motion_nonzero. Qed.
Print Assumptions C25_damped_within.
Example C25_damped_ex : List.Forall (fun l => 0 < damping l) ex_site.
Proof. exact ex_damped. Qed.

(** C30: the strain transfer function is the depth derivative of g / (-w^2) times the
    acceleration transfer function. *)
Theorem C30_derivative : forall w ls rs lin xin i l,
  1e-8 < Rabs w ->
  calc_waves_python w ls = Ok rs -> nth_error ls i = Some l -> wl_vel l <> RtoC 0 ->
  wave_at_location rs lin = Ok (Some xin) -> xin <> RtoC 0 ->
  exists acc, (forall z, calc_accel_tf rs lin (mkLoc i z Within) = Ok (Some (acc z))) /\
  forall z, exists st, calc_strain_tf rs w lin (mkLoc i z Within) = Ok (Some st) /\
    cderive (fun x => Cmult (RtoC (GRAVITY / (- (w * w)))) (acc x)) z st.
Proof. exact strain_derivative. Qed.
Print Assumptions C30_derivative.

(** C30: zero at zero frequency (and below the threshold). *)
Theorem C30_zero : forall w rs lin lout ro ri,
  Rabs w <= 1e-8 ->
  loc_field lout = Within ->
  nth_error rs (loc_index lout) = Some ro -> nth_error rs (loc_index lin) = Some ri ->
  calc_strain_tf rs w lin lout = Ok (Some (RtoC 0)).
Proof. exact strain_zero_freq. Qed.
Print Assumptions C30_zero.

(** C30: an output location that is not a within location fails an assertion. *)
Theorem C30_within_only : forall rs w lin lout,
  loc_field lout <> Within ->
  calc_strain_tf rs w lin lout = Err AssertionError.
Proof. exact strain_within_only. Qed.
Print Assumptions C30_within_only.

(** C30: the stress transfer function is modulus times strain. *)
Theorem C30_stress : forall rs w lin lout m st,
  calc_strain_tf rs w lin lout = Ok (Some st) ->
  calc_stress_tf rs w lin lout m = Ok (Some (Cmult m st)).
Proof. exact stress_is_modulus_strain. Qed.
Print Assumptions C30_stress.

(** C30: stress is zero at the free surface. *)
Theorem C30_surface : forall w l ls rs lin xin m,
  wl_vel l <> RtoC 0 ->
  calc_waves_python w (l :: ls) = Ok rs ->
  wave_at_location rs lin = Ok (Some xin) -> xin <> RtoC 0 ->
  calc_stress_tf rs w lin (mkLoc 0 0 Within) m = Ok (Some (RtoC 0)).
Proof. exact stress_surface. Qed.
Print Assumptions C30_surface.
