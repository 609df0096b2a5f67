(** Specification of one-dimensional shear-wave propagation, in terms of the
    motion reported by the calculators. *)
From Verif Require Import Common Model.Curve Model.Layer Model.Cplx Model.Waves.
From Coquelicot Require Import Coquelicot.
Local Open Scope R_scope.

(** Derivative with respect to depth of a complex-valued function. *)
Definition cderive (u : R -> C) (z : R) (du : C) : Prop :=
  is_derive (fun x => Re (u x)) z (Re du) /\ is_derive (fun x => Im (u x)) z (Im du).

(** [u] is the motion the calculator reports inside layer [i], as a function of
    the depth below the top of that layer. *)
Definition field_in (rs : list wrow) (i : nat) (u : R -> C) : Prop :=
  forall z, wave_at_location rs (mkLoc i z Within) = Ok (Some (u z)).

(** A material that can carry waves. *)
Definition carries (l : wlayer) : Prop := wl_vel l <> RtoC 0 /\ wl_mod l <> RtoC 0.

(** The wave equation [c^2 u'' = - w^2 u] inside a layer of velocity [c]. *)
Definition wave_equation (c : C) (w : R) (u : R -> C) : Prop :=
  exists du ddu : R -> C, forall z,
    cderive u z (du z) /\ cderive du z (ddu z) /\
    Cmult (Cmult c c) (ddu z) = Cmult (RtoC (- (w * w))) (u z).

(** Displacement and shear stress agree at the contact of a layer [l] (field [u],
    thickness [wl_thick l]) with the layer [l'] (field [u']) below it. *)
Definition welded (l l' : wlayer) (u u' : R -> C) : Prop :=
  u (wl_thick l) = u' 0 /\
  exists du du', cderive u (wl_thick l) du /\ cderive u' 0 du' /\
    Cmult (wl_mod l) du = Cmult (wl_mod l') du'.

(** No shear stress at the top of the layer. *)
Definition stress_free_top (u : R -> C) : Prop := cderive u 0 (RtoC 0).

(** The same material with another thickness. *)
Definition same_material (l l' : wlayer) : Prop :=
  wl_vel l = wl_vel l' /\ wl_mod l = wl_mod l'.

(** Two rows report the same motion, for each wave field, the second one being
    looked at [shift] deeper. *)
Definition same_motion (r r' : wrow) (shift : R) : Prop :=
  forall z f, wave_at r z f = wave_at r' (shift + z) f.

(** Square magnitude. *)
Definition Cnorm2 (z : C) : R := Re z ^ 2 + Im z ^ 2.

(** [ls'] is obtained from [ls] by splitting layers (not the bottom one) into
    parts of the same material and the same total thickness, any number of times. *)
Inductive finer : list wlayer -> list wlayer -> Prop :=
| finer_refl ls : finer ls ls
| finer_split pre v m hs post ls' :
    hs <> [] -> post <> [] -> v <> RtoC 0 -> m <> RtoC 0 ->
    finer (pre ++ map (mkWL v m) hs ++ post) ls' ->
    finer (pre ++ mkWL v m (Rsum hs) :: post) ls'.

(** A physically meaningful layer: positive stiffness and weight. *)
Definition sound (l : layer) : Prop :=
  0 < shear_mod l /\ 0 < s_unit_wt (l_soil l) /\ 0 <= l_thick l.

(** [d] is the damping [D] limited to the range [0, 0.49]. *)
Definition limited_damping (D d : R) : Prop :=
  0 <= d <= 0.49 /\ (0 <= D <= 0.49 -> d = D) /\ (D < 0 -> d = 0) /\ (0.49 < D -> d = 0.49).

(** All layers have the same damping ratio [d], after limiting. *)
Definition same_damping (d : R) (ls : list layer) : Prop :=
  List.Forall (fun l => limited_damping (damping l) d) ls.

(** Impedance: density times velocity, written with the shear modulus. *)
Definition impedance (l : layer) : R := sqrt (shear_mod l * density (l_soil l)).

(** Products of the impedance contrasts met on the way up that amplify (or that
    deamplify) a wave. *)
Fixpoint highest_gain (ls : list layer) : R :=
  match ls with
  | a :: ((b :: _) as rest) => Rmax 1 (impedance b / impedance a) * highest_gain rest
  | _ => 1
  end.
Fixpoint lowest_gain (ls : list layer) : R :=
  match ls with
  | a :: ((b :: _) as rest) => Rmin 1 (impedance b / impedance a) * lowest_gain rest
  | _ => 1
  end.

(** Every layer has at least the impedance of the layer above it. *)
Fixpoint stiffening (ls : list layer) : Prop :=
  match ls with
  | a :: ((b :: _) as rest) => impedance a <= impedance b /\ stiffening rest
  | _ => True
  end.

(** Cosine and sine of a complex number. *)
Definition Ccos (z : C) : C := Cdiv (Cplus (Cexp (Cmult Ci z)) (Cexp (Copp (Cmult Ci z)))) (RtoC 2).
Definition Csin (z : C) : C := Cdiv (Cminus (Cexp (Cmult Ci z)) (Cexp (Copp (Cmult Ci z)))) (Cmult (RtoC 2) Ci).

(** Impedance of a layer seen by the kernels: modulus over velocity. *)
Definition cimpedance (l : wlayer) : C := Cdiv (wl_mod l) (wl_vel l).

(** Fields, one per layer, that describe a harmonic motion of the layers at the
    angular frequency [w]: the wave equation in each layer, welded contacts and a
    stress-free surface. *)
Definition site_motion (w : R) (ls : list wlayer) (us : nat -> R -> C) : Prop :=
  (forall i l, nth_error ls i = Some l -> wave_equation (wl_vel l) w (us i)) /\
  (forall i l l', nth_error ls i = Some l -> nth_error ls (S i) = Some l' ->
     welded l l' (us i) (us (S i))) /\
  stress_free_top (us 0%nat).

(** [l'] is [l] with velocities multiplied by [a], lengths by [b] and densities by
    [d], and the same damping. *)
Definition similar (a b d : R) (l l' : layer) : Prop :=
  shear_mod l' = d * a ^ 2 * shear_mod l /\ s_unit_wt (l_soil l') = d * s_unit_wt (l_soil l) /\
  l_thick l' = b * l_thick l /\ damping l' = damping l.

(** The same location in lengths multiplied by [b]. *)
Definition moved (b : R) (loc : wloc) : wloc := mkLoc (loc_index loc) (b * loc_within loc) (loc_field loc).
