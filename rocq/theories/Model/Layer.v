(** Model of [SoilType] (site.py:279-367), [IterativeValue] (1683-1715) and
    [Layer] (1718-2000) for scalar properties. *)
From Coq Require Import String.
From Verif Require Import Common Model.Curve.
Local Open Scope R_scope.

(** scipy.constants.g, imported at motion.py:31 and site.py:39. *)
Definition GRAVITY : R := 9.80665.

(** site.py:296-306: [damping] is a float or a curve. *)
Inductive damping_spec :=
| DConst (d : R)
| DCurve (c : curve).

(** site.py:279-306.  [s_class] is the Python type; subclass-specific attributes
    are left out (every subclass instance owns its own curve objects, so two
    different instances already differ in [mod_reduc]). *)
Record soil := mkSoil {
  s_class : nat;
  s_name : string;
  s_unit_wt : R;
  s_mod : option curve;
  s_damp : damping_spec
}.

(** site.py:332-335 *)
Definition density (s : soil) : R := s_unit_wt s / GRAVITY.

(** site.py:337-345: first listed value of the curve, or the constant. *)
Definition soil_damping_min (s : soil) : res R :=
  match s_damp s with
  | DConst d => Ok d
  | DCurve c => match c_values c with v :: _ => Ok v | [] => Err IndexError end
  end.

(** site.py:356-361 *)
Definition is_nonlinear (s : soil) : bool :=
  match s_mod s, s_damp s with
  | None, DConst _ => false
  | _, _ => true
  end.

(** site.py:363-364: same type and same attributes; curves by identity. *)
Definition mod_eqb (a b : option curve) : bool :=
  match a, b with
  | None, None => true
  | Some x, Some y => Nat.eqb (c_id x) (c_id y)
  | _, _ => false
  end.
Definition damp_eqb (a b : damping_spec) : bool :=
  match a, b with
  | DConst x, DConst y => Reqb x y
  | DCurve x, DCurve y => Nat.eqb (c_id x) (c_id y)
  | _, _ => false
  end.
Definition soil_eqb (a b : soil) : bool :=
  Nat.eqb (s_class a) (s_class b) && String.eqb (s_name a) (s_name b)
  && Reqb (s_unit_wt a) (s_unit_wt b)
  && mod_eqb (s_mod a) (s_mod b) && damp_eqb (s_damp a) (s_damp b).

(** site.py:1683-1695, [IterativeValue]: current and previous value. *)
Record iterv := mkIter { it_value : R; it_prev : R }.
Definition iter_new (v : R) : iterv := mkIter v 1e-9.
Definition iter_set (i : iterv) (v : R) : iterv := mkIter v (it_value i).

(** Error in percent, [np.inf] included. *)
Inductive perr := EFin (e : R) | EInf.

(** site.py:1701-1712, scalar case. *)
Definition relative_error (i : iterv) : perr :=
  if Rltb 0 (it_value i)
  then EFin (100 * ((it_prev i - it_value i) / it_value i))
  else if isclose (it_value i) (it_prev i) then EFin 0 else EInf.

Definition perr_max (a b : perr) : perr :=
  match a, b with
  | EFin x, EFin y => EFin (Rmax x y)
  | _, _ => EInf
  end.

(** site.py:1930-1935: for a linear soil the strain is stored as a bare number. *)
Inductive strainv := SIter (i : iterv) | SRaw (s : R).

(** site.py:1721-1746.  [l_prof] is [_profile], the address of the owner. *)
Record layer := mkLayer {
  l_soil : soil;
  l_thick : R;
  l_depth : R;
  l_svert : R;
  l_vs : R;
  l_dmin : R;
  l_G : iterv;
  l_D : iterv;
  l_strain : strainv;
  l_smax : option R;
  l_prof : option nat
}.

(** site.py:1817-1820 *)
Definition initial_shear_mod (l : layer) : R := density (l_soil l) * l_vs l ^ 2.

(** site.py:1871-1877 *)
Definition layer_reset (l : layer) : layer :=
  mkLayer (l_soil l) (l_thick l) (l_depth l) (l_svert l) (l_vs l) (l_dmin l)
    (iter_new (initial_shear_mod l)) (iter_new (l_dmin l)) (SIter (iter_new 1e-6))
    None (l_prof l).

(** site.py:1721-1746, [Layer(soil_type, thickness, shear_vel, damping_min)]. *)
Definition layer_new (s : soil) (thick vs : R) (dmin : option R) : res layer :=
  bind (match dmin with Some d => Ok d | None => soil_damping_min s end)
    (fun d => Ok (layer_reset
       (mkLayer s thick 0 0 vs d (iter_new 0) (iter_new 0) (SRaw 0) None None))).

(** The same with an explicit minimum damping, which cannot fail. *)
Definition layer_make (s : soil) (thick vs dmin : R) : layer :=
  layer_reset
    (mkLayer s thick 0 0 vs dmin (iter_new 0) (iter_new 0) (SRaw 0) None None).

(** site.py:1764-1768: soil type, thickness and initial velocity. *)
Definition layer_eqb (a b : layer) : bool :=
  soil_eqb (l_soil a) (l_soil b) && Reqb (l_thick a) (l_thick b)
  && Reqb (l_vs a) (l_vs b).

(** site.py:1808-1815, 1879-1886, 1892-1895 *)
Definition shear_mod (l : layer) : R := it_value (l_G l).
Definition damping (l : layer) : R := it_value (l_D l).
Definition shear_vel (l : layer) : R := sqrt (shear_mod l / density (l_soil l)).
Definition strain (l : layer) : R :=
  match l_strain l with SIter i => it_value i | SRaw s => s end.

(** site.py:1773-1775: the copy takes the strain-compatible velocity. *)
Definition layer_copy (l : layer) : layer :=
  layer_make (l_soil l) (l_thick l) (shear_vel l) (l_dmin l).

(** site.py:1782-1790 *)
Definition depth_mid (l : layer) : R := l_depth l + l_thick l / 2.
Definition depth_base (l : layer) : R := l_depth l + l_thick l.

(** site.py:1867-1869 *)
Definition max_error (l : layer) : perr :=
  perr_max (relative_error (l_G l)) (relative_error (l_D l)).

(** site.py:1888-1890, 1897-1905 *)
Definition shear_mod_reduc (l : layer) : R := shear_mod l / initial_shear_mod l.
Definition stress_shear_eff (l : layer) : R := shear_mod l * strain l.
Definition stress_shear_max (l : layer) : option R :=
  match l_smax l with Some m => Some (shear_mod l * m) | None => None end.

(** site.py:1916-1928: a [TypeError] (constant damping, or a curve that cannot
    be evaluated) gives zero.  An [IndexError] of [damping_min] is unreachable
    here: the curve call on an empty curve raises [TypeError] first. *)
Definition compute_damping (l : layer) (s : R) : R :=
  match s_damp (l_soil l) with
  | DConst _ => 0 + l_dmin l
  | DCurve c =>
      match curve_call c s, soil_damping_min (l_soil l) with
      | Ok d, Ok dm => (d - dm) + l_dmin l
      | _, _ => 0 + l_dmin l
      end
  end.

(** site.py:1937-1943 *)
Definition compute_mod (l : layer) (s : R) : R :=
  initial_shear_mod l *
  match s_mod (l_soil l) with
  | None => 1
  | Some c => match curve_call c s with Ok r => r | Err _ => 1 end
  end.

(** site.py:1930-1946, the [strain] setter. *)
Definition set_strain (l : layer) (s : R) : layer :=
  mkLayer (l_soil l) (l_thick l) (l_depth l) (l_svert l) (l_vs l) (l_dmin l)
    (iter_set (l_G l) (compute_mod l s))
    (iter_set (l_D l) (compute_damping l s))
    (if is_nonlinear (l_soil l)
     then match l_strain l with
          | SIter i => SIter (iter_set i s)
          | SRaw r => SRaw r  (* unreachable: see [Proof/LayerFacts.v] *)
          end
     else SRaw s)
    (l_smax l) (l_prof l).

(** site.py:1827-1833 and 1802-1806: setters that reset the layer. *)
Definition set_initial_vs (l : layer) (v : R) : layer :=
  layer_reset (mkLayer (l_soil l) (l_thick l) (l_depth l) (l_svert l) v (l_dmin l)
    (l_G l) (l_D l) (l_strain l) (l_smax l) (l_prof l)).
Definition set_damping_min (l : layer) (d : R) : layer :=
  layer_reset (mkLayer (l_soil l) (l_thick l) (l_depth l) (l_svert l) (l_vs l) d
    (l_G l) (l_D l) (l_strain l) (l_smax l) (l_prof l)).

(** [layer.strain_max = m], assigned by the calculators. *)
Definition set_strain_max (l : layer) (m : R) : layer :=
  mkLayer (l_soil l) (l_thick l) (l_depth l) (l_svert l) (l_vs l) (l_dmin l)
    (l_G l) (l_D l) (l_strain l) (Some m) (l_prof l).

(** Assignment of [_thickness] alone (first line of the setter, site.py:1972). *)
Definition set_thick_raw (l : layer) (t : R) : layer :=
  mkLayer (l_soil l) t (l_depth l) (l_svert l) (l_vs l) (l_dmin l)
    (l_G l) (l_D l) (l_strain l) (l_smax l) (l_prof l).

(** Assignment of [_profile], [_depth], [_stress_vert] (site.py:2135-2137). *)
Definition set_pos (l : layer) (p : nat) (d s : R) : layer :=
  mkLayer (l_soil l) (l_thick l) d s (l_vs l) (l_dmin l)
    (l_G l) (l_D l) (l_strain l) (l_smax l) (Some p).

(** site.py:1948-1960: (strain, damping) pairs; [None] stands for the NaN
    strain of a constant damping. *)
Definition adjusted_damping_curve (l : layer) : list (option R * R) :=
  match s_damp (l_soil l) with
  | DConst _ => [(None, l_dmin l)]
  | DCurve c => map (fun s => (Some s, compute_damping l s)) (c_strains c)
  end.

(** site.py:1975-1978, 1998-2000 *)
Definition travel_time (l : layer) : R := l_thick l / shear_vel l.
Definition incr_site_atten (l : layer) : R := (2 * l_dmin l * l_thick l) / l_vs l.

(** site.py:1984-1991, total stress: the assertion and the value. *)
Definition stress_vert_total (l : layer) (within : R) : res R :=
  if Rleb within (l_thick l)
  then Ok (l_svert l + within * s_unit_wt (l_soil l))
  else Err AssertionError.

(** Operations on a single layer, for statements about histories. *)
Inductive layer_op :=
| LSetStrain (s : R)
| LReset
| LSetVs (v : R)
| LSetDmin (d : R)
| LSetStrainMax (m : R).

Definition layer_step (l : layer) (o : layer_op) : layer :=
  match o with
  | LSetStrain s => set_strain l s
  | LReset => layer_reset l
  | LSetVs v => set_initial_vs l v
  | LSetDmin d => set_damping_min l d
  | LSetStrainMax m => set_strain_max l m
  end.
Definition layer_run (l : layer) (os : list layer_op) : layer :=
  fold_left layer_step os l.
