(** Model of the empirical soil types: [ModifiedHyperbolicSoilType], Darendeli, Menq,
    Rollins, the two-parameter model and Alemu (src/pystrata/site.py:370-676 and
    1304-1502).  Scalar parameters; a result that is not a finite number is [None]
    (numpy gives nan or inf, a Python float may raise or become complex).  Names are
    arguments: the formatted default names are not modelled. *)
From Coq Require Import String.
From Verif Require Import Common Model.Curve Model.Layer.
Local Open Scope R_scope.

(** site.py:43: [scipy.constants.kilo / scipy.constants.atm] *)
Definition KPA_TO_ATM : R := 1000 / 101325.

(** site.py:390: [np.logspace(-6, -1.5, num=20)] *)
Definition default_strains : list R :=
  map (fun i => Rpower 10 (-6 + 4.5 / 19 * INR i)) (seq 0 20).

Definition soil_curves (id : nat) (cls : nat) (name : string) (unit_wt : R) (ss ms ds : list R) : soil :=
  mkSoil cls name unit_wt (Some (modulus_curve id ss ms)) (DCurve (damping_curve (S id) ss ds)).

(** site.py:395 *)
Definition mh_mod (strain_ref curvature s : R) : option R :=
  opt_bind (div_opt s strain_ref) (fun q =>
  opt_bind (pow_opt q curvature) (fun p => div_opt 1 (1 + p))).

(** site.py:399-410, in percent *)
Definition masing_a1 (strain_ref s : R) : option R :=
  let sp := s * 100 in
  let rp := strain_ref * 100 in
  opt_bind (div_opt (sp + rp) rp) (fun q =>
  opt_bind (ln_opt q) (fun lg =>
  opt_bind (div_opt (sp ^ 2) (sp + rp)) (fun den =>
  opt_bind (div_opt (4 * (sp - rp * lg)) den) (fun r =>
  Some (100 / PI * (r - 2)))))).

(** site.py:413-420 *)
Definition mh_c1 (c : R) : R := -1.1143 * c ^ 2 + 1.8618 * c + 0.2523.
Definition mh_c2 (c : R) : R := 0.0805 * c ^ 2 - 0.0710 * c - 0.0095.
Definition mh_c3 (c : R) : R := -0.0005 * c ^ 2 + 0.0002 * c + 0.0003.
Definition damping_masing (c a : R) : R := mh_c1 c * a + mh_c2 c * a ^ 2 + mh_c3 c * a ^ 3.

(** site.py:423-426, before [accumulate] *)
Definition mh_correction (scaling strain_ref curvature s : R) : option R :=
  opt_bind (masing_a1 strain_ref s) (fun a =>
  opt_bind (mh_mod strain_ref curvature s) (fun m =>
  opt_bind (pow_opt m 0.1) (fun w =>
  Some (scaling * damping_masing curvature a * w / 100)))).

(** [np.maximum.accumulate] *)
Fixpoint max_from (acc : R) (xs : list R) : list R :=
  match xs with
  | [] => []
  | x :: rest => Rmax acc x :: max_from (Rmax acc x) rest
  end.
Definition max_accumulate (xs : list R) : list R :=
  match xs with [] => [] | x :: rest => x :: max_from x rest end.

(** site.py:371-437; a scalar [damping_min].  The array case (429-431), which makes a
    two-dimensional curve, is not modelled. *)
Definition modified_hyperbolic (scaling strain_ref curvature damping_min : R) (strains : list R)
    : option (list R * list R) :=
  opt_bind (map_opt (mh_mod strain_ref curvature) strains) (fun ms =>
  opt_bind (map_opt (mh_correction scaling strain_ref curvature) strains) (fun ds =>
  Some (ms, map (fun d => d + damping_min) (max_accumulate ds)))).

(** site.py:572-579, 583-596 *)
Record darendeli := mkDarendeli { da_pi : R; da_ocr : R; da_stress : R; da_freq : R; da_cycles : R }.
Definition darendeli_damping_min (d : darendeli) : option R :=
  opt_bind (pow_opt (da_ocr d) (-0.1069)) (fun o =>
  opt_bind (pow_opt (da_stress d * KPA_TO_ATM) (-0.2889)) (fun s =>
  opt_bind (ln_opt (da_freq d)) (fun lf =>
  Some ((0.8005 + 0.0129 * da_pi d * o) * s * (1 + 0.2919 * lf) / 100)))).
Definition darendeli_scaling (d : darendeli) : option R :=
  opt_bind (ln_opt (da_cycles d)) (fun l => Some (0.6329 - 0.00566 * l)).
Definition darendeli_strain_ref (d : darendeli) : option R :=
  opt_bind (pow_opt (da_ocr d) 0.3246) (fun o =>
  opt_bind (pow_opt (da_stress d * KPA_TO_ATM) 0.3483) (fun s =>
  Some ((0.0352 + 0.0010 * da_pi d * o) * s / 100))).
Definition darendeli_curvature : R := 0.9190.

(** The value given, or else the model's own. *)
Definition or_else (x : option R) (y : option R) : option R :=
  match x with Some v => Some v | None => y end.
Definition strains_or_default (ss : option (list R)) : list R :=
  match ss with Some l => l | None => default_strains end.

(** The constructor shared by the three classes (site.py:550-572, 625-645, 1450-1476):
    the properties and then site.py:371-437. *)
Definition mh_soil (id cls : nat) (name : string) (unit_wt : R) (scaling strain_ref curvature damping_min : option R)
    (strains : option (list R)) : option soil :=
  let ss := strains_or_default strains in
  opt_bind damping_min (fun dm =>
  opt_bind strain_ref (fun sr =>
  opt_bind curvature (fun c =>
  opt_bind scaling (fun sc =>
  opt_bind (modified_hyperbolic sc sr c dm ss) (fun md =>
  Some (soil_curves id cls name unit_wt ss (fst md) (snd md))))))).

Definition darendeli_soil (id : nat) (name : string) (unit_wt : R) (d : darendeli) (damping_min : option R)
    (strains : option (list R)) : option soil :=
  mh_soil id 1 name unit_wt (darendeli_scaling d) (darendeli_strain_ref d) (Some darendeli_curvature)
    (or_else damping_min (darendeli_damping_min d)) strains.

(** site.py:647-671 *)
Record menq := mkMenq { mq_cu : R; mq_d50 : R; mq_stress : R; mq_cycles : R }.
Definition menq_damping_min (m : menq) : option R :=
  opt_bind (pow_opt (mq_cu m) 0.1) (fun a =>
  opt_bind (pow_opt (mq_d50 m) (-0.3)) (fun b =>
  opt_bind (pow_opt (mq_stress m * KPA_TO_ATM) (-0.08)) (fun s =>
  Some (0.55 * a * b * s / 100)))).
Definition menq_scaling (m : menq) : option R :=
  opt_bind (ln_opt (mq_cycles m)) (fun l => Some (0.6329 - 0.00566 * l)).
Definition menq_strain_ref (m : menq) : option R :=
  opt_bind (pow_opt (mq_cu m) (-0.6)) (fun a =>
  opt_bind (pow_opt (mq_cu m) (-0.15)) (fun e =>
  opt_bind (pow_opt (mq_stress m * KPA_TO_ATM) (0.5 * e)) (fun s =>
  Some (0.12 * a * s / 100)))).
Definition menq_curvature (m : menq) : option R :=
  opt_bind (ln_opt (mq_stress m * KPA_TO_ATM)) (fun l => Some (0.86 + 0.1 * (l / ln 10))).
Definition menq_soil (id : nat) (name : string) (unit_wt : R) (m : menq) (damping_min : option R)
    (strains : option (list R)) : option soil :=
  mh_soil id 2 name unit_wt (menq_scaling m) (menq_strain_ref m) (menq_curvature m)
    (or_else damping_min (menq_damping_min m)) strains.

(** site.py:1442-1502 *)
Record rollins := mkRollins { ro_stress : R; ro_cu : option R; ro_cycles : R }.
Definition rollins_strain_ref (r : rollins) : option R :=
  match ro_cu r with
  | Some cu =>
      opt_bind (pow_opt cu (-0.197)) (fun a =>
      opt_bind (pow_opt (ro_stress r) 0.52) (fun s => Some (0.0046 * a * s / 100)))
  | None => opt_bind (pow_opt (ro_stress r) 0.42) (fun s => Some (0.0039 * s / 100))
  end.
Definition rollins_scaling (r : rollins) : option R :=
  opt_bind (ln_opt (ro_cycles r)) (fun l => Some (0.53 - 0.0057 * l)).
Definition rollins_soil (id : nat) (name : string) (unit_wt : R) (r : rollins) (damping_min : option R)
    (strains : option (list R)) : option soil :=
  mh_soil id 3 name unit_wt (rollins_scaling r) (rollins_strain_ref r) (Some 0.84)
    (or_else damping_min (Some 0.01)) strains.

(** ** [TwoParamModifiedHyperbolicSoilType] (site.py:455-524) *)

Record two_param := mkTwoParam {
  tp_a : R; tp_b1 : R; tp_b2 : R; tp_g1 : R; tp_g2 : R; tp_d0 : R; tp_d1 : R; tp_d : R; tp_c : R; tp_gd1 : R; tp_gd2 : R
}.
(** site.py:496 *)
Definition two_param_default : two_param :=
  mkTwoParam 1.04 0.438 (-0.007) 0.011 0.318 1.47 (-0.2) 13.125 1.187 0.11 0.23.

(** site.py:511: [1 / (1 + (s / ref) ** a) ** b] *)
Definition tp_mod (ref a b s : R) : option R :=
  opt_bind (div_opt s ref) (fun q =>
  opt_bind (pow_opt q a) (fun p =>
  opt_bind (pow_opt (1 + p) b) (fun r => div_opt 1 r))).
(** site.py:517-519; [d] and [d_min] in percent *)
Definition tp_damping (ref c d d_min s : R) : option R :=
  opt_bind (div_opt s ref) (fun q =>
  opt_bind (pow_opt q c) (fun t =>
  opt_bind (div_opt (d * t + d_min) (t + 1)) (fun v => Some (v / 100)))).

(** site.py:506-515 *)
Definition tp_strain_mr (k : two_param) (atm : R) : option R :=
  opt_bind (pow_opt atm (tp_g2 k)) (fun p => Some (tp_g1 k * p / 100)).
Definition tp_b (k : two_param) (atm : R) : R := tp_b1 k + tp_b2 k * atm.
Definition tp_d_min (k : two_param) (atm : R) : option R :=
  opt_bind (pow_opt atm (tp_d1 k)) (fun p => Some (tp_d0 k * p)).
Definition tp_strain_dr (k : two_param) (atm : R) : option R :=
  opt_bind (pow_opt atm (tp_gd2 k)) (fun p => Some (tp_gd1 k * p / 100)).
Definition two_param_values (k : two_param) (stress_mean : R) (ss : list R) : option (list R * list R) :=
  let atm := stress_mean * KPA_TO_ATM in
  opt_bind (tp_strain_mr k atm) (fun mr =>
  opt_bind (map_opt (tp_mod mr (tp_a k) (tp_b k atm)) ss) (fun ms =>
  opt_bind (tp_d_min k atm) (fun dm =>
  opt_bind (tp_strain_dr k atm) (fun dr =>
  opt_bind (map_opt (tp_damping dr (tp_c k) (tp_d k) dm) ss) (fun ds =>
  Some (ms, ds)))))).
Definition two_param_soil (id : nat) (name : string) (unit_wt stress_mean : R) (strains : option (list R))
    (coeffs : option two_param) : option soil :=
  let k := match coeffs with Some k => k | None => two_param_default end in
  let ss := strains_or_default strains in
  opt_bind (two_param_values k stress_mean ss) (fun md =>
  Some (soil_curves id 4 name unit_wt ss (fst md) (snd md))).

(** ** [AlemuEtAlSoilType] (site.py:1304-1407) *)

Record alemu := mkAlemu { al_pi : R; al_ocr : R; al_stress : R; al_fines : R }.
(** site.py:1381-1384 *)
Definition alemu_gamma_mr (m : alemu) : option R :=
  opt_bind (pow_opt (al_ocr m) (-1.678)) (fun o =>
  opt_bind (pow_opt (al_stress m * KPA_TO_ATM) 0.196) (fun s =>
  opt_bind (pow_opt (al_pi m + 1) 0.675) (fun p =>
  Some ((0.166 * o * s + 0.025 * p) / 100)))).
(** site.py:1389-1391 *)
Definition alemu_d_min (m : alemu) : option R :=
  div_opt (3.64e-4 * al_ocr m * (al_pi m + 1) + 0.012 * al_fines m) (al_stress m * KPA_TO_ATM).
(** site.py:1395-1397 *)
Definition alemu_gamma_d (m : alemu) : option R :=
  opt_bind (pow_opt (al_ocr m) (-0.381)) (fun o =>
  opt_bind (pow_opt (al_stress m * KPA_TO_ATM) 0.853) (fun s =>
  opt_bind (pow_opt (o * s + 0.021 * al_pi m) 1.249) (fun g => Some (g / 100)))).
(** site.py:1398-1400 *)
Definition alemu_damping (d_min gamma_d s : R) : option R :=
  opt_bind (div_opt s gamma_d) (fun q =>
  opt_bind (pow_opt (1 + q) 0.680) (fun r =>
  opt_bind (div_opt (29.805 / 100 * q) r) (fun v => Some (d_min + v)))).
Definition alemu_values (m : alemu) (ss : list R) : option (list R * list R) :=
  opt_bind (alemu_gamma_mr m) (fun gm =>
  opt_bind (map_opt (tp_mod gm 0.905 1.373) ss) (fun ms =>
  opt_bind (alemu_d_min m) (fun dm =>
  opt_bind (alemu_gamma_d m) (fun gd =>
  opt_bind (map_opt (alemu_damping dm gd) ss) (fun ds =>
  Some (ms, ds)))))).
Definition alemu_soil (id : nat) (name : string) (unit_wt : R) (m : alemu) (strains : option (list R)) : option soil :=
  let ss := strains_or_default strains in
  opt_bind (alemu_values m ss) (fun md =>
  Some (soil_curves id 5 name unit_wt ss (fst md) (snd md))).
