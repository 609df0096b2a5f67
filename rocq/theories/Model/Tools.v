(** Model of the numerical helpers of src/pystrata/tools.py: scattering attenuation,
    adjustment of the damping, mean effective stress and nrattle profiles. *)
From Coq Require Import String.
From Verif Require Import Common Model.Curve Model.Layer Model.Profile Model.Cplx Model.Waves.
From Coquelicot Require Import Complex.
Local Open Scope R_scope.

(** ** [calc_atten_scatter] (tools.py:307-363) *)

(** tools.py:329-340: the layers with a fixed damping; [mod_reduc=0] is not a curve. *)
Definition fixed_layer (l : layer) : layer :=
  layer_make (mkSoil 0 (s_name (l_soil l)) (s_unit_wt (l_soil l)) None (DConst 0.01))
    (l_thick l) (shear_vel l) (l_dmin l).

(** tools.py:345: [np.linspace(50, 200, num=256)] *)
Definition scatter_freqs : list R := map (fun i => 50 + 150 / 255 * INR i) (seq 0 256).

(** tools.py:346-354: [np.log(np.abs(tf))] at one frequency, from the outcropping bottom
    to the outcropping surface. *)
Definition log_amp (ls : list layer) (f : R) : res (option R) :=
  bind (linear_elastic true (2 * PI * f) ls) (fun rs =>
  bind (calc_accel_tf rs (mkLoc (length ls - 1) 0 Outcrop) (mkLoc 0 0 Outcrop)) (fun tf =>
  Ok (opt_bind tf (fun t => ln_opt (Cmod t))))).

Definition mean (xs : list R) : R := Rsum xs / INR (length xs).
(** tools.py:355: the slope of [np.polyfit(x, y, 1)], least squares; not defined unless
    two abscissas differ. *)
Definition fit_slope (pts : list (R * R)) : option R :=
  let mx := mean (map fst pts) in
  let my := mean (map snd pts) in
  div_opt (Rsum (map (fun q => (fst q - mx) * (snd q - my)) pts))
          (Rsum (map (fun q => (fst q - mx) ^ 2) pts)).

Fixpoint map_res {A B} (f : A -> res B) (xs : list A) : res (list B) :=
  match xs with
  | nil => Ok nil
  | cons x rest => bind (f x) (fun y => bind (map_res f rest) (fun ys => Ok (cons y ys)))
  end.

(** tools.py:307-363 *)
Definition calc_atten_scatter (ls : list layer) (freqs : option (list R)) : res (option R) :=
  let p := map fixed_layer ls in
  let fs := match freqs with Some fs => fs | None => scatter_freqs end in
  bind (map_res (log_amp p) fs) (fun amps =>
  Ok (opt_bind (map_opt (fun a => a) amps) (fun ys =>
      opt_bind (fit_slope (combine fs ys)) (fun slope =>
      Some (Rmax (- slope / PI - site_attenuation p) 0))))).

(** ** [adjust_damping_values] (tools.py:366-468) *)

(** tools.py:369; a string is used through [re.match], here a predicate on names. *)
Inductive exclusion :=
| ExNone
| ExMatch (matches : string -> bool)
| ExList (parts : list string)
| ExCall (f : layer -> bool).

(** [e in name] *)
Definition str_in (e name : string) : bool :=
  match String.index 0 e name with Some _ => true | None => false end.

(** tools.py:423-433 *)
Definition is_excluded (e : exclusion) (l : layer) : bool :=
  match e with
  | ExNone => false
  | ExMatch m => m (s_name (l_soil l))
  | ExList parts => existsb (fun x => str_in x (s_name (l_soil l))) parts
  | ExCall f => f l
  end.

(** tools.py:452-453: [np.r_[np.diff(depth), 0]] *)
Fixpoint diff_zero (ds : list R) : list R :=
  match ds with
  | nil => nil
  | cons d rest => match rest with
                   | nil => cons 0 nil
                   | cons d' _ => cons (d' - d) (diff_zero rest)
                   end
  end.

(** tools.py:455-456 *)
Definition new_dampings (sel : list layer) (remainder : R) : option (list R) :=
  opt_bind (map_opt (fun tv => div_opt (fst tv) (snd tv ^ 2)) (combine (diff_zero (map l_depth sel)) (map l_vs sel)))
    (fun terms =>
  opt_bind (div_opt (Rsum terms) remainder) (fun gamma =>
  map_opt (fun l => div_opt 1 (2 * gamma * l_vs l)) sel)).

(** tools.py:460-461 *)
Definition set_dampings (h : heap) (ads : list (nat * R)) : heap :=
  fold_left (fun h ad => hset h (fst ad) (set_damping_min (h (fst ad)) (snd ad))) ads h.
(** site.py:2120-2123 *)
Definition reset_layers (h : heap) (addrs : list nat) : heap :=
  fold_left (fun h a => hset h a (layer_reset (h a))) addrs h.

(** tools.py:366-468, with the computation of the scattering attenuation as an argument.
    The inner [None] stands for damping values that are not finite. *)
Definition adjust_damping (scatter : list layer -> res (option R)) (w : world) (p : nat) (target : R) (e : exclusion)
    (inplace : bool) : world * res (option (nat * R)) :=
  let (w1, q) := if inplace then (w, p) else profile_copy w p in
  match scatter (view w1 q) with
  | Err x => (w1, Err x)
  | Ok None => (w1, Ok None)
  | Ok (Some sc) =>
      let addrs := layers_of w1 q in
      let sel := filter (fun a => negb (is_excluded e (w_heap w1 a))) addrs in
      let exc := filter (fun a => is_excluded e (w_heap w1 a)) addrs in
      let atten_exc := Rsum (map (fun a => incr_site_atten (w_heap w1 a)) exc) in
      match sel with
      | nil => (w1, Err RuntimeError)
      | cons _ _ =>
          let remainder := target - (sc + atten_exc) in
          if Rleb remainder 0 then (w1, Err RuntimeError)
          else match new_dampings (map (w_heap w1) sel) remainder with
               | None => (w1, Ok None)
               | Some ds =>
                   (set_heap w1 (reset_layers (set_dampings (w_heap w1) (combine sel ds)) addrs), Ok (Some (q, sc)))
               end
      end
  end.
Definition adjust_damping_values (w : world) (p : nat) (target : R) (e : exclusion) (inplace : bool) :=
  adjust_damping (fun ls => calc_atten_scatter ls None) w p target e inplace.

(** ** [calc_mean_eff_stress] (tools.py:471-535) *)

(** tools.py:518: [np.diff(depths, append=depths[-1])] *)
Definition mean_thicknesses (depths : list R) : list R := diff_zero depths.
(** tools.py:502-535 for arrays of equal length; other lengths fail to broadcast, except
    for single values, which are not modelled.  The warning is not modelled. *)
Definition calc_mean_eff_stress (depths unit_wt : list R) (wt k0 : R) : res (list R) :=
  match depths with
  | nil => Err IndexError
  | cons _ _ =>
      if Nat.eqb (length depths) (length unit_wt) then
        let th := mean_thicknesses depths in
        let mids := map (fun dt => fst dt + snd dt / 2) (combine depths th) in
        let incr := map (fun ut => fst ut * snd ut) (combine unit_wt th) in
        let total := map (fun ci => fst ci - snd ci / 2) (combine (cumsum incr) incr) in
        let pore := map (fun d => Rmax 0 (9.81 * (d - wt))) mids in
        Ok (map (fun tp => (fst tp - snd tp) * (1 + 2 * k0) / 3) (combine total pore))
      else Err ValueError
  end.

(** ** [profile_from_nrattle_ctl] (tools.py:284-304) *)

(** One record of the control file: layer number, thickness, velocity [km, km/s], density
    and the last column, which is [Q] or [1 / Q] (tools.py:270-277). *)
Record nr_layer := mkNr { nr_num : Z; nr_thick : R; nr_vs : R; nr_density : R; nr_iq : R }.

(** tools.py:287-290: [df.loc[len(df) + 1] = row] replaces the rows with that number, or
    appends one. *)
Definition nr_set (rs : list nr_layer) (r : nr_layer) : list nr_layer :=
  if existsb (fun x => (nr_num x =? nr_num r)%Z) rs
  then map (fun x => if (nr_num x =? nr_num r)%Z then r else x) rs
  else (rs ++ cons r nil)%list.

(** tools.py:297-299 *)
Definition nr_damping (iq : R) : R :=
  if isclose iq 0 then 0 else 0.5 * 1 / (if Rltb 1 iq then iq else 1 / iq).

(** tools.py:287-304 and site.py:2057-2074, up to the construction of the layers: the
    names of the soil types are not modelled.  [C.g] is [GRAVITY]. *)
Definition nr_soil (density damping : R) : soil := mkSoil 0 "" (GRAVITY * density) None (DConst damping).
Definition nr_make (r : nr_layer) : layer :=
  let d := nr_damping (nr_iq r) in
  layer_make (nr_soil (nr_density r) d) (nr_thick r * 1000) (nr_vs r * 1000) d.
Definition nr_rows (rs : list nr_layer) (hs_vs hs_density : R) : list nr_layer :=
  nr_set rs (mkNr (Z.of_nat (length rs) + 1) 0 hs_vs hs_density 0).
Definition profile_from_nrattle (w : world) (rs : list nr_layer) (hs_vs hs_density : R) : world * nat :=
  let (w1, addrs) := alloc_layers w (map nr_make (nr_rows rs hs_vs hs_density)) in
  new_profile w1 addrs 0.

(** ** Data frames (site.py:2051-2091) *)

(** A cell: a text, a number, or a curve. *)
Inductive cell := CText (t : string) | CNum (x : R) | CCurve (c : curve).
(** A row of a data frame: its columns by name. *)
Definition row := list (string * cell).
Fixpoint row_get (r : row) (k : string) : option cell :=
  match r with
  | nil => None
  | cons (k', c) rest => if String.eqb k k' then Some c else row_get rest k
  end.
Definition damping_cell (d : damping_spec) : cell := match d with DConst x => CNum x | DCurve c => CCurve c end.

(** site.py:2079-2082 and 2084-2087 *)
Definition layer_row (l : layer) : row :=
  cons ("soil_type"%string, CText (s_name (l_soil l)))
  (cons ("unit_wt"%string, CNum (s_unit_wt (l_soil l)))
  (cons ("damping"%string, damping_cell (s_damp (l_soil l)))
  (cons ("thickness"%string, CNum (l_thick l))
  (cons ("shear_vel"%string, CNum (shear_vel l)) nil)))).
(** site.py:2089: [np.r_[0, df["thickness"].cumsum().iloc[:-1]]] *)
Definition depth_column (thick : list R) : list R := cons 0 (removelast (cumsum thick)).
(** site.py:2076-2091, for a profile with layers. *)
Definition to_dataframe (ls : list layer) : list row :=
  map (fun rd => (fst rd ++ cons ("depth"%string, CNum (snd rd)) nil)%list)
    (combine (map layer_row ls) (depth_column (map l_thick ls))).

(** site.py:2062-2071, one row; [row[key]] raises [KeyError].  A cell of another kind
    than expected is not modelled: it is reported as [TypeError]. *)
Definition need_num (r : row) (k : string) : res R :=
  match row_get r k with Some (CNum x) => Ok x | Some _ => Err TypeError | None => Err KeyError end.
Definition need_damping (r : row) : res damping_spec :=
  match row_get r "damping" with
  | Some (CNum x) => Ok (DConst x) | Some (CCurve c) => Ok (DCurve c) | Some (CText _) => Err TypeError | None => Err KeyError
  end.
Definition row_layer (r : row) : res layer :=
  let name := match row_get r "name" with Some (CText t) => t | _ => EmptyString end in
  bind (need_num r "unit_wt") (fun uw =>
  bind (need_damping r) (fun d =>
  bind (need_num r "thickness") (fun th =>
  bind (need_num r "vel_shear") (fun vs =>
  layer_new (mkSoil 0 name uw None d) th vs None)))).
(** site.py:2051-2074: the layers of the new profile. *)
Definition from_dataframe (rows : list row) : res (list layer) := map_res row_layer rows.
