(** Model of [FrequencyDependentEqlCalculator] (propagation.py:879-1001): the strain of a
    layer is one number per frequency, and so are its modulus and damping.
    The least-squares solver ([np.linalg.lstsq]) and the Konno-Ohmachi smoother (pykooh)
    are arguments.  When a number that is not finite appears the calculation goes on with
    nan; such runs end here as [NotFinite] or [Ok None] and are not described further. *)
From Coq Require Import String Ascii.
From Verif Require Import Common Model.Curve Model.Layer Model.Cplx Model.Waves Model.Eql.
From Verif Require Import Model.Averages Model.Output Model.Motion Model.Text.
From Coquelicot Require Import Complex.
Local Open Scope R_scope.

(** A number, or an array with one number per frequency. *)
Inductive val := Sc (x : R) | Ar (xs : list R).
Definition at_freq (v : val) (k : nat) : option R :=
  match v with Sc x => Some x | Ar xs => nth_error xs k end.

(** numpy's broadcasting of two operands, entry by entry. *)
Definition zipv (a b : val) : res (list (R * R)) :=
  match a, b with
  | Sc x, Sc y => Ok [(x, y)]
  | Sc x, Ar ys => Ok (map (fun y => (x, y)) ys)
  | Ar xs, Sc y => Ok (map (fun x => (x, y)) xs)
  | Ar xs, Ar ys => if Nat.eqb (length xs) (length ys) then Ok (combine xs ys) else Err ValueError
  end.
Definition entries (v : val) : list R := match v with Sc x => [x] | Ar xs => xs end.

(** [np.max]; an empty array raises [ValueError]. *)
Definition np_max (xs : list R) : res R :=
  match xs with [] => Err ValueError | x :: rest => Ok (fold_left Rmax rest x) end.

(** site.py:1683-1695 *)
Record fiter := mkFI { fi_value : val; fi_prev : val }.
Definition fiter_new (x : R) : fiter := mkFI (Sc x) (Sc 1e-9).
Definition fiter_set (i : fiter) (v : val) : fiter := mkFI v (fi_value i).

(** site.py:1701-1712 *)
Definition frelative_error (i : fiter) : res perr :=
  bind (zipv (fi_prev i) (fi_value i)) (fun pairs =>
  if forallb (fun v => Rltb 0 v) (entries (fi_value i))
  then bind (np_max (map (fun pv => (fst pv - snd pv) / snd pv) pairs)) (fun e => Ok (EFin (100 * e)))
  else if forallb (fun pv => isclose (snd pv) (fst pv)) pairs then Ok (EFin 0)
  else Ok EInf).

(** A layer whose iterated values may be arrays.  Of [f_layer] only the fields that are
    not iterated are used (soil type, thickness, position, initial velocity, minimum
    damping, maximum strain). *)
Record flayer := mkFL { f_layer : layer; f_G : fiter; f_D : fiter; f_strain : val }.

(** A layer as other calculators leave it. *)
Definition of_iter (i : iterv) : fiter := mkFI (Sc (it_value i)) (Sc (it_prev i)).
Definition of_layer (l : layer) : flayer := mkFL l (of_iter (l_G l)) (of_iter (l_D l)) (Sc (strain l)).

(** site.py:1871-1877 *)
Definition freset (l : flayer) : layer := layer_reset (f_layer l).

(** site.py:1867-1869 *)
Definition fmax_error (l : flayer) : res perr :=
  bind (frelative_error (f_G l)) (fun a => bind (frelative_error (f_D l)) (fun b => Ok (perr_max a b))).

(** site.py:146-177 at an array of strains; with an unusable table the call raises. *)
Definition curve_array (c : curve) (ss : list R) : res (list R) :=
  bind (curve_call c 1) (fun _ => mapM (curve_call c) ss).

(** site.py:1916-1928 at an array of strains.  A constant damping, or a damping curve that
    cannot be evaluated, gives a number. *)
Definition fcompute_damping (l : layer) (ss : list R) : val :=
  match s_damp (l_soil l) with
  | DConst _ => Sc (0 + l_dmin l)
  | DCurve c =>
      match curve_array c ss, soil_damping_min (l_soil l) with
      | Ok ds, Ok dm => Ar (map (fun d => (d - dm) + l_dmin l) ds)
      | _, _ => Sc (0 + l_dmin l)
      end
  end.

(** site.py:1937-1943 *)
Definition fcompute_mod (l : layer) (ss : list R) : val :=
  match s_mod (l_soil l) with
  | None => Sc (initial_shear_mod l * 1)
  | Some c => match curve_array c ss with
              | Ok rs => Ar (map (fun r => initial_shear_mod l * r) rs)
              | Err _ => Sc (initial_shear_mod l * 1)
              end
  end.

(** site.py:1930-1946 *)
Definition fset_strain (l : flayer) (ss : list R) : flayer :=
  mkFL (f_layer l)
    (fiter_set (f_G l) (fcompute_mod (f_layer l) ss))
    (fiter_set (f_D l) (fcompute_damping (f_layer l) ss))
    (Ar ss).

(** propagation.py:609-620: the properties of a layer at frequency number [k]. *)
Definition fwlayer (k : nat) (l : flayer) : res wlayer :=
  match at_freq (fi_value (f_G l)) k, at_freq (fi_value (f_D l)) k with
  | Some g, Some d =>
      let cm := comp_shear_mod_of COMP_MODULUS_MODEL g d in
      Ok (mkWL (Csqrt (Cdiv cm (RtoC (density (l_soil (f_layer l)))))) cm (l_thick (f_layer l)))
  | _, _ => Err ValueError
  end.
Definition fcalc_waves (m : motion) (ls : list flayer) : res (list (list wrow)) :=
  mapM (fun kw => bind (mapM (fwlayer (fst kw)) ls) (calc_waves_numba (snd kw)))
    (combine (seq 0 (length (m_freqs m))) (m_freqs m)).

(** The parts of a motion this calculator uses besides: [freqs] (Hz), [fourier_amps]. *)
Record fmotion := mkFM { fm_motion : motion; fm_hz : list R; fm_amps : list C }.

(** propagation.py:920-937; [x_lsq] and [x_smooth] stand for the libraries. *)
Record fdm := mkFdm {
  x_method : text;
  x_ratio : R;
  x_tol : R;
  x_max : Z;
  x_limit : option R;
  x_lsq : list (R * R) -> list R -> R * R;
  x_smooth : R -> list R -> list R -> list R
}.

(** [np.trapezoid(ys, x=xs)] *)
Fixpoint trapz (xs ys : list R) : R :=
  match xs, ys with
  | x :: ((x' :: _) as xs'), y :: ((y' :: _) as ys') => (x' - x) * (y + y') / 2 + trapz xs' ys'
  | _, _ => 0
  end.

(** [np.finfo(float).eps] *)
Definition EPS : R := / 2 ^ 52.

(** propagation.py:980-984, one normalised frequency: [np.power(0, b)] is infinite for a
    negative exponent and the quotient is then zero. *)
Definition ka02_shape (a b f : R) : option R :=
  let e := exp (- a * f) in
  if Rltb 0 f then Some (Rmin 1 (e / Rmax EPS (Rpower f b)))
  else if Reqb f 0
  then Some (if Rltb b 0 then Rmin 1 0
             else Rmin 1 (e / Rmax EPS (if Reqb b 0 then 1 else 0)))
  else None.

(** propagation.py:957-985 *)
Definition ka02 (lsq : list (R * R) -> list R -> R * R) (freqs fas : list R) (eff : R)
    : option (list R) :=
  opt_bind (div_opt (trapz freqs (map2 Rmult freqs fas)) (trapz freqs fas)) (fun freq_avg =>
  let low := filter (fun p => Rltb (fst p) freq_avg) (combine freqs fas) in
  let high := filter (fun p => negb (Rltb (fst p) freq_avg)) (combine freqs fas) in
  opt_bind (div_opt (trapz (map fst low) (map snd low)) freq_avg) (fun strain_avg =>
  opt_bind (map_opt (fun f => div_opt f freq_avg) freqs) (fun fs =>
  opt_bind (map_opt (fun p => opt_bind (div_opt (fst p) freq_avg) (fun f =>
                              opt_bind (ln_opt f) (fun l => Some (- f, - l)))) high) (fun rows =>
  opt_bind (map_opt (fun p => opt_bind (div_opt (snd p) strain_avg) ln_opt) high) (fun logs =>
  let ab := lsq rows logs in
  opt_bind (map_opt (ka02_shape (fst ab) (snd ab)) fs) (fun shape =>
  Some (map (fun s => eff * s) shape))))))).

(** [strains[::-1] = np.maximum.accumulate(strains[::-1])]: a running maximum from the last
    entry to the first. *)
Fixpoint max_backwards (xs : list R) : list R :=
  match xs with
  | [] => []
  | x :: rest => match max_backwards rest with
                 | [] => [x]
                 | y :: ys => Rmax x y :: y :: ys
                 end
  end.

(** [eff * xs / np.max(xs)] *)
Definition scaled_by_max (eff : R) (xs : list R) : res (option (list R)) :=
  bind (np_max xs) (fun mx => Ok (map_opt (fun x => div_opt (eff * x) mx) xs)).

Definition KA02 : text := list_ascii_of_string "ka02".
Definition KO : text := list_ascii_of_string "ko:".
Definition ZR15 : text := list_ascii_of_string "zr15".
Fixpoint text_eqb (a b : text) : bool :=
  match a, b with
  | [], [] => true
  | x :: a', y :: b' => Ascii.eqb x y && text_eqb a' b'
  | _, _ => false
  end.
Definition starts (p s : text) : bool := text_eqb p (firstn (length p) s).

(** propagation.py:986-999 for a spectrum, and the three branches on the method. *)
Definition strain_spectrum (F : fdm) (freqs fas : list R) (eff : R) : res (option (list R)) :=
  if text_eqb (x_method F) KA02 then Ok (ka02 (x_lsq F) freqs fas eff)
  else if starts KO (x_method F) then
    bind (py_float (skipn 3 (x_method F))) (fun bandwidth =>
    bind (scaled_by_max eff (x_smooth F bandwidth freqs fas)) (fun os =>
    Ok (opt_bind os (fun ss => Some (max_backwards ss)))))
  else scaled_by_max eff fas.

(** propagation.py:948-1001, [_calc_strain] *)
Definition fdm_strain (F : fdm) (m : fmotion) (n : nat) (waves : list (list wrow)) (lin : wloc)
    (index : nat) (l : flayer) : res (option (list R)) :=
  bind (calc_strain_tfs (fm_motion m) n waves lin (mkLoc index (l_thick (f_layer l) / 2) Within)) (fun tf =>
  bind (np_mul (OArray tf) (fm_amps m)) (fun prod =>
  bind (m_peak (fm_motion m) tf) (fun pk =>
  strain_spectrum F (fm_hz m) (map Cmod prod) (x_ratio F * pk)))).

(** propagation.py:797-799 for an array *)
Definition flimit (lim : option R) (ss : list R) : list R * bool :=
  match lim with
  | None => (ss, false)
  | Some x => if Reqb x 0 then (ss, false)
              else if existsb (fun s => Rltb x s) ss then (map (fun s => Rmin s x) ss, true)
              else (ss, false)
  end.

(** propagation.py:790-800 *)
Fixpoint fupdate (F : fdm) (m : fmotion) (n : nat) (waves : list (list wrow)) (lin : wloc)
    (i : nat) (ls : list flayer) : res (option (list flayer * bool)) :=
  match ls with
  | [] => Ok (Some ([], false))
  | l :: rest =>
      bind (fdm_strain F m n waves lin i l) (fun os =>
      match os with
      | None => Ok None
      | Some ss =>
          let (s, lim) := flimit (x_limit F) ss in
          bind (fupdate F m n waves lin (S i) rest) (fun r =>
          Ok (match r with
              | None => None
              | Some (rest', lim') => Some (fset_strain l s :: rest', orb lim lim')
              end))
      end)
  end.

(** propagation.py:803 *)
Fixpoint fmax_errors (ls : list flayer) : res perr :=
  match ls with
  | [] => Err ValueError
  | [l] => fmax_error l
  | l :: rest => bind (fmax_error l) (fun e => bind (fmax_errors rest) (fun e' => Ok (perr_max e e')))
  end.

Record fstep := mkFStep { fs_layers : list flayer; fs_limited : bool; fs_error : perr }.

Definition fdm_pass (F : fdm) (m : fmotion) (lin : wloc) (waves : list (list wrow)) (ls : list flayer)
    : res (option fstep) :=
  bind (fupdate F m (length ls) waves lin 0 (removelast ls)) (fun r =>
  match r with
  | None => Ok None
  | Some (upd, lim) =>
      let ls' := upd ++ match last_opt ls with Some b => [b] | None => [] end in
      bind (fmax_errors ls') (fun e => Ok (Some (mkFStep ls' lim e)))
  end).

Inductive fdm_stop := FConverged | FExhausted | NotFinite.

(** propagation.py:786-815, as [eql_loop]. *)
Fixpoint fdm_loop (F : fdm) (m : fmotion) (lin : wloc) (fuel : nat) (iteration limited_iter : Z)
    (ls : list flayer) (waves : list (list wrow))
    : list fstep * res (fdm_stop * list flayer * list (list wrow)) :=
  match fuel with
  | O => ([], Ok (FExhausted, ls, waves))
  | S fuel' =>
      match fcalc_waves (fm_motion m) ls with
      | Err e => ([], Err e)
      | Ok waves' =>
          match fdm_pass F m lin waves' ls with
          | Err e => ([], Err e)
          | Ok None => ([], Ok (NotFinite, ls, waves'))
          | Ok (Some st) =>
              if err_below (fs_error st) (x_tol F)
              then ([st], Ok (FConverged, fs_layers st, waves'))
              else if fs_limited st && (limited_iter =? iteration - 1)%Z
              then ([st], Err RuntimeError)
              else
                let r := fdm_loop F m lin fuel' (iteration + 1)%Z
                           (if fs_limited st then iteration else limited_iter)
                           (fs_layers st) waves' in
                (st :: fst r, snd r)
          end
      end
  end.

(** propagation.py:937-946: the calculator that estimates the strains, built without the
    tolerance and the number of iterations. *)
Definition estimator (F : fdm) : eql_params := mkEql (x_ratio F) 0.01 15 (x_limit F).

(** propagation.py:817-820 *)
Definition fset_max (l : flayer) (mx : R) : flayer :=
  mkFL (set_strain_max (f_layer l) mx) (f_G l) (f_D l) (f_strain l).
Fixpoint fset_maxs (m : fmotion) (n : nat) (waves : list (list wrow)) (lin : wloc) (i : nat)
    (ls : list flayer) : res (list flayer) :=
  match ls with
  | [] => Ok []
  | l :: rest =>
      bind (calc_strain_max (fm_motion m) n waves lin i (f_layer l)) (fun mx =>
      bind (fset_maxs m n waves lin (S i) rest) (fun rest' => Ok (fset_max l mx :: rest')))
  end.

(** What a call does: the passes of the estimate, the passes of the calculator, how it ends. *)
Record fdm_run := mkFRun {
  fr_estimate : list eql_step;
  fr_passes : list fstep;
  fr_end : res (fdm_stop * list flayer * list (list wrow))
}.

(** propagation.py:820, the lines after the loop. *)
Definition fdm_finish (m : fmotion) (lin : wloc)
    (out : res (fdm_stop * list flayer * list (list wrow)))
    : res (fdm_stop * list flayer * list (list wrow)) :=
  bind out (fun '(stop, ls, waves) =>
  match stop with
  | NotFinite => Ok (NotFinite, ls, waves)
  | _ => bind (fset_maxs m (length ls) waves lin 0 (removelast ls)) (fun upd =>
         Ok (stop, upd ++ match last_opt ls with Some b => [b] | None => [] end, waves))
  end).

(** propagation.py:754-820 with [_estimate_strains] and [_calc_strain] overridden. *)
Definition fdm_call (F : fdm) (m : fmotion) (lin : wloc) (reset_layers : bool) (ls : list flayer) : fdm_run :=
  if reset_layers then
    let ls0 := map freset ls in
    match calc_waves (fm_motion m) ls0 with
    | Err e => mkFRun [] [] (Err e)
    | Ok waves0 =>
        let (est, r) := eql_call (estimator F) (fm_motion m) lin true ls0 in
        match r with
        | Err e => mkFRun est [] (Err e)
        | Ok (_, ls1, _) =>
            let (t, out) := fdm_loop F m lin (Z.to_nat (x_max F)) 0 (-2) (map of_layer ls1) waves0 in
            mkFRun est t (fdm_finish m lin out)
        end
    end
  else
    match fcalc_waves (fm_motion m) ls with
    | Err e => mkFRun [] [] (Err e)
    | Ok waves0 =>
        let (t, out) := fdm_loop F m lin (Z.to_nat (x_max F)) 0 (-2) ls waves0 in
        mkFRun [] t (fdm_finish m lin out)
    end.

(** output.py:739-747, 753-761: [np.asarray(values)] for the damping and the
    modulus-reduction profiles, the first value repeated; one row per entry when they are
    arrays of one length, [ValueError] when the shapes differ. *)
Definition np_asarray (vs : list val) : res arr :=
  match vs with
  | [] => Ok (A1 [])
  | Sc _ :: _ =>
      bind (mapM (fun v => match v with Sc x => Ok (Some x) | Ar _ => Err ValueError end) vs)
        (fun xs => Ok (A1 xs))
  | Ar xs0 :: _ =>
      bind (mapM (fun v => match v with
                           | Sc _ => Err ValueError
                           | Ar xs => if Nat.eqb (length xs) (length xs0) then Ok (map Some xs)
                                      else Err ValueError
                           end) vs)
        (fun rows => Ok (A2 (length xs0) rows))
  end.
Definition profile_entries (f : flayer -> val) (ls : list flayer) : res arr :=
  match map f (removelast ls) with
  | [] => Err IndexError
  | v :: vs => np_asarray (v :: v :: vs)
  end.
Definition damping_entries (ls : list flayer) : res arr := profile_entries (fun l => fi_value (f_D l)) ls.

(** output.py:210-215: the first values are stored as they are, later ones are appended
    after [append_arrays] has checked that they are one-dimensional. *)
Definition add_array (o : output) (a : arr) : res output :=
  match o_values o with
  | None => Ok (mkOut (o_refs o) (Some a) (o_names o))
  | Some many =>
      match a with
      | A1 xs => bind (append_arrays many xs) (fun v => Ok (mkOut (o_refs o) (Some v) (o_names o)))
      | A2 _ _ => Err AssertionError
      end
  end.
