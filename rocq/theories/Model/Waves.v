(** Model of the wave-propagation kernels (propagation.py:116-331) and of
    [LinearElasticCalculator] (555-719), one frequency at a time: every kernel
    treats the columns of its (layer x frequency) arrays independently. *)
From Verif Require Import Common Model.Curve Model.Layer Model.Cplx.
From Coquelicot Require Import Complex.
Local Open Scope R_scope.

(** motion.py:36-39 *)
Inductive wave_field := Outcrop | Within | IncomingOnly.

(** One layer at one frequency: complex velocity, complex modulus, thickness
    (propagation.py:609-620). *)
Record wlayer := mkWL { wl_vel : C; wl_mod : C; wl_thick : R }.

(** One row of [_wave_nums], [_waves_a], [_waves_b]; the wave number is [None]
    when not finite (zero velocity). *)
Record wrow := mkRow { r_k : option C; r_a : C; r_b : C }.

(** site.py:41, 1842-1858, the three models of [comp_shear_mod]. *)
Inductive modulus_model := Seed | Kramer | Dormieux.
Definition COMP_MODULUS_MODEL : modulus_model := Dormieux.

(** site.py:1835-1860 *)
Definition comp_factor (m : modulus_model) (d : R) : C :=
  match m with
  | Seed => (1, 2 * d)
  | Kramer => (1 - d ^ 2, 2 * d)
  | Dormieux => (sqrt (1 - 4 * d ^ 2), 2 * d)
  end.
Definition comp_shear_mod_of (m : modulus_model) (G D : R) : C :=
  Cmult (RtoC G) (comp_factor m (clip D 0 0.49)).
Definition comp_shear_mod (l : layer) : C :=
  comp_shear_mod_of COMP_MODULUS_MODEL (shear_mod l) (damping l).

(** site.py:1862-1865 *)
Definition comp_shear_vel (l : layer) : C :=
  Csqrt (Cdiv (comp_shear_mod l) (RtoC (density (l_soil l)))).

(** propagation.py:614-617 *)
Definition wlayer_of (l : layer) : wlayer :=
  mkWL (comp_shear_vel l) (comp_shear_mod l) (l_thick l).

(** propagation.py:129-131 *)
Definition wave_num (w : R) (l : wlayer) : option C := cdivx (RtoC w) (wl_vel l).

(** propagation.py:140, [1j * wave_nums * thickness] *)
Definition cterm (k : C) (d : R) : C := Cmult (Cmult Ci k) (RtoC d).

(** propagation.py:136-138: the impedance ratio, [None] when not finite. *)
Definition cimped (w : R) (l l' : wlayer) : option C :=
  match wave_num w l, wave_num w l' with
  | Some k, Some k' => cdivx (Cmult k (wl_mod l)) (Cmult k' (wl_mod l'))
  | _, _ => None
  end.

Definition c_half : C := RtoC (1 / 2).
Definition c_one : C := RtoC 1.

(** propagation.py:142-147 *)
Definition transmit (c ct a b : C) : C * C :=
  (Cplus (Cmult (Cmult (Cmult c_half a) (Cplus c_one c)) (Cexp ct))
         (Cmult (Cmult (Cmult c_half b) (Cminus c_one c)) (Cexp (Copp ct))),
   Cplus (Cmult (Cmult (Cmult c_half a) (Cminus c_one c)) (Cexp ct))
         (Cmult (Cmult (Cmult c_half b) (Cplus c_one c)) (Cexp (Copp ct)))).

(** propagation.py:135-151, one interface; a non-finite ratio gives ones. *)
Definition step_py (w : R) (l l' : wlayer) (ab : C * C) : C * C :=
  match wave_num w l, cimped w l l' with
  | Some k, Some c => transmit c (cterm k (wl_thick l)) (fst ab) (snd ab)
  | _, _ => (c_one, c_one)
  end.

(** propagation.py:133-151, all the layers, starting from ones. *)
Fixpoint waves_from (w : R) (ls : list wlayer) (ab : C * C) : list (C * C) :=
  match ls with
  | [] => []
  | l :: rest =>
      ab :: match rest with
            | [] => []
            | l' :: _ => waves_from w rest (step_py w l l' ab)
            end
  end.

(** propagation.py:153-155: the bottom row is set to ones. *)
Fixpoint set_last_ones (xs : list (C * C)) : list (C * C) :=
  match xs with
  | [] => []
  | x :: rest => match rest with [] => [(c_one, c_one)] | _ :: _ => x :: set_last_ones rest end
  end.

Definition rows (w : R) (ls : list wlayer) (abs : list (C * C)) : list wrow :=
  map (fun lab => mkRow (wave_num w (fst lab)) (fst (snd lab)) (snd (snd lab)))
      (combine ls abs).

(** propagation.py:116-157; [waves_a[-1, mask]] fails without layers. *)
Definition calc_waves_python (w : R) (ls : list wlayer) : res (list wrow) :=
  match ls with
  | [] => Err IndexError
  | _ :: _ =>
      let abs := waves_from w ls (c_one, c_one) in
      Ok (rows w ls (if isclose w 0 then set_last_ones abs else abs))
  end.

(** propagation.py:161-172 *)
Definition wave_at (row : wrow) (within : R) (f : wave_field) : option C :=
  match r_k row with
  | None => None
  | Some k =>
      let ct := cterm k within in
      let exp_pos := Cexp ct in
      Some (match f with
            | Within => Cplus (Cmult (r_a row) exp_pos) (Cmult (r_b row) (Cexp (Copp ct)))
            | Outcrop => Cmult (Cmult (RtoC 2) (r_a row)) exp_pos
            | IncomingOnly => Cmult (r_a row) exp_pos
            end)
  end.

(** propagation.py:190-195 *)
Definition strain_numer (k a b : C) (within : R) : C :=
  let ct := cterm k within in
  Cmult (Cmult Ci k) (Cminus (Cmult a (Cexp ct)) (Cmult b (Cexp (Copp ct)))).

(** propagation.py:175-204: zero near zero frequency, else the quotient. *)
Definition strain_tf_python (out : wrow) (within_out w : R) (inp : wrow)
    (within_in : R) (f_in : wave_field) (gravity : R) : option C :=
  if isclose w 0 then Some (RtoC 0)
  else match r_k out, wave_at inp within_in f_in with
       | Some k, Some wave_in =>
           cdivx (Cmult (RtoC gravity) (strain_numer k (r_a out) (r_b out) within_out))
                 (Cmult (RtoC (- w ^ 2)) wave_in)
       | _, _ => None
       end.

(** A [Location] seen by the calculators (site.py:2003-2038). *)
Record wloc := mkLoc { loc_index : nat; loc_within : R; loc_field : wave_field }.

(** propagation.py:628-644 *)
Definition wave_at_location (rs : list wrow) (loc : wloc) : res (option C) :=
  match nth_error rs (loc_index loc) with
  | None => Err IndexError
  | Some row => Ok (wave_at row (loc_within loc) (loc_field loc))
  end.

(** propagation.py:646-659 *)
Definition calc_accel_tf (rs : list wrow) (lin lout : wloc) : res (option C) :=
  bind (wave_at_location rs lout) (fun o =>
  bind (wave_at_location rs lin) (fun i =>
    Ok (match o, i with Some x, Some y => cdivx x y | _, _ => None end))).

(** propagation.py:681-719 *)
Definition calc_strain_tf (rs : list wrow) (w : R) (lin lout : wloc) : res (option C) :=
  match loc_field lout with
  | Within =>
      match nth_error rs (loc_index lout), nth_error rs (loc_index lin) with
      | Some out, Some inp =>
          Ok (strain_tf_python out (loc_within lout) w inp (loc_within lin)
                (loc_field lin) GRAVITY)
      | _, _ => Err IndexError
      end
  | _ => Err AssertionError
  end.

(** propagation.py:661-679; [modulus] is the complex or the real modulus of the
    layer at the output location. *)
Definition calc_stress_tf (rs : list wrow) (w : R) (lin lout : wloc) (modulus : C)
    : res (option C) :=
  bind (calc_strain_tf rs w lin lout) (fun tf =>
    Ok (match tf with Some t => Some (Cmult t modulus) | None => None end)).

(** propagation.py:574-599: reset (595) and waves at one frequency. *)
Definition linear_elastic (reset_layers : bool) (w : R) (ls : list layer)
    : res (list wrow) :=
  calc_waves_python w
    (map wlayer_of (if reset_layers then map layer_reset ls else ls)).

(** * The Numba kernels.  Division by zero raises (Numba's default error model). *)

Definition cdiv_nb (x y : C) : res C :=
  if Ceq_dec y (RtoC 0) then Err ZeroDivisionError else Ok (Cdiv x y).

(** propagation.py:224-227 *)
Fixpoint wave_nums_nb (w : R) (ls : list wlayer) : res (list C) :=
  match ls with
  | [] => Ok []
  | l :: rest =>
      bind (cdiv_nb (RtoC w) (wl_vel l)) (fun k =>
      bind (wave_nums_nb w rest) (fun ks => Ok (k :: ks)))
  end.

(** propagation.py:231-257, one interface. *)
Definition step_nb (k k' : C) (l l' : wlayer) (ab : C * C) : C * C :=
  let denom := Cmult k' (wl_mod l') in
  if Ceq_dec denom (RtoC 0) then (c_one, c_one)
  else
    let c := Cdiv (Cmult k (wl_mod l)) denom in
    let ct := Cmult (Cmult Ci k) (RtoC (wl_thick l)) in
    let exp_pos := Cexp ct in
    let exp_neg := Cexp (Copp ct) in
    (Cplus (Cmult (Cmult (Cmult c_half (fst ab)) (Cplus c_one c)) exp_pos)
           (Cmult (Cmult (Cmult c_half (snd ab)) (Cminus c_one c)) exp_neg),
     Cplus (Cmult (Cmult (Cmult c_half (fst ab)) (Cminus c_one c)) exp_pos)
           (Cmult (Cmult (Cmult c_half (snd ab)) (Cplus c_one c)) exp_neg)).

(** propagation.py:229-257 *)
Fixpoint waves_from_nb (lks : list (wlayer * C)) (ab : C * C) : list (C * C) :=
  match lks with
  | [] => []
  | (l, k) :: rest =>
      ab :: match rest with
            | [] => []
            | (l', k') :: _ => waves_from_nb rest (step_nb k k' l l' ab)
            end
  end.

(** propagation.py:210-265.  Without layers the kernel indexes row -1 of an
    empty array, which Numba does not check; reported here as [IndexError]. *)
Definition calc_waves_numba (w : R) (ls : list wlayer) : res (list wrow) :=
  match ls with
  | [] => Err IndexError
  | _ :: _ =>
      bind (wave_nums_nb w ls) (fun ks =>
        let abs := waves_from_nb (combine ls ks) (c_one, c_one) in
        let abs := if Rltb (Rabs w) 1e-8 then set_last_ones abs else abs in
        Ok (map (fun kab => mkRow (Some (fst kab)) (fst (snd kab)) (snd (snd kab)))
               (combine ks abs)))
  end.

(** propagation.py:267-283; wave numbers reaching this kernel are finite. *)
Definition wave_at_nb (k a b : C) (within : R) (f : wave_field) : C :=
  let ct := Cmult (Cmult Ci k) (RtoC within) in
  let exp_pos := Cexp ct in
  match f with
  | Within => Cplus (Cmult a exp_pos) (Cmult b (Cexp (Copp ct)))
  | Outcrop => Cmult (Cmult (RtoC 2) a) exp_pos
  | IncomingOnly => Cmult a exp_pos
  end.

(** propagation.py:285-325 *)
Definition strain_tf_numba (k_out a_out b_out : C) (within_out w : R)
    (k_in a_in b_in : C) (within_in : R) (f_in : wave_field) (gravity : R) : res C :=
  if Rltb (Rabs w) 1e-8 then Ok (RtoC 0)
  else
    let ct := Cmult (Cmult Ci k_out) (RtoC within_out) in
    let numer := Cmult (Cmult Ci k_out)
                   (Cminus (Cmult a_out (Cexp ct)) (Cmult b_out (Cexp (Copp ct)))) in
    let ct_in := Cmult (Cmult Ci k_in) (RtoC within_in) in
    let exp_pos_in := Cexp ct_in in
    let wave_in :=
      match f_in with
      | Within => Cplus (Cmult a_in exp_pos_in) (Cmult b_in (Cexp (Copp ct_in)))
      | Outcrop => Cmult (Cmult (RtoC 2) a_in) exp_pos_in
      | IncomingOnly => Cmult a_in exp_pos_in
      end in
    let denom := Cmult (RtoC (- w ^ 2)) wave_in in
    cdiv_nb (Cmult (RtoC gravity) numer) denom.

(** propagation.py:23-29, 76: without Numba the name used by the decorator of
    [_my_trapz_impl] is undefined, so importing the module fails; with Numba the
    accelerated kernels are selected (327-329). *)
Inductive kernels := NumbaKernels | PythonKernels.
Definition import_propagation (numba_installed : bool) : res kernels :=
  if numba_installed then Ok NumbaKernels else Err NameError.
