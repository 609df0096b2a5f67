(** Model of [LinearElasticCalculator.__call__] and [EquivalentLinearCalculator]
    (propagation.py:574-626 and 722-876) for scalar layer properties, with the
    kernels that are selected when the module can be imported (the Numba ones).
    A layer object appears once in a profile.  The state of the layers after an
    exception is not described. *)
From Verif Require Import Common Model.Curve Model.Layer Model.Cplx Model.Waves.
From Coquelicot Require Import Complex.
Local Open Scope R_scope.

(** The part of a motion the calculators use: [angular_freqs], [pgv] (cm/s) and
    [calc_peak(tf)].  Time-series and random-vibration motions are instances. *)
Record motion := mkMotion {
  m_freqs : list R;
  m_pgv : R;
  m_peak : list C -> res R
}.

Fixpoint mapM {A B} (f : A -> res B) (xs : list A) : res (list B) :=
  match xs with
  | [] => Ok []
  | x :: rest => bind (f x) (fun y => bind (mapM f rest) (fun ys => Ok (y :: ys)))
  end.

(** propagation.py:599-626: the rows of all layers, one list per frequency. *)
Definition calc_waves (m : motion) (ls : list layer) : res (list (list wrow)) :=
  mapM (fun w => calc_waves_numba w (map wlayer_of ls)) (m_freqs m).

(** propagation.py:66-71, 574-597 *)
Definition le_call (m : motion) (reset_layers : bool) (ls : list layer)
    : res (list (list wrow)) :=
  calc_waves m (if reset_layers then map layer_reset ls else ls).

(** One frequency of [_calc_strain_tf_numba] applied to two rows.  Wave numbers
    produced by the Numba kernel are always finite. *)
Definition strain_tf_row (w : R) (rs : list wrow) (lin lout : wloc) : res C :=
  match nth_error rs (loc_index lout), nth_error rs (loc_index lin) with
  | Some o, Some i =>
      match r_k o, r_k i with
      | Some ko, Some ki =>
          strain_tf_numba ko (r_a o) (r_b o) (loc_within lout) w
            ki (r_a i) (r_b i) (loc_within lin) (loc_field lin) GRAVITY
      | _, _ => Err ZeroDivisionError
      end
  | _, _ => Err IndexError
  end.

(** propagation.py:681-719; [n] is the number of rows. *)
Definition calc_strain_tfs (m : motion) (n : nat) (waves : list (list wrow)) (lin lout : wloc)
    : res (list C) :=
  match loc_field lout with
  | Within =>
      if (Nat.ltb (loc_index lout) n && Nat.ltb (loc_index lin) n)%bool
      then mapM (fun wr => strain_tf_row (fst wr) (snd wr) lin lout) (combine (m_freqs m) waves)
      else Err IndexError
  | _ => Err AssertionError
  end.

(** propagation.py:873-875 *)
Definition calc_strain_max (m : motion) (n : nat) (waves : list (list wrow)) (lin : wloc)
    (index : nat) (l : layer) : res R :=
  bind (calc_strain_tfs m n waves lin (mkLoc index (l_thick l / 2) Within)) (m_peak m).

(** propagation.py:727-752 *)
Record eql_params := mkEql {
  e_ratio : R;
  e_tol : R;
  e_max : Z;
  e_limit : option R
}.

(** propagation.py:797-799: [None] and [0] switch the limit off. *)
Definition limit_strain (lim : option R) (s : R) : R * bool :=
  match lim with
  | None => (s, false)
  | Some x => if Reqb x 0 then (s, false)
              else if Rltb x s then (Rmin s x, true) else (s, false)
  end.

(** propagation.py:790-800: the layers [profile[:-1]], from index [i]. *)
Fixpoint update_strains (P : eql_params) (m : motion) (n : nat) (waves : list (list wrow))
    (lin : wloc) (i : nat) (ls : list layer) : res (list layer * bool) :=
  match ls with
  | [] => Ok ([], false)
  | l :: rest =>
      bind (calc_strain_max m n waves lin i l) (fun mx =>
        let '(s, lim) := limit_strain (e_limit P) (e_ratio P * mx) in
        bind (update_strains P m n waves lin (S i) rest) (fun '(rest', lim') =>
          Ok (set_strain l s :: rest', orb lim lim')))
  end.

(** propagation.py:803, [max(profile.max_error)]. *)
Fixpoint max_errors (ls : list layer) : res perr :=
  match ls with
  | [] => Err ValueError
  | [l] => Ok (max_error l)
  | l :: rest => bind (max_errors rest) (fun e => Ok (perr_max (max_error l) e))
  end.
Definition err_below (e : perr) (tol : R) : bool :=
  match e with EFin x => Rltb x tol | EInf => false end.

(** What one pass of the loop leaves behind: the layers, whether a strain was
    limited, and the error compared with the tolerance. *)
Record eql_step := mkStep { st_layers : list layer; st_limited : bool; st_error : perr }.
Inductive eql_stop := Converged | Exhausted.

(** propagation.py:790-806: one pass, given the waves of the current layers. *)
Definition eql_pass (P : eql_params) (m : motion) (lin : wloc) (waves : list (list wrow))
    (ls : list layer) : res eql_step :=
  bind (update_strains P m (length ls) waves lin 0 (removelast ls)) (fun '(upd, lim) =>
    let ls' := upd ++ match last_opt ls with Some b => [b] | None => [] end in
    bind (max_errors ls') (fun e => Ok (mkStep ls' lim e))).

(** propagation.py:786-815.  [fuel] is [max_iterations - iteration]; the result
    carries the stored waves (those of the last pass) for the lines after the loop. *)
Fixpoint eql_loop (P : eql_params) (m : motion) (lin : wloc) (fuel : nat)
    (iteration limited_iter : Z) (ls : list layer) (waves : list (list wrow))
    : list eql_step * res (eql_stop * list layer * list (list wrow)) :=
  match fuel with
  | O => ([], Ok (Exhausted, ls, waves))
  | S fuel' =>
      match calc_waves m ls with
      | Err e => ([], Err e)
      | Ok waves' =>
          match eql_pass P m lin waves' ls with
          | Err e => ([], Err e)
          | Ok st =>
              if err_below (st_error st) (e_tol P)
              then ([st], Ok (Converged, st_layers st, waves'))
              else if st_limited st && (limited_iter =? iteration - 1)%Z
              then ([st], Err RuntimeError)
              else
                let r := eql_loop P m lin fuel' (iteration + 1)%Z
                           (if st_limited st then iteration else limited_iter)
                           (st_layers st) waves' in
                (st :: fst r, snd r)
          end
      end
  end.

(** propagation.py:822-828.  A zero initial velocity makes the wave kernel raise
    before this point. *)
Definition estimate_strains (m : motion) (ls : list layer) : list layer :=
  map (fun l => set_strain (layer_reset l) ((m_pgv m / 100) / l_vs (layer_reset l))) ls.

(** propagation.py:817-820 *)
Fixpoint set_strain_maxs (m : motion) (n : nat) (waves : list (list wrow)) (lin : wloc)
    (i : nat) (ls : list layer) : res (list layer) :=
  match ls with
  | [] => Ok []
  | l :: rest =>
      bind (calc_strain_max m n waves lin i l) (fun mx =>
      bind (set_strain_maxs m n waves lin (S i) rest) (fun rest' =>
        Ok (set_strain_max l mx :: rest')))
  end.

(** propagation.py:754-820: the passes made, and how the call ends: how the loop
    stopped, the layers, and the stored waves. *)
Definition eql_call (P : eql_params) (m : motion) (lin : wloc) (reset_layers : bool)
    (ls : list layer)
    : list eql_step * res (eql_stop * list layer * list (list wrow)) :=
  match le_call m reset_layers ls with
  | Err e => ([], Err e)
  | Ok waves0 =>
      let ls0 := if reset_layers then map layer_reset ls else ls in
      let ls1 := if reset_layers then estimate_strains m ls0 else ls0 in
      let '(trace, out) := eql_loop P m lin (Z.to_nat (e_max P)) 0 (-2) ls1 waves0 in
      (trace,
       bind out (fun '(stop, ls2, waves) =>
         bind (set_strain_maxs m (length ls2) waves lin 0 (removelast ls2)) (fun upd =>
           Ok (stop, upd ++ match last_opt ls2 with Some b => [b] | None => [] end, waves))))
  end.

(** propagation.py:846-865 *)
Definition calc_strain_ratio (mag : R) : R := (mag - 1) / 10.
