(** Model of [my_trapz] (propagation.py:76-113) and [QuarterWaveLenCalculator]
    (propagation.py:334-552).  Exact arithmetic; [None] stands for a non-finite
    numpy value (nan or infinity).  Not modelled: the optimiser of [fit], which
    enters as the list of points it evaluates and the point it returns. *)
From Verif Require Import Common Model.Curve Model.Layer.
Local Open Scope R_scope.

(** ** [my_trapz] *)

(** The loop of propagation.py:81-90 (and 99-108, the same text) on the zipped
    thicknesses and values; [p] is the loop variable after the last pass. *)
Fixpoint trapz_loop (ls : list (R * R)) (depth_max total depth : R) (p : option R) : res R :=
  match ls with
  | [] => match p with
          | None => Err UnboundLocalError
          | Some v => Ok (total + (depth_max - depth) * v)
          end
  | (t, v) :: rest =>
      let depth' := depth + t in
      if Rltb depth_max depth'
      then Ok (total + (t - (depth' - depth_max)) * v)
      else trapz_loop rest depth_max (total + t * v) depth' (Some v)
  end.

(** propagation.py:76-92: Numba raises on a division by zero. *)
Definition my_trapz_numba (thickness prop : list R) (depth_max : R) : res R :=
  bind (trapz_loop (combine thickness prop) depth_max 0 0 None) (fun total =>
  if Reqb depth_max 0 then Err ZeroDivisionError else Ok (total / depth_max)).

(** propagation.py:95-110: called with numpy scalars, a division by zero gives a
    non-finite value. *)
Definition my_trapz_python (thickness prop : list R) (depth_max : R) : res (option R) :=
  bind (trapz_loop (combine thickness prop) depth_max 0 0 None) (fun total =>
  Ok (if Reqb depth_max 0 then None else Some (total / depth_max))).

(** At a non-finite depth every comparison with it is false and the quotient is
    not finite. *)
Definition trapz_at (thickness prop : list R) (depth_max : option R) : res (option R) :=
  match depth_max with
  | Some d => bind (my_trapz_numba thickness prop d) (fun v => Ok (Some v))
  | None => match combine thickness prop with
            | [] => Err UnboundLocalError
            | _ => Ok None
            end
  end.

(** ** [_calc_amp] *)
Definition inv_opt (x : R) : option R := if Reqb x 0 then None else Some (1 / x).
Definition mean_opt (xs : list R) : option R :=
  match xs with [] => None | _ => Some (Rsum xs / INR (length xs)) end.

Fixpoint map_res {A B} (f : A -> res B) (xs : list A) : res (list B) :=
  match xs with
  | [] => Ok []
  | x :: rest => bind (f x) (fun y => bind (map_res f rest) (fun ys => Ok (y :: ys)))
  end.

(** propagation.py:415-416 *)
Definition qwl_average (thickness param : list R) (depths : list (option R)) : res (list (option R)) :=
  map_res (trapz_at thickness param) depths.

(** propagation.py:413 *)
Definition qwl_start (slowness : list R) (f : R) : option R :=
  opt_bind (mean_opt slowness) (fun m => inv_opt (4 * m * f)).

(** propagation.py:425-427: the mean of the old depth and the new one. *)
Definition qwl_next (prev slow : option R) (f : R) : option R :=
  opt_bind prev (fun p => opt_bind slow (fun s =>
  opt_bind (inv_opt (4 * s * f)) (fun q => Some ((p + q) / 2)))).
Fixpoint qwl_nexts (prev slow : list (option R)) (freqs : list R) : list (option R) :=
  match prev, slow, freqs with
  | p :: prev', s :: slow', f :: freqs' => qwl_next p s f :: qwl_nexts prev' slow' freqs'
  | _, _, _ => []
  end.

(** propagation.py:428, [np.allclose(prev, new, rtol=0.01)]. *)
Definition qwl_close (prev new : option R) : bool :=
  match prev, new with
  | Some x, Some y => Rleb (Rabs (x - y)) (1e-8 + 0.01 * Rabs y)
  | _, _ => false
  end.
Definition allclose (prev new : list (option R)) : bool :=
  forallb (fun xy => qwl_close (fst xy) (snd xy)) (combine prev new).

(** propagation.py:418-431; returns the final depths and the slownesses of the
    last pass. *)
Fixpoint qwl_loop (fuel : nat) (thickness slowness freqs : list R) (depths : list (option R))
    : res (list (option R) * list (option R)) :=
  match fuel with
  | O => Err RuntimeError
  | S n =>
      bind (qwl_average thickness slowness depths) (fun slows =>
      let depths' := qwl_nexts depths slows freqs in
      if allclose depths depths' then Ok (depths', slows)
      else qwl_loop n thickness slowness freqs depths')
  end.

Inductive method := Standard | BA23 | OtherMethod.

(** propagation.py:374-390 *)
Definition correction_ba23 (x : R) : option R :=
  let fact := (x - -1.301) / 1.398 in
  opt_bind (pow_opt ((1 - fact ^ 6) ^ 2 + 0.760 * fact ^ 3) 0.333) (fun den =>
  div_opt (0.560 * fact ^ 4) den).

Definition log10 (x : R) : R := ln x / ln 10.

(** propagation.py:435-443: the exponent at each frequency. *)
Definition exponents (m : method) (thickness slowness freqs : list R) : res (list (option R)) :=
  match m with
  | Standard => Ok (map (fun _ => Some 0.5) freqs)
  | BA23 =>
      let total_depth := Rsum (removelast thickness) in
      bind (my_trapz_numba thickness slowness total_depth) (fun total_slow =>
      Ok (map (fun f =>
            opt_bind (inv_opt (4 * total_depth * total_slow)) (fun freq_bot =>
            opt_bind (div_opt f freq_bot) (fun r =>
            if Rltb 0 r then correction_ba23 (log10 r) else None))) freqs))
  | OtherMethod => Err NotImplementedError
  end.

(** propagation.py:445-447 at one frequency. *)
Definition amp_at (rho_n s_n : R) (rho s eta : option R) : option R :=
  opt_bind rho (fun r => opt_bind s (fun sl => opt_bind eta (fun e =>
  opt_bind (div_opt rho_n s_n) (fun top => opt_bind (div_opt r sl) (fun bot =>
  opt_bind (div_opt top bot) (fun ratio => pow_opt ratio e)))))).
Fixpoint amps (rho_n s_n : R) (rhos ss etas : list (option R)) : list (option R) :=
  match rhos, ss, etas with
  | r :: rhos', s :: ss', e :: etas' => amp_at rho_n s_n r s e :: amps rho_n s_n rhos' ss' etas'
  | _, _, _ => []
  end.

(** propagation.py:449-451: [if self.site_atten] is false for [None] and 0. *)
Definition site_factor (atten : option R) (f : R) : R :=
  match atten with
  | Some k => if Reqb k 0 then 1 else exp (- PI * k * f)
  | None => 1
  end.
Fixpoint site_terms (atten : option R) (amp : list (option R)) (freqs : list R) : list (option R) :=
  match amp, freqs with
  | a :: amp', f :: freqs' => opt_bind a (fun x => Some (x * site_factor atten f)) :: site_terms atten amp' freqs'
  | _, _ => []
  end.

(** propagation.py:408-453 *)
Definition calc_amp (m : method) (atten : option R) (freqs density thickness slowness : list R)
    : res (list (option R) * list (option R)) :=
  bind (qwl_loop 50 thickness slowness freqs (map (qwl_start slowness) freqs)) (fun ds =>
  bind (qwl_average thickness density (fst ds)) (fun rhos =>
  bind (exponents m thickness slowness freqs) (fun etas =>
  match last_opt density, last_opt slowness with
  | Some rho_n, Some s_n =>
      let crustal := amps rho_n s_n rhos (snd ds) etas in
      Ok (crustal, site_terms atten crustal freqs)
  | _, _ => Err IndexError
  end))).

(** ** The calculator *)
Record qwl := mkQwl {
  q_method : method;
  q_atten : option R;
  q_layers : list layer;          (* the profile of the last call *)
  q_amp : list (option R);
  q_term : list (option R)
}.

(** site.py:2384-2410, the arrays passed at propagation.py:370-372. *)
Definition densities (ls : list layer) : list R := map (fun l => Layer.density (l_soil l)) ls.
Definition thicknesses (ls : list layer) : list R := map l_thick ls.
Definition slownesses (ls : list layer) : list R := map (fun l => 1 / l_vs l) ls.

(** propagation.py:347-372 *)
Definition qwl_call (q : qwl) (freqs : list R) (ls : list layer) : qwl * res unit :=
  match calc_amp (q_method q) (q_atten q) freqs (densities ls) (thicknesses ls) (slownesses ls) with
  | Ok (a, t) => (mkQwl (q_method q) (q_atten q) ls a t, Ok tt)
  | Err e => (mkQwl (q_method q) (q_atten q) ls (q_amp q) (q_term q), Err e)
  end.

(** propagation.py:516-536, the part of [err] with effects: it assigns the
    attenuation and evaluates the amplification. *)
Definition fit_eval (q : qwl) (freqs : list R) (adjust_thickness adjust_atten : bool) (x : list R)
    : qwl * res unit :=
  let nl := length (q_layers q) in
  let slow := firstn nl x in
  let thick := if adjust_thickness then firstn nl (skipn nl x) else thicknesses (q_layers q) in
  let att := if adjust_atten then last_opt x else q_atten q in
  let q' := mkQwl (q_method q) att (q_layers q) (q_amp q) (q_term q) in
  match calc_amp (q_method q) att freqs (densities (q_layers q)) thick slow with
  | Ok _ => (q', Ok tt)
  | Err e => (q', Err e)
  end.
Fixpoint fit_evals (q : qwl) (freqs : list R) (at_ aa : bool) (xs : list (list R)) : qwl * res unit :=
  match xs with
  | [] => (q, Ok tt)
  | x :: rest =>
      match fit_eval q freqs at_ aa x with
      | (q', Ok _) => fit_evals q' freqs at_ aa rest
      | (q', Err e) => (q', Err e)
      end
  end.

(** propagation.py:544-550: layers of the fitted profile, before [Profile] places
    them. *)
Fixpoint fit_layers (ls : list layer) (thick slow : list R) : res (list layer) :=
  match ls, thick, slow with
  | l :: ls', t :: thick', s :: slow' =>
      bind (layer_new (l_soil l) t (1 / s) None) (fun a =>
      bind (fit_layers ls' thick' slow') (fun r => Ok (a :: r)))
  | _, _, _ => Ok []
  end.

(** propagation.py:455-552.  [evals] are the points evaluated by the optimiser, in
    order, and [sol] is [res.x]. *)
Definition fit (q : qwl) (freqs : list R) (at_ aa : bool) (evals : list (list R)) (sol : list R)
    : qwl * res unit :=
  let nl := length (q_layers q) in
  match fit_evals q freqs at_ aa evals with
  | (q', Err e) => (q', Err e)
  | (q', Ok _) =>
      let thick := if at_ then firstn nl (skipn nl sol) else thicknesses (q_layers q) in
      match fit_layers (q_layers q) thick (firstn nl sol) with
      | Err e => (q', Err e)
      | Ok ls => qwl_call q' freqs ls
      end
  end.
