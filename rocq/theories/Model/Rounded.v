(** The arithmetic of binary64 numbers in the geometry of profiles.  Elsewhere the
    model computes with exact reals; here every operation of the code is followed by a
    rounding [rnd].  With [rnd x = x] these are the definitions of Model.Profile and
    Model.Variation (Proof.RoundFacts); with [rnd = b64] they are what Python computes,
    except that numbers too large for binary64 are not turned into infinities. *)
From Flocq Require Import Core.
From Verif Require Import Common Model.Curve Model.Layer Model.Profile Model.Variation.
Local Open Scope R_scope.

(** IEEE 754 binary64: 53 bits, smallest positive number 2^-1074, round to nearest
    with ties to even. *)
Definition b64 (x : R) : R := round radix2 (FLT_exp (-1074) 53) ZnearestE x.
Definition is_b64 (x : R) : Prop := generic_format radix2 (FLT_exp (-1074) 53) x.

Section Rounded.
Variable rnd : R -> R.

(** site.py:1788-1790 *)
Definition depth_base_r (l : layer) : R := rnd (l_depth l + l_thick l).

(** site.py:1984-1991, total stress: the assertion and the value. *)
Definition stress_vert_r (l : layer) (within : R) : res R :=
  if Rleb within (l_thick l)
  then Ok (rnd (l_svert l + rnd (within * s_unit_wt (l_soil l))))
  else Err AssertionError.

(** site.py:2134-2142 *)
Fixpoint update_loop_r (h : heap) (pid bottom : nat) (addrs : list nat)
    (depth stress : R) : heap :=
  match addrs with
  | [] => h
  | a :: rest =>
      let h1 := hset h a (set_pos (h a) pid depth stress) in
      if layer_eqb (h1 a) (h1 bottom)
      then update_loop_r h1 pid bottom rest depth stress
      else update_loop_r h1 pid bottom rest (depth_base_r (h1 a))
             (rnd (l_svert (h1 a) + rnd (l_thick (h1 a) * s_unit_wt (l_soil (h1 a)))))
  end.

(** site.py:2125-2142, [update_layers()]. *)
Definition update_layers_r (w : world) (p : nat) : world :=
  match last_opt (layers_of w p) with
  | None => w
  | Some bottom => set_heap w (update_loop_r (w_heap w) p bottom (layers_of w p) 0 0)
  end.

(** site.py:2235-2242 *)
Fixpoint lookup_from_r (ls : list layer) (d : R) (i : nat) : option (nat * R) :=
  match ls with
  | [] => None
  | l :: rest =>
      if Rleb (l_depth l) d && Rltb d (depth_base_r l)
      then Some (i, rnd (d - l_depth l))
      else lookup_from_r rest d (S i)
  end.
Definition lookup_view_r (ls : list layer) (d : R) : res (nat * R) :=
  match last_opt ls with
  | None => Err IndexError
  | Some bottom =>
      match lookup_from_r (removelast ls) d 0 with
      | Some r => Ok r
      | None => Ok ((length ls - 1)%nat, rnd (d - l_depth bottom))
      end
  end.

(** site.py:2215-2244 *)
Definition lookup_depth_r (w : world) (p : nat) (d : R) : world * res (nat * R) :=
  let w1 := update_layers_r w p in
  (w1, lookup_view_r (view w1 p) d).

(** variation.py:219-247.  [raw] are the numbers computed at lines 227-235, one for each
    random increment, whatever [np.power] makes of them. *)
Fixpoint iter_from_r (depth_total : R) (raw : list R) (depth_prev : R)
    : list (R * R) * bool :=
  if Rltb depth_prev depth_total then
    match raw with
    | [] => ([], false)
    | d :: rest =>
        let thickness := if Rltb depth_total d then rnd (depth_total - depth_prev)
                         else rnd (d - depth_prev) in
        let depth := if Rltb depth_total d then rnd (depth_prev + thickness) else d in
        let (ys, o) := iter_from_r depth_total rest depth in
        ((thickness, rnd (rnd (depth_prev + depth) / 2)) :: ys, o)
    end
  else ([], true).
Definition iter_thickness_r (depth_total : R) (raw : list R) : list (R * R) * bool :=
  iter_from_r depth_total raw 0.

(** variation.py:265-277, the search for the layer of a mid-depth. *)
Definition host_r (ls : list layer) (mid : R) : option layer :=
  find (fun l => Rltb (l_depth l) mid && Rleb mid (depth_base_r l)) ls.

(** site.py:2180-2182: optimal thickness, number of sub-layers and their thickness, for a
    layer of the given thickness and velocity. *)
Definition opt_thickness_r (vel max_freq wave_frac : R) : R :=
  rnd (rnd (vel / max_freq) * wave_frac).
Definition sub_count_r (thick opt : R) : nat := Z.to_nat (Z.max (Rceil (rnd (thick / opt))) 1).
Definition sub_thick_r (thick opt : R) : R := rnd (thick / INR (sub_count_r thick opt)).

End Rounded.

(** No rounding. *)
Definition unrounded (x : R) : R := x.

(** variation.py:221-235: the depths computed from the increments. *)
Fixpoint raw_depths (m : toro_thick) (incs : list R) (total : R) : list (res (option R)) :=
  match incs with [] => [] | e :: rest => toro_depth m (total + e) :: raw_depths m rest (total + e) end.
