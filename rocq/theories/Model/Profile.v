(** Model of [Profile] (site.py:2041-2347) over a heap of mutable [Layer]
    objects, so that sharing of layers between profiles is visible. *)
From Coq Require Import String.
From Verif Require Import Common Model.Curve Model.Layer.
Local Open Scope R_scope.

(** Object heap: an address is a layer object's identity. *)
Definition heap := nat -> layer.
Definition hset (h : heap) (a : nat) (l : layer) : heap :=
  fun b => if Nat.eqb b a then l else h b.

(** site.py:2044-2049: the list of layers (by reference) and the water table. *)
Record profile := mkProfile { p_layers : list nat; p_wt : R }.

(** The Python world: layer objects [0 .. w_next-1] and profile objects
    [0 .. w_pnext-1]; entries beyond the counters are not allocated. *)
Record world := mkWorld {
  w_heap : heap;
  w_next : nat;
  w_profs : nat -> profile;
  w_pnext : nat
}.

Definition set_heap (w : world) (h : heap) : world :=
  mkWorld h (w_next w) (w_profs w) (w_pnext w).
Definition set_prof (w : world) (p : nat) (pr : profile) : world :=
  mkWorld (w_heap w) (w_next w)
    (fun q => if Nat.eqb q p then pr else w_profs w q) (w_pnext w).

Definition layers_of (w : world) (p : nat) : list nat := p_layers (w_profs w p).
(** The layers of a profile, by value, top to bottom. *)
Definition view (w : world) (p : nat) : list layer :=
  map (w_heap w) (layers_of w p).

(** site.py:2134-2142, the loop of [update_layers]; [bottom] is the address of
    [self[-1]] and the layers are those of [self[start_layer:]]. *)
Fixpoint update_loop (h : heap) (pid bottom : nat) (addrs : list nat)
    (depth stress : R) : heap :=
  match addrs with
  | [] => h
  | a :: rest =>
      let h1 := hset h a (set_pos (h a) pid depth stress) in
      if layer_eqb (h1 a) (h1 bottom)
      then update_loop h1 pid bottom rest depth stress
      else update_loop h1 pid bottom rest (depth_base (h1 a))
             (l_svert (h1 a) + l_thick (h1 a) * s_unit_wt (l_soil (h1 a)))
  end.

(** site.py:2125-2142, [update_layers(start_layer)].  The assertion inside
    [stress_vert(thickness)] always holds, so that call is written inline. *)
Definition update_layers (w : world) (p : nat) (start : Z) : world * res unit :=
  let addrs := layers_of w p in
  let go depth stress :=
    match last_opt addrs with
    | None => (w, Ok tt)
    | Some bottom =>
        (set_heap w (update_loop (w_heap w) p bottom
            (skipn (py_slice_start start (length addrs)) addrs) depth stress), Ok tt)
    end in
  if (start <? 1)%Z then go 0 0
  else match nth_error addrs (Z.to_nat (start - 1)) with
       | None => (w, Err IndexError)
       | Some r =>
           let ref := w_heap w r in
           go (depth_base ref)
              (l_svert ref + l_thick ref * s_unit_wt (l_soil ref))
       end.

(** Allocation of a layer object. *)
Definition alloc_layer (w : world) (l : layer) : world * nat :=
  (mkWorld (hset (w_heap w) (w_next w) l) (S (w_next w)) (w_profs w) (w_pnext w),
   w_next w).
Fixpoint alloc_layers (w : world) (ls : list layer) : world * list nat :=
  match ls with
  | [] => (w, [])
  | l :: rest =>
      let (w1, a) := alloc_layer w l in
      let (w2, addrs) := alloc_layers w1 rest in
      (w2, a :: addrs)
  end.

(** site.py:2044-2049, [Profile(layers, wt_depth)]. *)
Definition new_profile (w : world) (addrs : list nat) (wt : R) : world * nat :=
  let p := w_pnext w in
  let w1 := mkWorld (w_heap w) (w_next w)
              (fun q => if Nat.eqb q p then mkProfile addrs wt else w_profs w q)
              (S (w_pnext w)) in
  (fst (update_layers w1 p 0), p).

(** [list.index(layer)] (site.py:2108-2109): the first element that is the
    object or compares equal to it. *)
Fixpoint index_from (h : heap) (addrs : list nat) (a : nat) (i : nat) : option nat :=
  match addrs with
  | [] => None
  | b :: rest =>
      if Nat.eqb b a || layer_eqb (h b) (h a) then Some i
      else index_from h rest a (S i)
  end.
Definition profile_index (w : world) (p a : nat) : res nat :=
  match index_from (w_heap w) (layers_of w p) a 0 with
  | Some i => Ok i
  | None => Err ValueError
  end.

(** site.py:2111-2114 *)
Definition append (w : world) (p a : nat) : world * res unit :=
  let n := length (layers_of w p) in
  let w1 := set_prof w p (mkProfile (layers_of w p ++ [a]) (p_wt (w_profs w p))) in
  update_layers w1 p (Z.of_nat n).

(** site.py:2116-2118: [list.insert] clamps the index, [update_layers] does not. *)
Definition insert (w : world) (p : nat) (i : Z) (a : nat) : world * res unit :=
  let addrs := layers_of w p in
  let k := py_slice_start i (length addrs) in
  let w1 := set_prof w p
    (mkProfile (firstn k addrs ++ a :: skipn k addrs) (p_wt (w_profs w p))) in
  update_layers w1 p i.

(** site.py:1970-1973, the [thickness] setter. *)
Definition set_thickness (w : world) (a : nat) (t : R) : world * res unit :=
  let w1 := set_heap w (hset (w_heap w) a (set_thick_raw (w_heap w a) t)) in
  match l_prof (w_heap w1 a) with
  | None => (w1, Err AttributeError)
  | Some p =>
      match profile_index w1 p a with
      | Err e => (w1, Err e)
      | Ok i => update_layers w1 p (Z.of_nat i + 1)
      end
  end.

(** site.py:2104-2106, [Profile.copy]. *)
Definition profile_copy (w : world) (p : nat) : world * nat :=
  let (w1, addrs) := alloc_layers w (map layer_copy (view w p)) in
  new_profile w1 addrs (p_wt (w_profs w p)).

(** Ceiling of a real as an integer, [np.ceil(...).astype(int)]. *)
Definition Rceil (x : R) : Z := (- (up (- x) - 1))%Z.

(** site.py:2180-2182: the number of sub-layers. *)
Definition sub_count (l : layer) (max_freq wave_frac : R) : nat :=
  let opt_thickness := shear_vel l / max_freq * wave_frac in
  Z.to_nat (Z.max (Rceil (l_thick l / opt_thickness)) 1).

(** site.py:2179-2191: one layer split into equal sub-layers (new objects). *)
Definition split_layer (l : layer) (max_freq wave_frac : R) : list layer :=
  let count := sub_count l max_freq wave_frac in
  repeat (layer_make (l_soil l) (l_thick l / INR count) (shear_vel l) (l_dmin l)) count.

(** site.py:2177-2193, the loop over the layers above the half-space. *)
Fixpoint discretize_loop (w : world) (addrs : list nat) (max_freq wave_frac : R)
    (nonlinear_only : bool) : world * list nat :=
  match addrs with
  | [] => (w, [])
  | a :: rest =>
      let l := w_heap w a in
      let (w1, here) :=
        if negb nonlinear_only || is_nonlinear (l_soil l)
        then alloc_layers w (split_layer l max_freq wave_frac)
        else (w, [a]) in
      let (w2, below) := discretize_loop w1 rest max_freq wave_frac nonlinear_only in
      (w2, here ++ below)
  end.

(** site.py:2153-2197, [auto_discretize]; [self[-1]] of an empty profile raises. *)
Definition auto_discretize (w : world) (p : nat) (max_freq wave_frac : R)
    (nonlinear_only : bool) : world * res nat :=
  match last_opt (layers_of w p) with
  | None => (w, Err IndexError)
  | Some bottom =>
      let (w1, addrs) :=
        discretize_loop w (removelast (layers_of w p)) max_freq wave_frac
          nonlinear_only in
      let (w2, q) := new_profile w1 (addrs ++ [bottom]) (p_wt (w_profs w p)) in
      (w2, Ok q)
  end.

(** site.py:2199-2210 *)
Definition pore_pressure (wt depth : R) : R := GRAVITY * Rmax (depth - wt) 0.

(** site.py:1984-1991, total or effective vertical stress of layer [a]; the
    effective stress needs the owning profile. *)
Definition stress_vert (w : world) (a : nat) (within : R) (effective : bool) : res R :=
  let l := w_heap w a in
  bind (stress_vert_total l within) (fun s =>
    if effective
    then match l_prof l with
         | None => Err AttributeError
         | Some p => Ok (s - pore_pressure (p_wt (w_profs w p)) (l_depth l + within))
         end
    else Ok s).

(** site.py:1993-1996 *)
Definition stress_mean (w : world) (a : nat) (within : R) (effective : bool)
    (k0 : R) : res R :=
  bind (stress_vert w a within effective) (fun s => Ok ((2 * k0 * s + s) / 3)).

(** site.py:2235-2242, the search of [lookup_depth] over [self[:-1]]. *)
Fixpoint lookup_from (ls : list layer) (d : R) (i : nat) : option (nat * R) :=
  match ls with
  | [] => None
  | l :: rest =>
      if Rleb (l_depth l) d && Rltb d (depth_base l)
      then Some (i, d - l_depth l)
      else lookup_from rest d (S i)
  end.
Definition lookup_view (ls : list layer) (d : R) : res (nat * R) :=
  match last_opt ls with
  | None => Err IndexError
  | Some bottom =>
      match lookup_from (removelast ls) d 0 with
      | Some r => Ok r
      | None => Ok ((length ls - 1)%nat, d - l_depth bottom)
      end
  end.

(** site.py:2215-2244: depths are refreshed first. *)
Definition lookup_depth (w : world) (p : nat) (d : R) : world * res (nat * R) :=
  let w1 := fst (update_layers w p 0) in
  (w1, lookup_view (view w1 p) d).

(** site.py:2246-2279: the (index, layer object, depth within) of a [Location].
    The wave field is carried by the caller. *)
Definition location (w : world) (p : nat) (depth : option R) (index : option Z)
    : world * res (nat * nat * R) :=
  match index, depth with
  | None, Some d =>
      let (w1, r) := lookup_depth w p d in
      (w1, bind r (fun id =>
         match nth_error (layers_of w1 p) (fst id) with
         | Some a => Ok (fst id, a, snd id)
         | None => Err IndexError
         end))
  | Some i, None =>
      match opt_bind (py_index i (length (layers_of w p)))
              (nth_error (layers_of w p)) with
      | None => (w, Err IndexError)
      | Some a => (w, bind (profile_index w p a) (fun j => Ok (j, a, 0)))
      end
  | _, _ => (w, Err NotImplementedError)
  end.

(** site.py:2144-2151.  [yielded] receives layers, and a soil type never equals
    a layer ([__eq__] compares the types first), so nothing is ever skipped. *)
Definition iter_soil_types (ls : list layer) : list soil := map l_soil ls.

(** site.py:2212-2213 *)
Definition site_attenuation (ls : list layer) : R := Rsum (map incr_site_atten ls).

(** Operations of a program using layers and profiles. *)
Inductive op :=
| ONewLayer (s : soil) (thick vs : R) (dmin : option R)
| ONewProfile (addrs : list nat) (wt : R)
| OAppend (p a : nat)
| OInsert (p : nat) (i : Z) (a : nat)
| OSetThickness (a : nat) (t : R)
| OUpdateLayers (p : nat) (start : Z)
| OLayer (a : nat) (o : layer_op)
| OLookup (p : nat) (d : R)
| OCopy (p : nat)
| OAutoDisc (p : nat) (max_freq wave_frac : R) (nonlinear_only : bool).

Definition step (w : world) (o : op) : world :=
  match o with
  | ONewLayer s t v d =>
      match layer_new s t v d with
      | Ok l => fst (alloc_layer w l)
      | Err _ => w
      end
  | ONewProfile addrs wt => fst (new_profile w addrs wt)
  | OAppend p a => fst (append w p a)
  | OInsert p i a => fst (insert w p i a)
  | OSetThickness a t => fst (set_thickness w a t)
  | OUpdateLayers p start => fst (update_layers w p start)
  | OLayer a lo => set_heap w (hset (w_heap w) a (layer_step (w_heap w a) lo))
  | OLookup p d => fst (lookup_depth w p d)
  | OCopy p => fst (profile_copy w p)
  | OAutoDisc p f wf nl => fst (auto_discretize w p f wf nl)
  end.
Definition run (w : world) (os : list op) : world := fold_left step os w.
