(** The keyword arguments of [ToroVelocityVariation.generic_model] (variation.py:621-657)
    and [DepthDependToroVelVariation.generic_model] (731-776), and the constructors they
    call (525-543, 694-711).  A keyword name appears at most once in a call, so a dict is a
    list of pairs whose first entry for a name counts. *)
From Coq Require Import String.
From Verif Require Import Common Model.Curve Model.Layer Model.Averages Model.Variation.
Local Open Scope R_scope.
Local Open Scope string_scope.

(** Arguments: a number, an array, a flag, or a dict from names to numbers. *)
Inductive kval := VNum (x : R) | VArr (xs : list R) | VFlag (b : bool) | VMap (m : list (string * R)).
Definition kwargs := list (string * kval).
Definition kw_get (d : kwargs) (n : string) : option kval := option_map snd (find (fun kv => String.eqb (fst kv) n) d).

(** variation.py:460-519: the dict of a site class. *)
Definition class_kwargs (m : toro_vel) : kwargs :=
  [("ln_std", VNum (tv_ln_std m)); ("rho_0", VNum (tv_rho_0 m)); ("delta", VNum (tv_delta m));
   ("rho_200", VNum (tv_rho_200 m)); ("h_0", VNum (tv_h_0 m)); ("b", VNum (tv_b m))].

(** Calling a constructor with the names [known], of which those in [needed] have no default. *)
Definition make (known needed : list string) (p : kwargs) : res kwargs :=
  if (forallb (fun kv => existsb (String.eqb (fst kv)) known) p
      && forallb (fun n => match kw_get p n with Some _ => true | None => false end) needed)%bool
  then Ok p else Err TypeError.

Definition toro_needed : list string := ["ln_std"; "rho_0"; "delta"; "rho_200"; "h_0"; "b"].
Definition toro_known : list string := "vary_bedrock" :: toro_needed.
Definition depth_needed : list string := "depth" :: toro_needed.
Definition depth_known : list string := "ln_std_map" :: "vary_bedrock" :: depth_needed.

(** variation.py:655-657 *)
Definition toro_generic (site_class : string) (kwds : kwargs) : res kwargs :=
  bind (toro_lookup site_class) (fun m => make toro_known toro_needed (kwds ++ class_kwargs m)%list).

(** variation.py:768-776; [ln_std_map] is a keyword of its own ([None] when omitted, which
    the constructor replaces by an empty dict). *)
Definition depth_generic (site_class : string) (ln_std_map : option (list (string * R))) (kwds : kwargs) : res kwargs :=
  bind (toro_lookup site_class) (fun m =>
  let p := (kwds ++ class_kwargs m)%list in
  let p := match kw_get kwds "depth" with
           | Some _ => p
           | None => ("ln_std", VArr [0.25; 0.15]) :: ("depth", VArr [0; 15]) :: p
           end in
  make depth_known depth_needed
    (("ln_std_map", VMap (match ln_std_map with Some d => d | None => [] end)) :: p)).

(** variation.py:713-729 up to the interpolation: [self.ln_std[0]] of a number raises
    [TypeError], of an empty array [IndexError]. *)
Definition depth_end_values (o : kwargs) : res (R * R) :=
  match kw_get o "ln_std" with
  | Some (VArr (x :: xs)) => Ok (x, last xs x)
  | Some (VArr []) => Err IndexError
  | Some (VMap _) => Err KeyError
  | _ => Err TypeError
  end.
