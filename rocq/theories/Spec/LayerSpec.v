(** What a history of operations on one layer should amount to. *)
From Verif Require Import Common Model.Curve Model.Layer.
Local Open Scope R_scope.

(** The last velocity and minimum damping assigned, if any. *)
Fixpoint last_vs (v0 : R) (os : list layer_op) : R :=
  match os with
  | [] => v0
  | LSetVs v :: rest => last_vs v rest
  | _ :: rest => last_vs v0 rest
  end.
Fixpoint last_dmin (d0 : R) (os : list layer_op) : R :=
  match os with
  | [] => d0
  | LSetDmin d :: rest => last_dmin d rest
  | _ :: rest => last_dmin d0 rest
  end.
(** The last strain (maximum strain) assigned since the last reset; assigning the
    velocity or the minimum damping also resets. *)
Fixpoint current_strain (s0 : option R) (os : list layer_op) : option R :=
  match os with
  | [] => s0
  | LSetStrain s :: rest => current_strain (Some s) rest
  | LSetStrainMax _ :: rest => current_strain s0 rest
  | _ :: rest => current_strain None rest
  end.
Fixpoint current_max (m0 : option R) (os : list layer_op) : option R :=
  match os with
  | [] => m0
  | LSetStrainMax m :: rest => current_max (Some m) rest
  | LSetStrain _ :: rest => current_max m0 rest
  | _ :: rest => current_max None rest
  end.

(** A curve evaluated at a strain, described as a relation supplied by the
    caller: [modred s r] is the modulus reduction and [damp s d] the increase of
    damping above the small-strain value. *)
Record behaviour := {
  modred : R -> R;        (* G/Gmax at a strain *)
  damp_incr : R -> R      (* damping above the minimum at a strain *)
}.

(** Shear modulus and damping a layer should show. *)
Definition spec_G (rho vs : R) (b : behaviour) (s : option R) : R :=
  match s with
  | None => rho * (vs * vs)
  | Some e => rho * (vs * vs) * modred b e
  end.
Definition spec_D (dmin : R) (b : behaviour) (s : option R) : R :=
  match s with
  | None => dmin
  | Some e => dmin + damp_incr b e
  end.

(** The behaviour a soil type asks for: what calling its curves returns, the
    damping relative to its first listed value.  A missing or unusable curve means
    a linear soil. *)
Definition soil_behaviour (s : soil) : behaviour := {|
  modred := fun e => match s_mod s with
                     | Some c => match curve_call c e with Ok r => r | Err _ => 1 end
                     | None => 1 end;
  damp_incr := fun e => match s_damp s with
                        | DConst _ => 0
                        | DCurve c => match curve_call c e, c_values c with
                                      | Ok d, v0 :: _ => d - v0
                                      | _, _ => 0 end end |}.
