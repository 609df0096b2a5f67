(** [SoilType.copy] and [SoilType.quality] (site.py:329-349). *)
From Verif Require Import Common Model.Curve Model.Layer.
Local Open Scope R_scope.

(** site.py:329-330: always a [SoilType] (class 0), sharing the curve objects. *)
Definition soil_copy (s : soil) : soil := mkSoil 0 (s_name s) (s_unit_wt s) (s_mod s) (s_damp s).

(** site.py:347-349.  A zero constant is a Python number, whose division raises; a zero
    in a curve is a numpy number, whose division gives infinity ([None]). *)
Definition soil_quality (s : soil) : res (option R) :=
  bind (soil_damping_min s) (fun d =>
    if Reqb (2 * d) 0
    then match s_damp s with DConst _ => Err ZeroDivisionError | DCurve _ => Ok None end
    else Ok (Some (1 / (2 * d)))).
