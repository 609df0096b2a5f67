(** What the documentation of [WangSoilType] says about the model levels. *)
From Coq Require Import String.
From Verif Require Import Common Model.SoilModels Model.Wang.
Local Open Scope R_scope.

(** site.py:717-738, the class documentation: required parameters in sequence. *)
Definition documented (g : group) (m : wmodel) : list key :=
  match g, m with
  | CleanSandGravel, GmaxModel => [StressMean; VoidRatio; Diam50; CoefUnif; FinesCont]
  | CleanSandGravel, GgmaxModel => [StressMean; VoidRatio; CoefUnif; FinesCont]
  | CleanSandGravel, DminModel => [StressMean; FinesCont; WaterCont; VoidRatio; Diam50]
  | CleanSandGravel, DampingModel => [StressMean; VoidRatio; FinesCont; CoefUnif]
  | NonplasticSiltySand, GmaxModel => [StressMean; VoidRatio; WaterCont]
  | NonplasticSiltySand, GgmaxModel => [StressMean; VoidRatio; FinesCont]
  | NonplasticSiltySand, DminModel => [StressMean; VoidRatio; FinesCont]
  | NonplasticSiltySand, DampingModel => [StressMean; VoidRatio; FinesCont]
  | ClayeySoil, GmaxModel => [StressMean; VoidRatio; Ocr; FinesCont; PlasIndex]
  | ClayeySoil, GgmaxModel => [StressMean; FinesCont; Ocr; PlasIndex]
  | ClayeySoil, DminModel => [StressMean; VoidRatio; PlasIndex; FinesCont]
  | ClayeySoil, DampingModel => [StressMean; WaterCont; PlasIndex; FinesCont]
  end.

(** [n] is the highest level all of whose parameters are given. *)
Definition highest (kw : kwds) (required : list key) (n : nat) : Prop :=
  (n < length required)%nat /\ List.Forall (fun k => kw k <> None) (firstn (S n) required) /\
  (forall k, nth_error required (S n) = Some k -> kw k = None).

(** Two sets of properties agree on some keys. *)
Definition agree (keys : list key) (kw kw' : kwds) : Prop := forall k, In k keys -> kw k = kw' k.

(** Index properties within the range for which the formulas are meant, percentages as
    the user gives them; [fmax] limits the fines content. *)
Definition in_range (fmax : R) (kw : kwds) : Prop :=
  (exists p, kw StressMean = Some p /\ 0 < p * KPA_TO_ATM <= 60) /\
  (forall v, kw VoidRatio = Some v -> 0.2 <= v <= 4) /\
  (forall v, kw FinesCont = Some v -> 0 <= v <= fmax) /\
  (forall v, kw CoefUnif = Some v -> 0 < v) /\ (forall v, kw Diam50 = Some v -> 0 < v) /\
  (forall v, kw WaterCont = Some v -> 0 <= v < 100) /\ (forall v, kw PlasIndex = Some v -> 0 <= v) /\
  (forall v, kw Ocr = Some v -> 0 < v).
(** Fines content up to which the soil group is meant. *)
Definition fines_limit (g : group) : R := match g with CleanSandGravel => 44 | _ => 100 end.

(** The four calculations as one, with a given minimum damping. *)
Definition calc_any (m : wmodel) (ss : list R) (s : string) (d : option R) (kw : kwds) : res (list (option R)) :=
  match m with
  | GmaxModel => bind (calc_shear_mod s kw) (fun v => Ok [v])
  | GgmaxModel => calc_mod_reduc ss s kw
  | DminModel => bind (calc_damping_min s kw) (fun v => Ok [v])
  | DampingModel => calc_damping ss s (Some d) kw
  end.

(** The condition on the fines content of clayey soils at the highest level. *)
Definition clayey_base (g : group) (kw : kwds) : Prop :=
  g = ClayeySoil -> forall f w p, kw FinesCont = Some f -> kw WaterCont = Some w -> kw PlasIndex <> None ->
    kw StressMean = Some p -> 0 < f < 12 * p * KPA_TO_ATM + 5.29 * w.
