(** Model of [WangSoilType] (src/pystrata/site.py:679-1301).  Index properties are
    scalars; a formula whose value is not a finite real number is [None] (numpy gives
    nan or inf, Python floats become complex or raise).  Names are not modelled. *)
From Coq Require Import String.
From Verif Require Import Common Model.SoilModels.
Local Open Scope R_scope.

(** The index properties (site.py:701-709). *)
Inductive key := StressMean | FinesCont | CoefUnif | Diam50 | WaterCont | VoidRatio | PlasIndex | Ocr.
Definition key_eqb (k l : key) : bool :=
  match k, l with
  | StressMean, StressMean | FinesCont, FinesCont | CoefUnif, CoefUnif | Diam50, Diam50
  | WaterCont, WaterCont | VoidRatio, VoidRatio | PlasIndex, PlasIndex | Ocr, Ocr => true
  | _, _ => false
  end.

(** A keyword dictionary. *)
Definition kwds := key -> option R.
Definition provided (kw : kwds) (k : key) : bool := match kw k with Some _ => true | None => false end.

(** site.py:679-695 with the keys used throughout, ["fines_cont", "plas_index", "water_cont"]. *)
Definition to_decimal (kw : kwds) : kwds := fun k =>
  match k with
  | FinesCont | PlasIndex | WaterCont => match kw k with Some v => Some (v / 100) | None => None end
  | _ => kw k
  end.

Inductive group := CleanSandGravel | NonplasticSiltySand | ClayeySoil.
Definition group_of (s : string) : option group :=
  if String.eqb s "clean_sand_and_gravel" then Some CleanSandGravel
  else if String.eqb s "nonplastic_silty_sand" then Some NonplasticSiltySand
  else if String.eqb s "clayey_soil" then Some ClayeySoil else None.
Inductive wmodel := GmaxModel | GgmaxModel | DminModel | DampingModel.

(** site.py:782-826 *)
Definition LEVELS (g : group) (m : wmodel) : list key :=
  match g, m with
  | CleanSandGravel, GmaxModel => [StressMean; VoidRatio; Diam50; CoefUnif; FinesCont]
  | CleanSandGravel, GgmaxModel => [StressMean; VoidRatio; CoefUnif; FinesCont]
  | CleanSandGravel, DminModel => [StressMean; FinesCont; WaterCont; VoidRatio; Diam50]
  | CleanSandGravel, DampingModel => [StressMean; VoidRatio; FinesCont; CoefUnif]
  | NonplasticSiltySand, GmaxModel => [StressMean; VoidRatio; WaterCont]
  | NonplasticSiltySand, GgmaxModel => [StressMean; VoidRatio; FinesCont]
  | NonplasticSiltySand, DminModel => [StressMean; VoidRatio; FinesCont]
  | NonplasticSiltySand, DampingModel => [StressMean; VoidRatio; FinesCont]
  | ClayeySoil, GmaxModel => [StressMean; VoidRatio; Ocr; FinesCont; PlasIndex]
  | ClayeySoil, GgmaxModel => [StressMean; VoidRatio; FinesCont; Ocr; PlasIndex]
  | ClayeySoil, DminModel => [StressMean; VoidRatio; PlasIndex; FinesCont]
  | ClayeySoil, DampingModel => [StressMean; WaterCont; PlasIndex; FinesCont]
  end.

(** site.py:919-947, the loop; the level is one less than the count. *)
Fixpoint count_provided (kw : kwds) (required : list key) : nat :=
  match required with
  | [] => 0
  | k :: rest => if provided kw k then S (count_provided kw rest) else 0
  end.
Definition get_level (m : wmodel) (soil_group : string) (kw : kwds) : res Z :=
  match group_of soil_group with
  | None => Err KeyError
  | Some g => Ok (Z.of_nat (count_provided kw (LEVELS g m)) - 1)%Z
  end.

(** ** Formulas *)

Inductive expr :=
| Num (r : R) | Key (k : key)
| Add (a b : expr) | Sub (a b : expr) | Mul (a b : expr) | Pow (a b : expr) | Exp (a : expr).
Declare Scope formula_scope.
Delimit Scope formula_scope with F.
Bind Scope formula_scope with expr.
Notation "a + b" := (Add a b) : formula_scope.
Notation "a - b" := (Sub a b) : formula_scope.
Notation "a * b" := (Mul a b) : formula_scope.
Notation "a ** b" := (Pow a b) (at level 30, right associativity) : formula_scope.
Notation "# r" := (Num r%R) (at level 5, r at level 0) : formula_scope.

Definition lift2 (f : R -> R -> option R) (x y : res (option R)) : res (option R) :=
  bind x (fun a => bind y (fun b => Ok (opt_bind a (fun u => opt_bind b (fun v => f u v))))).
(** [kwds[key]] raises [KeyError] when the key is missing. *)
Fixpoint eval (kw : kwds) (e : expr) : res (option R) :=
  match e with
  | Num r => Ok (Some r)
  | Key k => match kw k with Some v => Ok (Some v) | None => Err KeyError end
  | Add a b => lift2 (fun x y => Some (x + y)) (eval kw a) (eval kw b)
  | Sub a b => lift2 (fun x y => Some (x - y)) (eval kw a) (eval kw b)
  | Mul a b => lift2 (fun x y => Some (x * y)) (eval kw a) (eval kw b)
  | Pow a b => lift2 pow_opt (eval kw a) (eval kw b)
  | Exp a => bind (eval kw a) (fun x => Ok (opt_bind x (fun u => Some (exp u))))
  end.

Definition stress : expr := Mul (Key StressMean) (Num KPA_TO_ATM).
Definition e_ : expr := Key VoidRatio.
Definition fc : expr := Key FinesCont.
Definition wc : expr := Key WaterCont.
Definition pi_ : expr := Key PlasIndex.
Definition cu : expr := Key CoefUnif.
Definition d50 : expr := Key Diam50.
Definition ocr : expr := Key Ocr.

(** [if level == 0: ... elif level == 1: ... else: ...] *)
Definition select {A} (level : Z) (cases : list A) (otherwise : A) : A :=
  if (level <? 0)%Z then otherwise else nth (Z.to_nat level) cases otherwise.

Local Open Scope formula_scope.

(** site.py:949-1036 *)
Definition gmax_formula (g : group) (level : Z) : expr :=
  match g with
  | CleanSandGravel => select level
      [ #108.4 * stress ** #0.51;
        #67.5 * e_ ** #(-0.86) * stress ** #0.5;
        #66.5 * e_ ** (#(-0.75) - (#0.009 * d50) ** #1.58) * stress ** #0.51;
        #64.3 * cu ** #(-0.21) * e_ ** (#(-1.08) - (#0.09 * d50) ** #0.51) * stress ** (#0.47 * cu ** #0.06) ]
      (#63.9 * cu ** #(-0.21) * e_ ** (#(-1.12) - (#0.09 * d50) ** #0.54) *
         stress ** (#0.48 * cu ** #0.08 - #1.03 * fc))
  | NonplasticSiltySand => select level
      [ #89.1 * stress ** #0.51;
        #59.2 * e_ ** #(-0.74) * stress ** #0.51 ]
      (#84.8 * e_ ** #(-0.53) * (#1 - #1.32 * wc) * stress ** #0.52)
  | ClayeySoil => select level
      [ #77.2 * stress ** #0.48;
        #52.3 * e_ ** #(-1.08) * stress ** #0.4;
        #18.9 * e_ ** #(-0.97) * (#4.5 + ocr) ** #0.54 * stress ** #0.48;
        #34 * e_ ** #(-0.8) * (#3.13 + ocr) ** #0.53 * (#1 - #0.46 * fc) * stress ** #0.51 ]
      (#232.9 * (#1 + #0.96 * e_) ** #(-2.42) * (#1.92 + ocr) ** (#0.27 + #0.46 * pi_) *
         (#1 - #0.44 * fc) * stress ** #0.49)
  end.

(** site.py:1040-1119: [a], [b] and [gamma_mr] *)
Definition mr_formula (g : group) (level : Z) : expr * expr * expr :=
  match g with
  | CleanSandGravel => select level
      [ (#0.729, #0.985, #0.068 * stress ** #0.4);
        (#0.804, #0.882, (#0.13 * e_ ** #0.545 - #0.043) * stress ** #0.45);
        (#0.834, #0.839, (#0.05 * e_ ** (#0.1 * cu) + #0.011) * stress ** #0.45) ]
      (#0.834 + fc, #0.844 - #1.897 * fc, (#0.048 * e_ ** (#0.089 * cu) + #0.008) * stress ** #0.4)
  | NonplasticSiltySand => select level
      [ (#1.04, #0.438 - #0.007 * Key StressMean * Num KPA_TO_ATM, #0.011 * stress ** #0.318);
        (#1.139 * Exp (#0.093 * e_), #0.475 - #0.007 * Key StressMean * Num KPA_TO_ATM,
           (#0.029 * e_ - #0.003) * stress ** #0.335) ]
      ((#1.495 * e_ + #3.079 * fc) ** #0.121, #0.486 - #0.006 * Key StressMean * Num KPA_TO_ATM,
         (#0.031 * e_ - #0.003) * stress ** (#0.405 - #0.193 * fc))
  | ClayeySoil => select level
      [ (#1.364, #0.28, #0.015 * stress ** #0.205);
        (#1.185, #0.475, #0.035 * e_ * stress ** #0.276);
        (#0.966 + #0.378 * fc, #0.596 - #0.207 * fc, (#0.031 * e_ + #0.004 * fc) * stress ** #0.25);
        (#0.972 + #0.419 * fc, #0.571 - #0.2 * fc,
           (#0.025 * e_ + #0.0015 * fc) * (stress + #0.375 * ocr) ** #0.358) ]
      (#0.896 + #0.412 * fc + #0.534 * pi_, #0.586 - #0.098 * e_ - #0.135 * fc,
         (#0.02 * e_ + #0.004 * fc) * (stress + #0.42 * ocr) ** (#0.447 - #0.27 * pi_))
  end.

(** site.py:1125-1205, in percent; [13.48 ** -e] is a power of a sum of [0] and [-e] here. *)
Definition dmin_formula (g : group) (level : Z) : expr :=
  match g with
  | CleanSandGravel => select level
      [ #0.77 * stress ** #(-0.03);
        #0.55 * (#1 + #29.03 * fc) * stress ** #(-0.13);
        #0.64 * (#0.26 - wc) ** #0.11 * (#1 + #32.8 * fc) * stress ** #(-0.12);
        #0.55 * (#1 - wc) ** (#(-12.49) + #19.45 * e_) * (#1 + #23.44 * fc) * stress ** #(-0.14) ]
      (#0.6 * (#0.99 + wc) ** (#7.45 - #15.23 * e_ + #4.29 * d50) * (#1 + #21.17 * fc) * stress ** #(-0.14))
  | NonplasticSiltySand => select level
      [ #1.47 * stress ** #(-0.2);
        #39.11 * (#0.44 * e_) ** (#4.32 * e_) * stress ** #(-0.19) ]
      (#52.16 * (#0.41 * e_) ** (#0.81 * fc + #5.2 * e_) * (#1 + #5.35 * fc) * stress ** #(-0.19))
  | ClayeySoil => select level
      [ #2.55 * stress ** #(-0.11);
        #7.62 * #13.48 ** (#0 - e_) * stress ** #(-0.29) + #0.72 ** (#0 - e_);
        #7.29 * #8 ** (#0 - e_ - #3.31 * pi_) * (#1 + #148 * pi_ ** #1.95) * stress ** #(-0.2) +
          (#0.5 * pi_) ** (#2.54 - #1.8 * e_) ]
      (#4.86 * (#1.99 + fc) ** (#(-1.91) * e_ - #6.5 * pi_) * (#1 + #106.75 * pi_ ** #1.64) *
         stress ** #(-0.19) + (#0.46 * pi_) ** (#1.73 - #1.34 * e_))
  end.

(** site.py:1211-1294: [c], [d] and [gamma_d] *)
Definition damping_formula (g : group) (level : Z) : expr * expr * expr :=
  match g with
  | CleanSandGravel => select level
      [ (#0.93, #15.64, #0.09 * stress ** #0.32);
        (#1.08 * Exp (#0.62 - #0.73 * e_), #16.39, #0.09 * stress ** #0.39);
        (#1.02 * Exp (#0.56 - #0.72 * e_), #21.17, #0.13 * (stress + #17.94 * fc) ** (#0.45 - fc)) ]
      (#0.93 * Exp (#0.34 - #0.8 * e_), #18.13,
         #0.13 * cu ** #(-0.31) * (stress + #22.04 * fc) ** (#0.47 - fc))
  | NonplasticSiltySand => select level
      [ (#1.187, #13.125, #0.045 * stress ** #0.293);
        (#1.38 * Exp (#0.25 * e_), #12.09, #0.0066 * (stress + #5.79 * e_) ** #1.01) ]
      (#1.39 * Exp (#0.27 * e_), #12.13, #0.0025 * (stress + #5.73 * e_ + #9.17 * fc) ** (#1.47 - #0.52 * fc))
  | ClayeySoil => select level
      [ (#1.12, #19.47, #0.11 * stress ** #0.23);
        (#1.36, #15.16, #0.29 * (#0.017 * Key StressMean * Num KPA_TO_ATM + wc) ** (#1.15 + wc));
        (#1.48 ** (#0.53 + pi_), #15.61,
           #0.07 * (#0.06 * Key StressMean * Num KPA_TO_ATM + #2.69 * wc) ** (#1.06 + wc - pi_)) ]
      ((#1.91 * fc) ** (#1.62 * pi_), #21.7,
         #0.11 * (#0.12 * Key StressMean * Num KPA_TO_ATM + #5.29 * wc - fc) **
           (#1.45 - pi_ + wc - #1.09 * fc))
  end.

Local Close Scope formula_scope.

(** The dispatch on the soil group after [get_level]; the [ValueError] of the last
    [else] branch. *)
Definition with_group {A} (m : wmodel) (soil_group : string) (kw : kwds) (f : group -> Z -> res A) : res A :=
  bind (get_level m soil_group kw) (fun level =>
  match group_of soil_group with Some g => f g level | None => Err ValueError end).

(** site.py:949-1036 *)
Definition calc_shear_mod (soil_group : string) (kw0 : kwds) : res (option R) :=
  let kw := to_decimal kw0 in
  with_group GmaxModel soil_group kw (fun g level => eval kw (gmax_formula g level)).

(** site.py:1121: [1 / (1 + (100 * strains / gamma_mr) ** a) ** b] *)
Definition mr_value (a b g s : R) : option R :=
  opt_bind (div_opt (100 * s) g) (fun q =>
  opt_bind (pow_opt q a) (fun p =>
  opt_bind (pow_opt (1 + p) b) (fun r => div_opt 1 r))).
Definition calc_mod_reduc (ss : list R) (soil_group : string) (kw0 : kwds) : res (list (option R)) :=
  let kw := to_decimal kw0 in
  with_group GgmaxModel soil_group kw (fun g level =>
  let '(ea, eb, eg) := mr_formula g level in
  bind (eval kw ea) (fun a => bind (eval kw eb) (fun b => bind (eval kw eg) (fun gm =>
  Ok (map (fun s => opt_bind a (fun x => opt_bind b (fun y => opt_bind gm (fun z => mr_value x y z s)))) ss))))).

(** site.py:1123-1207 *)
Definition calc_damping_min (soil_group : string) (kw0 : kwds) : res (option R) :=
  let kw := to_decimal kw0 in
  with_group DminModel soil_group kw (fun g level =>
  bind (eval kw (dmin_formula g level)) (fun d => Ok (opt_bind d (fun x => Some (x / 100))))).

(** site.py:1299-1301 *)
Definition damping_value (c d g dmin s : R) : option R :=
  opt_bind (div_opt (100 * s) g) (fun q =>
  opt_bind (pow_opt q c) (fun t =>
  opt_bind (div_opt (d * t + 100 * dmin) (t + 1)) (fun v => Some (v / 100)))).
(** site.py:1209-1301.  [given] is the argument [damping_min]: [None] for Python's
    [None], otherwise a value, which may itself be undefined. *)
Definition calc_damping (ss : list R) (soil_group : string) (given : option (option R)) (kw0 : kwds)
    : res (list (option R)) :=
  let kw := to_decimal kw0 in
  with_group DampingModel soil_group kw (fun g level =>
  let '(ec, ed, eg) := damping_formula g level in
  bind (eval kw ec) (fun c => bind (eval kw ed) (fun d => bind (eval kw eg) (fun gd =>
  bind (match given with Some x => Ok x | None => calc_damping_min soil_group kw end) (fun dmin =>
  Ok (map (fun s => opt_bind c (fun x => opt_bind d (fun y => opt_bind gd (fun z =>
        opt_bind dmin (fun m => damping_value x y z m s))))) ss)))))).

(** site.py:880-889; the order of the set does not matter *)
Definition params (g : group) (specified_dmin : bool) : list key :=
  LEVELS g GgmaxModel ++ LEVELS g DampingModel ++ (if specified_dmin then [] else LEVELS g DminModel).
(** site.py:846-850 *)
Definition index_params (g : group) (specified_dmin : bool) (kw : kwds) : kwds := fun k =>
  if existsb (key_eqb k) (params g specified_dmin) then kw k else None.

(** site.py:827-878: the values of the two curves. *)
Definition wang_init (soil_group : string) (damping_min : option R) (strains : option (list R)) (kw : kwds)
    : res (list (option R) * list (option R)) :=
  match group_of soil_group with
  | None => Err KeyError
  | Some g =>
      let ip := index_params g (match damping_min with Some _ => true | None => false end) kw in
      let ss := strains_or_default strains in
      match ip StressMean with
      | None => Err ValueError
      | Some _ =>
          bind (calc_mod_reduc ss soil_group ip) (fun ms =>
          bind (match damping_min with Some d => Ok (Some d) | None => calc_damping_min soil_group ip end) (fun dm =>
          bind (calc_damping ss soil_group (Some dm) ip) (fun ds => Ok (ms, ds))))
      end
  end.
