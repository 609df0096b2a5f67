(** Specification of the frequency-dependent calculator: the strain spectrum of a layer,
    the passes it makes and the layers it leaves. *)
From Verif Require Import Common Model.Curve Model.Layer Model.Waves Model.Eql Model.Motion Model.Text Model.Fdm Spec.LayerSpec Spec.EqlSpec.
Local Open Scope R_scope.

(** Entries never increase along the list. *)
Definition never_rises (xs : list R) : Prop :=
  forall i j x y, (i <= j)%nat -> nth_error xs i = Some x -> nth_error xs j = Some y -> y <= x.

(** The documented method names: [ka02], [zr15] and [ko:] with a bandwidth. *)
Definition documented_method (t : text) : Prop :=
  t = KA02 \/ t = ZR15 \/ exists b x, t = KO ++ b /\ py_float b = Ok x.

(** A limit is in force. *)
Definition flimit_on (F : fdm) (x : R) : Prop := x_limit F = Some x /\ x <> 0.

(** A pass whose error is finite and below the tolerance. *)
Definition fbelow (tol : R) (s : fstep) : Prop := exists x, fs_error s = EFin x /\ x < tol.

(** The layers before the first pass and after each pass. *)
Definition fhistory (ls : list flayer) (t : list fstep) : list (list flayer) := ls :: map fs_layers t.

(** At every frequency the modulus and the damping of the layer are those its soil type
    asks for at the strain of that frequency. *)
Definition compatible (l : flayer) : Prop :=
  forall k s, at_freq (f_strain l) k = Some s ->
    at_freq (fi_value (f_G l)) k =
      Some (spec_G (density (l_soil (f_layer l))) (l_vs (f_layer l)) (soil_behaviour (l_soil (f_layer l))) (Some s)) /\
    at_freq (fi_value (f_D l)) k =
      Some (spec_D (l_dmin (f_layer l)) (soil_behaviour (l_soil (f_layer l))) (Some s)).

(** The number of frequencies an array has. *)
Definition covers (n : nat) (v : val) : Prop := exists xs, v = Ar xs /\ length xs = n.

(** The strain used at a frequency whose strain is [s]. *)
Definition fused (F : fdm) (s s' : R) : Prop :=
  (forall x, flimit_on F x -> x < s -> s' = x) /\ ((forall x, flimit_on F x -> s <= x) -> s' = s).

(** The strains a pass gives layer [i] of [n], from the waves: those of the method, at the
    effective strain, limited; [pk] is the peak strain. *)
Definition strains_of (F : fdm) (m : fmotion) (n : nat) (waves : list (list wrow)) (lin : wloc)
    (i : nat) (thick pk : R) (used : list R) : Prop :=
  exists tf prod ss,
    calc_strain_tfs (fm_motion m) n waves lin (mkLoc i (thick / 2) Within) = Ok tf /\
    np_mul (OArray tf) (fm_amps m) = Ok prod /\
    m_peak (fm_motion m) tf = Ok pk /\
    strain_spectrum F (fm_hz m) (map Coquelicot.Complex.Cmod prod) (x_ratio F * pk) = Ok (Some ss) /\
    Forall2 (fused F) ss used.

(** The description of a layer that no iteration changes. *)
Definition fsame (a b : flayer) : Prop :=
  l_soil (f_layer a) = l_soil (f_layer b) /\ l_thick (f_layer a) = l_thick (f_layer b) /\
  l_vs (f_layer a) = l_vs (f_layer b) /\ l_dmin (f_layer a) = l_dmin (f_layer b).

(** A calculator with another method. *)
Definition with_method (F : fdm) (t : text) : fdm :=
  mkFdm t (x_ratio F) (x_tol F) (x_max F) (x_limit F) (x_lsq F) (x_smooth F).

(** The arrays of the motion have one entry per frequency and the smoother keeps that. *)
Definition matched (F : fdm) (m : fmotion) : Prop :=
  length (fm_hz m) = length (m_freqs (fm_motion m)) /\
  length (fm_amps m) = length (m_freqs (fm_motion m)) /\
  forall bw fs xs, length (x_smooth F bw fs xs) = length xs.

(** A curve that can be evaluated. *)
Definition usable (c : curve) : Prop := exists v, curve_call c 1 = Ok v.

(** What a run must not change in a layer. *)
Definition fdescription (l : flayer) : soil * R * R * R * R * R * option nat := description (f_layer l).

(** A layer that holds the modulus and the damping of [fl] at frequency number [k]. *)
Definition frozen (k : nat) (fl : flayer) (l : layer) : Prop :=
  l_soil l = l_soil (f_layer fl) /\ l_thick l = l_thick (f_layer fl) /\
  at_freq (fi_value (f_G fl)) k = Some (shear_mod l) /\ at_freq (fi_value (f_D fl)) k = Some (damping l).
