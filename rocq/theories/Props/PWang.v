(** Properties C50, C51, C53, C83, C84 and C87: the Wang soil type. *)
From Coq Require Import String.
From Verif Require Import Common Model.SoilModels Model.Wang Spec.SoilModelSpec Spec.WangSpec Proof.CommonFacts
  Proof.HyperbolicFacts Proof.WangFacts Proof.WangProps Proof.WangShape.
Local Open Scope R_scope.

(** A sand at 100 kPa with 20 % fines, and a clay. *)
Definition ex_kw : kwds := fun k => match k with StressMean => Some 100 | FinesCont => Some 20 | _ => None end.
Definition ex_clay : kwds := fun k =>
  match k with StressMean => Some 100 | FinesCont => Some 60 | WaterCont => Some 30 | PlasIndex => Some 20 | VoidRatio => Some 0.8 | _ => None end.
Lemma ex_kw_range : in_range 44 ex_kw.
Proof. unfold in_range, ex_kw, KPA_TO_ATM. split; [exists 100; split; [reflexivity|lra]|]. repeat apply conj; intros v E; try discriminate; injection E as <-; lra. Qed.
Lemma ex_clay_range : in_range (fines_limit ClayeySoil) ex_clay.
Proof.
  unfold in_range, ex_clay, fines_limit, KPA_TO_ATM. split; [exists 100; split; [reflexivity|lra]|].
  repeat apply conj; intros v E; try discriminate; injection E as <-; lra.
Qed.
Lemma ex_clay_base : clayey_base ClayeySoil ex_clay.
Proof.
  intros _ f w p Hf Hw _ Hp. injection Hf as <-. injection Hw as <-. injection Hp as <-. unfold KPA_TO_ATM. lra.
Qed.
Lemma ex_strains : List.Forall (fun s : R => 0 <= s) [0; 0.001; 0.01].
Proof. repeat (apply List.Forall_cons; [lra|]). apply List.Forall_nil. Qed.

(** C50: with the mean stress given, the level is the highest one whose documented
    parameters are all given, in all cases but the modulus reduction of clayey soils. *)
Theorem C50_level_partial : forall s g m kw,
  group_of s = Some g -> kw StressMean <> None -> ~ (g = ClayeySoil /\ m = GgmaxModel) ->
  exists n, get_level m s kw = Ok (Z.of_nat n) /\ highest kw (documented g m) n.
Proof. exact wang_level. Qed.
Print Assumptions C50_level_partial.
Example C50_level_ex : group_of "nonplastic_silty_sand" = Some NonplasticSiltySand /\ ex_kw StressMean <> None.
Proof. split; [reflexivity|discriminate]. Qed.

(** C50: modulus reduction of clayey soils: with stress and fines content, which the
    documentation asks for at the second level, the code stays at the first level
    because it expects the void ratio. *)
Theorem C50_refuted : forall kw,
  kw StressMean <> None -> kw FinesCont <> None -> kw VoidRatio = None ->
  get_level GgmaxModel "clayey_soil" kw = Ok 0%Z /\ ~ highest kw (documented ClayeySoil GgmaxModel) 0.
Proof. exact clayey_level_undocumented. Qed.
Print Assumptions C50_refuted.
Example C50_refuted_ex : ex_kw StressMean <> None /\ ex_kw FinesCont <> None /\ ex_kw VoidRatio = None.
Proof. repeat split; discriminate. Qed.

(** C50: with the mean stress given, none of the four class methods raises an exception.
    *)
Theorem C50_defined : forall ss s g given kw,
  group_of s = Some g -> kw StressMean <> None ->
  (exists o, calc_shear_mod s kw = Ok o) /\ (exists o, calc_mod_reduc ss s kw = Ok o) /\
  (exists o, calc_damping_min s kw = Ok o) /\ (exists o, calc_damping ss s given kw = Ok o).
Proof. exact wang_defined. Qed.
Print Assumptions C50_defined.

(** C50: the result depends on the parameters of the level only: any other properties
    may differ. *)
Theorem C50_reads : forall m ss s g d n kw kw',
  group_of s = Some g -> highest kw (LEVELS g m) n -> highest kw' (LEVELS g m) n ->
  agree (firstn (S n) (LEVELS g m)) kw kw' -> calc_any m ss s d kw = calc_any m ss s d kw'.
Proof. exact wang_reads. Qed.
Print Assumptions C50_reads.
Example C50_reads_ex : highest ex_clay (LEVELS ClayeySoil GmaxModel) 1.
Proof.
  split; [cbn; lia|]. split; [repeat constructor; discriminate|]. intros k E. injection E as <-. reflexivity.
Qed.

(** C50: without the mean stress all four raise KeyError. *)
Theorem C50_stress_needed : forall ss s g given kw,
  group_of s = Some g -> kw StressMean = None ->
  calc_shear_mod s kw = Err KeyError /\ calc_mod_reduc ss s kw = Err KeyError /\
  calc_damping_min s kw = Err KeyError /\ calc_damping ss s given kw = Err KeyError.
Proof. exact wang_no_stress. Qed.
Print Assumptions C50_stress_needed.

(** C51: clean sand with fines and without water content: at every strain the damping
    without a given minimum is smaller than the one with the minimum damping of the same
    properties. *)
Theorem C51_refuted : forall kw p f ss,
  kw StressMean = Some p -> 0 < p -> kw FinesCont = Some f -> 0 < f <= 44 -> kw WaterCont = None ->
  in_range 44 kw -> List.Forall (fun t => 0 <= t) ss ->
  exists d us vs, calc_damping_min "clean_sand_and_gravel" kw = Ok d /\
    calc_damping ss "clean_sand_and_gravel" None kw = Ok (map Some us) /\
    calc_damping ss "clean_sand_and_gravel" (Some d) kw = Ok (map Some vs) /\
    length us = length ss /\ length vs = length ss /\
    (forall i u v, nth_error us i = Some u -> nth_error vs i = Some v -> u < v).
Proof. exact clean_sand_twice. Qed.
Print Assumptions C51_refuted.
Example C51_refuted_ex : ex_kw StressMean = Some 100 /\ ex_kw FinesCont = Some 20 /\ ex_kw WaterCont = None /\ in_range 44 ex_kw.
Proof. repeat (split; [reflexivity|]). exact ex_kw_range. Qed.

(** C51: in general the minimum damping is that of the properties after a second
    conversion from percent. *)
Theorem C51_twice : forall ss s g kw,
  group_of s = Some g -> kw StressMean <> None ->
  exists d, calc_damping_min s (to_decimal kw) = Ok d /\ calc_damping ss s None kw = calc_damping ss s (Some d) kw.
Proof. exact damping_none_twice. Qed.
Print Assumptions C51_twice.

(** C51: the property holds when no property given in percent is present, or all of them
    are zero. *)
Theorem C51_no_percent_partial : forall ss s g kw,
  group_of s = Some g -> kw StressMean <> None ->
  (forall k v, In k [FinesCont; PlasIndex; WaterCont] -> kw k = Some v -> v = 0) ->
  exists d, calc_damping_min s kw = Ok d /\ calc_damping ss s None kw = calc_damping ss s (Some d) kw.
Proof. exact damping_none_same. Qed.
Print Assumptions C51_no_percent_partial.

(** C53: for index properties in range, in every soil group and at every level: the
    values are real, lie in (0, 1] and fall with strain. *)
Theorem C53_wang_mod_reduc : forall s g kw ss,
  group_of s = Some g -> in_range (fines_limit g) kw -> List.Forall (fun t => 0 <= t) ss ->
  exists vs, calc_mod_reduc ss s kw = Ok (map Some vs) /\ List.Forall (fun v => 0 < v <= 1) vs /\ falls ss vs.
Proof. exact wang_mod_reduc_shape. Qed.
Print Assumptions C53_wang_mod_reduc.
Example C53_wang_ex : group_of "clayey_soil" = Some ClayeySoil /\ in_range (fines_limit ClayeySoil) ex_clay /\
  clayey_base ClayeySoil ex_clay /\ List.Forall (fun s : R => 0 <= s) [0; 0.001; 0.01].
Proof. split; [reflexivity|]. split; [exact ex_clay_range|]. split; [exact ex_clay_base|exact ex_strains]. Qed.

(** C53,C84: likewise the damping is real, lies between the given minimum and 21.7 % and
    rises with strain; clayey soils with all parameters need a positive fines content
    below a limit given by stress and water content. *)
Theorem C53_wang_damping : forall s g kw ss dm,
  group_of s = Some g -> in_range (fines_limit g) kw -> clayey_base g kw ->
  List.Forall (fun t => 0 <= t) ss -> 0 <= dm <= 0.12 ->
  exists vs, calc_damping ss s (Some (Some dm)) kw = Ok (map Some vs) /\
    List.Forall (fun v => dm <= v <= 0.217) vs /\ rises ss vs.
Proof. exact wang_damping_shape. Qed.
Print Assumptions C53_wang_damping.

(** C83: an unknown group gives KeyError in all four class methods and in the
    constructor; the ValueError branches are unreachable. *)
Theorem C83_refuted : forall ss s given dm strains kw,
  group_of s = None ->
  calc_shear_mod s kw = Err KeyError /\ calc_mod_reduc ss s kw = Err KeyError /\
  calc_damping_min s kw = Err KeyError /\ calc_damping ss s given kw = Err KeyError /\
  wang_init s dm strains kw = Err KeyError.
Proof. exact wang_unknown. Qed.
Print Assumptions C83_refuted.
Example C83_refuted_ex : group_of "clean_sand" = None.
Proof. reflexivity. Qed.

(** C84: the minimum damping is a positive real number, for clean sands without void
    ratio only up to 26 % water content, for clays only with a positive plasticity
    index. *)
Theorem C84_minimum_partial : forall s g kw,
  group_of s = Some g -> in_range (fines_limit g) kw ->
  (g = CleanSandGravel -> forall w, kw WaterCont = Some w -> kw VoidRatio = None -> w < 26) ->
  (g = ClayeySoil -> forall i, kw PlasIndex = Some i -> 0 < i) ->
  exists v, calc_damping_min s kw = Ok (Some v) /\ 0 < v.
Proof. exact wang_minimum_positive. Qed.
Print Assumptions C84_minimum_partial.
Example C84_minimum_ex : forall i, ex_clay PlasIndex = Some i -> 0 < i.
Proof. intros i E. injection E as <-. lra. Qed.

(** C84: the shear modulus is a positive real number, for silty sands only up to 75 %
    water content. *)
Theorem C84_shear_mod_partial : forall s g kw,
  group_of s = Some g -> in_range (fines_limit g) kw ->
  (g = NonplasticSiltySand -> forall w, kw WaterCont = Some w -> w <= 75) ->
  exists v, calc_shear_mod s kw = Ok (Some v) /\ 0 < v.
Proof. exact wang_shear_mod_positive. Qed.
Print Assumptions C84_shear_mod_partial.

(** C84: clean sand with more than 26 % water content and no void ratio: the minimum
    damping is not a real number. *)
Theorem C84_refuted : forall kw p f w,
  kw StressMean = Some p -> kw FinesCont = Some f -> kw WaterCont = Some w ->
  kw VoidRatio = None -> 26 < w -> calc_damping_min "clean_sand_and_gravel" kw = Ok None.
Proof. exact clean_sand_wet_undefined. Qed.
Print Assumptions C84_refuted.

(** C84: clayey soil whose fines content exceeds the limit: no point of the damping
    curve is a real number. *)
Theorem C84_clay_refuted : forall kw p f w i ss dm,
  kw StressMean = Some p -> kw FinesCont = Some f -> kw WaterCont = Some w ->
  kw PlasIndex = Some i -> 12 * p * KPA_TO_ATM + 5.29 * w < f ->
  calc_damping ss "clayey_soil" (Some dm) kw = Ok (map (fun _ => None) ss).
Proof. exact clayey_fines_undefined. Qed.
Print Assumptions C84_clay_refuted.
Example C84_clay_refuted_ex : 12 * 100 * KPA_TO_ATM + 5.29 * 15 < 95.
Proof. unfold KPA_TO_ATM. lra. Qed.

(** C87: in a known group the constructor raises ValueError without the mean stress, and
    otherwise its curves are the values of the class methods on all given properties. *)
Theorem C87_constructor : forall s g dm strains kw,
  group_of s = Some g ->
  match kw StressMean with
  | None => wang_init s dm strains kw = Err ValueError
  | Some _ => exists ms ds d, wang_init s dm strains kw = Ok (ms, ds) /\
      calc_mod_reduc (strains_or_default strains) s kw = Ok ms /\
      (match dm with Some x => d = Some x | None => calc_damping_min s kw = Ok d end) /\
      calc_damping (strains_or_default strains) s (Some d) kw = Ok ds
  end.
Proof. exact wang_constructor. Qed.
Print Assumptions C87_constructor.
Example C87_ex : group_of "clayey_soil" = Some ClayeySoil /\ exists p, ex_clay StressMean = Some p.
Proof. split; [reflexivity|]. eexists. reflexivity. Qed.
