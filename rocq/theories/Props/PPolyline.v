(** Properties C30 and C104: strains of a run at every frequency; the published spectral shape in full. *)
From Verif Require Import Common Model.Curve Model.Layer Model.Cplx Model.Waves Model.Eql Model.Motion Model.Text Model.Fdm.
From Verif Require Import Spec.LayerSpec Spec.WaveSpec Spec.EqlSpec Spec.FdmSpec Spec.PolylineSpec Proof.CommonFacts Proof.HyperbolicFacts Proof.EqlFacts Proof.EqlRefute Proof.FdmFacts Proof.FdmEx Proof.StrainRows Proof.Polyline.
From Coq Require Import List.
From Coquelicot Require Import Coquelicot.
Local Open Scope R_scope.

(** C30: the array of strain transfer functions has one entry per frequency, the strain
    transfer function of that frequency. *)
Theorem C30_rows : forall m n waves lin lout tf,
  calc_strain_tfs m n waves lin lout = Ok tf ->
  length tf = Nat.min (length (m_freqs m)) (length waves) /\
  forall k w rs, nth_error (m_freqs m) k = Some w -> nth_error waves k = Some rs -> Rabs w <> 1e-8 ->
    exists t, nth_error tf k = Some t /\ calc_strain_tf rs w lin lout = Ok (Some t).
Proof. exact strain_rows. Qed.
Print Assumptions C30_rows.

(** C30: after the waves of a site have been computed at all frequencies, every entry of
    the strain transfer function is the depth derivative of g / (-w^2) times the
    acceleration transfer function at that frequency. *)
Theorem C30_run : forall m ls waves lin i z tf,
  calc_waves m ls = Ok waves ->
  List.Forall (fun l => wl_vel (wlayer_of l) <> RtoC 0) ls -> (i < length ls)%nat ->
  calc_strain_tfs m (length ls) waves lin (mkLoc i z Within) = Ok tf ->
  forall k w, nth_error (m_freqs m) k = Some w -> 1e-8 < Rabs w ->
  exists rs, nth_error waves k = Some rs /\ forall xin,
  wave_at_location rs lin = Ok (Some xin) -> xin <> RtoC 0 ->
  exists st acc, nth_error tf k = Some st /\
    (forall x, calc_accel_tf rs lin (mkLoc i x Within) = Ok (Some (acc x))) /\
    cderive (fun x => Cmult (RtoC (GRAVITY / (- (w * w)))) (acc x)) z st.
Proof. exact strain_rows_derivative. Qed.
Print Assumptions C30_run.
Example C30_run_ex : exists waves, calc_waves soft_motion dc_site = Ok waves /\
  calc_strain_tfs soft_motion 2 waves soft_input (mkLoc 0 (l_thick dc_layer / 2) Within) = Ok (cons (RtoC dc_tf) nil) /\ 0 < dc_tf /\
  nth_error (m_freqs soft_motion) 0 = Some 1.
Proof.
  destruct (dc_run 15 ltac:(lia)) as (wv & _ & H & _). rewrite fwaves_of in H. exists wv. split; [exact H|].
  split; [now apply dc_strain_tf|]. split; [exact (proj1 dc_tf_pos)|reflexivity].
Qed.

(** C104: the sum of trapezoids is the area below the straight lines through the points,
    and no other number is. *)
Theorem C104_area : forall pts A,
  ascending (map fst pts) -> area_below pts A <-> A = trapz (map fst pts) (map snd pts).
Proof. exact trapz_area. Qed.
Print Assumptions C104_area.
Example C104_area_ex : area_below (cons (0, 1) (cons (1, 3) (cons (3, 0) nil))) 5.
Proof.
  apply C104_area; [|cbn; lra]. intros [|[|[|i]]] x y E E'; cbn in E, E'; try discriminate;
    injection E as <-; injection E' as <-; lra.
Qed.

(** C104: ka02: the frequency that normalises the spectrum is the ratio of two areas;
    the points from that frequency on are fitted after division by the area below the
    lower points over that frequency; the strain at every frequency follows from the two
    fitted numbers. *)
Theorem C104_ka02_full : forall F freqs fas eff ss,
  x_method F = KA02 -> length freqs = length fas -> ascending freqs ->
  strain_spectrum F freqs fas eff = Ok (Some ss) ->
  exists A0 A1 A2 avg savg low high a b,
    area_below (combine freqs fas) A0 /\
    area_below (map (fun p => (fst p, fst p * snd p)) (combine freqs fas)) A1 /\ A0 <> 0 /\ avg = A1 / A0 /\
    combine freqs fas = low ++ high /\ List.Forall (fun p => fst p < avg) low /\ List.Forall (fun p => avg <= fst p) high /\
    area_below low A2 /\ savg = A2 / avg /\
    List.Forall (fun p => 0 < fst p / avg /\ 0 < snd p / savg) high /\
    x_lsq F (map (fun p => (- (fst p / avg), - ln (fst p / avg))) high) (map (fun p => ln (snd p / savg)) high) = (a, b) /\
    length ss = length freqs /\
    forall i f, nth_error freqs i = Some f ->
      (0 < f / avg /\ nth_error ss i = Some (eff * Rmin 1 (exp (- a * (f / avg)) / Rmax (/ 2 ^ 52) (Rpower (f / avg) b)))) \/
      (f = 0 /\ (0 <= b -> nth_error ss i = Some eff) /\ (b < 0 -> nth_error ss i = Some 0)).
Proof. exact ka02_full. Qed.
Print Assumptions C104_ka02_full.
Definition shape_fdm : fdm := mkFdm KA02 0.65 0.01 15 (Some 0.05) (fun _ _ => (1, 0)) (fun _ _ xs => xs).
Example C104_ka02_full_ex : ascending (cons 0 (cons 1 (cons 4 nil))) /\
  exists ss, strain_spectrum shape_fdm (cons 0 (cons 1 (cons 4 nil))) (cons 1 (cons 1 (cons 1 nil))) 0.01 = Ok (Some ss).
Proof.
  split.
  - intros [|[|[|i]]] x y E E'; cbn in E, E'; try discriminate; injection E as <-; injection E' as <-; lra.
  - unfold strain_spectrum. change (text_eqb (x_method shape_fdm) KA02) with true. unfold ka02.
    cbn [trapz Averages.map2 combine map fst snd]. rewrite div_opt_ne by lra. cbn [opt_bind].
    set (avg := _ / _). assert (Ea : avg = 2) by (unfold avg; lra). clearbody avg. subst avg.
    cbn [filter fst snd]. rewrite (proj2 (Rltb_true 0 2)), (proj2 (Rltb_true 1 2)), (proj2 (Rltb_false 4 2)) by lra.
    cbn [negb map fst snd trapz]. rewrite div_opt_ne by lra. cbn [opt_bind map_opt fst snd].
    rewrite !div_opt_ne by lra. cbn [opt_bind]. unfold ln_opt. rewrite !(proj2 (Rltb_true _ _)) by lra. cbn [opt_bind].
    cbn [shape_fdm x_lsq fst snd map_opt]. unfold ka02_shape at 1. rewrite (proj2 (Rltb_false 0 (0 / 2))) by lra.
    unfold Reqb at 1. destruct (Req_EM_T (0 / 2) 0); [|lra]. cbn [opt_bind]. unfold ka02_shape.
    rewrite !(proj2 (Rltb_true _ _)) by lra. cbn [opt_bind]. eexists. reflexivity.
Qed.
