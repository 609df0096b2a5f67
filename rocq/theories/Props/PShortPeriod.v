(** Property C158: response spectra at short periods. *)
From Verif Require Import Common Model.Layer Model.Averages Model.Output Model.Motion Model.Waves Model.Eql Model.Results.
From Verif Require Import Spec.OutputSpec Spec.MotionSpec Spec.IntensitySpec Proof.MotionFacts Proof.MotionProps Proof.OutputValues Proof.EqlFacts Proof.ResultsProps Proof.ResultsEx Proof.CplxFacts Proof.ShortPeriod.
From Coq Require Import List.
From Coquelicot Require Import Coquelicot.
Local Open Scope R_scope.

(** Three samples at 0.01 s and an oscillator of 200 Hz with 5 percent damping. *)
Lemma sp_run : exists m tf ts p s, new_motion 0.01 rx_rec None = Ok m /\ tf = map (fun _ => RtoC 1) (t_freqs m) /\
  calc_time_series m (Some (OArray tf)) = Ok ts /\ is_peak ts p /\
  calc_osc_accels m (cons 200 nil) 0.05 (Some tf) = Ok (cons s nil) /\ calc_osc_accels m (cons 200 nil) 0.05 None = Ok (cons s nil).
Proof.
  destruct rx_motion as [m Hm]. exists m, (map (fun _ => RtoC 1) (t_freqs m)).
  assert (DF : forall t, length t = length (t_freqs m) -> exists ts, calc_time_series m (Some (OArray t)) = Ok ts).
  { intros t L. eexists. apply (series_form _ _ _ _ 4 2 _ Hm rx_length); [reflexivity|reflexivity|exact L]. }
  destruct (DF (map (fun _ => RtoC 1) (t_freqs m)) (map_length _ _)) as [ts E]. exists ts, (peak_of ts).
  destruct (DF (map2 Cmult (map (fun _ => RtoC 1) (t_freqs m)) (map (sdof_tf 200 0.05) (t_freqs m)))) as [t2 E2].
  { rewrite map2_len; rewrite !map_length; reflexivity. }
  exists (peak_of t2). split; [exact Hm|]. split; [reflexivity|]. split; [exact E|].
  assert (N : ts <> nil).
  { intros Z. pose proof (series_form _ _ _ _ 4 2 _ Hm rx_length eq_refl eq_refl (map_length (fun _ => RtoC 1) (t_freqs m))) as F.
    rewrite E in F. injection F as F. rewrite Z in F. discriminate F. }
  split; [now apply peak_of_spec|].
  cbn [calc_osc_accels]. unfold osc_accel, np_mul. rewrite !map_length, Nat.eqb_refl. cbn [bind]. unfold calc_peak. rewrite E2. now split.
Qed.

(** C158: for a transfer function of at most g, the spectral acceleration of an
    oscillator stiffer than the highest frequency of the record differs from the peak of
    the response by at most g (r^2 + 2 xi r) / (1 - r^2) times the root of the sum of
    squares of the padded record, r being the ratio of the two frequencies. *)
Theorem C158_response : forall dt a fa m n rec tf ts p g xi f0 s,
  new_motion dt a fa = Ok m -> fft_length (length a) fa n -> Z.even n = true ->
  is_padded (Z.to_nat n) a rec -> length tf = length (t_freqs m) -> List.Forall (fun t => Cmod t <= g) tf ->
  calc_time_series m (Some (OArray tf)) = Ok ts -> is_peak ts p ->
  0 < dt -> 0 < xi -> / (2 * dt) < f0 -> calc_osc_accels m (cons f0 nil) xi (Some tf) = Ok (cons s nil) ->
  let r := / (2 * dt) / f0 in
  Rabs (s - p) <= g * ((r ^ 2 + 2 * xi * r) / (1 - r ^ 2)) * sqrt (energy rec).
Proof. exact stiff_oscillator. Qed.
Print Assumptions C158_response.

(** C158: so the spectrum of the record itself differs from its peak acceleration by at
    most that with g = 1. *)
Theorem C158_record : forall dt a fa m n p xi f0 s,
  a <> nil -> new_motion dt a fa = Ok m -> fft_length (length a) fa n -> Z.even n = true ->
  (Z.of_nat (length a) <= n)%Z -> is_peak a p ->
  0 < dt -> 0 < xi -> / (2 * dt) < f0 -> calc_osc_accels m (cons f0 nil) xi None = Ok (cons s nil) ->
  let r := / (2 * dt) / f0 in
  Rabs (s - p) <= (r ^ 2 + 2 * xi * r) / (1 - r ^ 2) * sqrt (energy a).
Proof. exact stiff_record. Qed.
Print Assumptions C158_record.
Example C158_record_ex : exists m s, new_motion 0.01 rx_rec None = Ok m /\ fft_length (length rx_rec) None 4 /\
  is_peak rx_rec 3 /\ / (2 * 0.01) < 200 /\ calc_osc_accels m (cons 200 nil) 0.05 None = Ok (cons s nil).
Proof.
  destruct sp_run as (m & tf & ts & p & s & H & _ & _ & _ & _ & E). exists m, s. split; [exact H|]. split; [exact rx_length|].
  split; [|split; [lra|exact E]]. split; [exists 3; split; [cbn; auto|rewrite Rabs_pos_eq; lra]|].
  intros x [<-|[<-|[<-|[]]]]; [rewrite Rabs_pos_eq; lra|rewrite Rabs_left; lra|rewrite Rabs_pos_eq; lra].
Qed.

(** C158: the spectral accelerations of a response approach its peak as the oscillators
    get stiffer. *)
Theorem C158_limit : forall dt a fa m n tf ts p xi,
  new_motion dt a fa = Ok m -> fft_length (length a) fa n -> Z.even n = true ->
  length tf = length (t_freqs m) -> calc_time_series m (Some (OArray tf)) = Ok ts -> is_peak ts p -> 0 < dt -> 0 < xi ->
  forall eps, 0 < eps -> exists F, forall f0 s, F < f0 ->
    calc_osc_accels m (cons f0 nil) xi (Some tf) = Ok (cons s nil) -> Rabs (s - p) < eps.
Proof. exact stiff_limit. Qed.
Print Assumptions C158_limit.
Example C158_limit_ex : exists m tf ts p, new_motion 0.01 rx_rec None = Ok m /\ length tf = length (t_freqs m) /\
  calc_time_series m (Some (OArray tf)) = Ok ts /\ is_peak ts p.
Proof.
  destruct sp_run as (m & tf & ts & p & s & H & -> & E & P & _). exists m. eexists. exists ts, p.
  split; [exact H|]. split; [apply map_length|]. split; [exact E|exact P].
Qed.
