(** Model of [TimeSeriesMotion] (motion.py:92-267).  [np.fft.rfft] and
    [np.fft.irfft] are written as the sums they compute; exact arithmetic.
    The caching of [pgv], [pga], [arias_intensity] and [cav] is in MotionObject.v, the
    file readers are in Text.v.  Not modelled: the random-vibration motions (pyrvt). *)
From Verif Require Import Common Model.Layer Model.Averages Model.Output.
From Coquelicot Require Import Complex.
Local Open Scope R_scope.

(** The record cropped or extended with zeros to [n] samples, as [rfft] does. *)
Definition fit (n : nat) (xs : list R) : list R := firstn n xs ++ repeat 0 (n - length xs).

(** [X_k = sum_j x_j exp(-2 pi i j k / n)] *)
Definition dft (n : nat) (xs : list R) (k : nat) : C :=
  (Rsum (map (fun j => nth j xs 0 * cos (2 * PI * INR j * INR k / INR n)) (seq 0 n)),
   - Rsum (map (fun j => nth j xs 0 * sin (2 * PI * INR j * INR k / INR n)) (seq 0 n))).

(** [np.fft.rfft(a, n)]: [n // 2 + 1] values; a length below 1 is refused. *)
Definition rfft (a : list R) (n : Z) : res (list C) :=
  if (n <? 1)%Z then Err ValueError
  else let m := Z.to_nat n in
       Ok (map (dft m (fit m a)) (seq 0 (S (m / 2)))).

(** [np.fft.irfft(A)] with [h + 1] values: [2 h] samples; only the real parts of
    the first and the last value are used.  A length below 1 is refused. *)
Definition inv_sample (h : nat) (A : list C) (j : nat) : R :=
  (Re (nth 0 A (RtoC 0)) + cos (PI * INR j) * Re (nth h A (RtoC 0)) +
   2 * Rsum (map (fun k => Re (nth k A (RtoC 0)) * cos (PI * INR j * INR k / INR h) -
                           Im (nth k A (RtoC 0)) * sin (PI * INR j * INR k / INR h)) (seq 1 (h - 1))))
  / (2 * INR h).
Definition irfft (A : list C) : res (list R) :=
  match length A with
  | O | S O => Err ValueError
  | S h => Ok (map (inv_sample h A) (seq 0 (2 * h)))
  end.

(** motion.py:232-237: [n = 1; while n < size: n <<= 1]; [fuel] bounds the
    number of doublings. *)
Fixpoint doubling (fuel n size : nat) : nat :=
  match fuel with
  | O => n
  | S f => if Nat.ltb n size then doubling f (2 * n) size else n
  end.
Definition next_length (size : nat) : nat := doubling size 1 size.

(** motion.py:92-123, 229-243. *)
Record ts_motion := mkTS { t_dt : R; t_accels : list R; t_amps : list C; t_freqs : list R }.

(** [np.arange(1 + n / 2)]: true division, so [ceil(1 + n / 2)] values. *)
Definition arange_count (n : Z) : nat := Z.to_nat (1 + (n + 1) / 2).

Definition new_motion (dt : R) (accels : list R) (fa_length : option Z) : res ts_motion :=
  let n := match fa_length with None => Z.of_nat (next_length (length accels)) | Some n => n end in
  bind (rfft accels n) (fun amps =>
  let denom := 2 * dt * (IZR n / 2) in
  if Reqb denom 0 then Err ZeroDivisionError
  else let freq_step := 1 / denom in
       Ok (mkTS dt accels amps (map (fun i => freq_step * INR i) (seq 0 (arange_count n))))).

(** motion.py:139-141 *)
Definition ts_times (m : ts_motion) : list R := map (fun i => t_dt m * INR i) (seq 0 (length (t_accels m))).

(** motion.py:151-158 *)
Definition fourier_amps (m : ts_motion) : list C := map (Cmult (RtoC (t_dt m))) (t_amps m).

(** numpy's product of a scalar or an array with an array. *)
Inductive operand := OScalar (c : C) | OArray (xs : list C).
Definition np_mul (x : operand) (ys : list C) : res (list C) :=
  match x with
  | OScalar c => Ok (map (Cmult c) ys)
  | OArray xs =>
      if Nat.eqb (length xs) (length ys) then Ok (map2 Cmult xs ys)
      else match xs, ys with
           | [c], _ => Ok (map (Cmult c) ys)
           | _, [c] => Ok (map (fun x => Cmult x c) xs)
           | _, _ => Err ValueError
           end
  end.

(** motion.py:160-165 *)
Definition calc_time_series (m : ts_motion) (tf : option operand) : res (list R) :=
  bind (match tf with None => Ok (fourier_amps m) | Some t => np_mul t (fourier_amps m) end) (fun A =>
  irfft (map (fun z => Cdiv z (RtoC (t_dt m))) A)).

(** [np.abs(ts).max()]; a response is never empty. *)
Definition peak_of (ts : list R) : R := fold_right Rmax 0 (map Rabs ts).
(** motion.py:178-184 *)
Definition calc_peak (m : ts_motion) (tf : option operand) : res R :=
  bind (calc_time_series m tf) (fun ts => Ok (peak_of ts)).

(** motion.py:167-176: [tf_av] is zero at zero frequency. *)
Definition tf_av (m : ts_motion) : list C :=
  map (fun f => let w := 2 * PI * f in
                if isclose w 0 then RtoC 0 else Cdiv (RtoC 1) (Cmult (RtoC w) Ci)) (t_freqs m).
Definition calc_pgv (m : ts_motion) (tf : option operand) : res R :=
  bind (np_mul (match tf with None => OScalar (RtoC 1) | Some t => t end) (tf_av m)) (fun t =>
  bind (calc_peak m (Some (OArray t))) (fun p => Ok (GRAVITY * 100 * p))).

(** motion.py:186-194 *)
Definition one_or (tf : option operand) : operand :=
  match tf with None => OScalar (RtoC 1) | Some t => t end.
Definition motion_arias (m : ts_motion) (tf : option operand) : res R :=
  bind (calc_time_series m (Some (one_or tf))) (fun ts => Ok (calc_arias_intensity (t_dt m) ts)).
Definition motion_cav (m : ts_motion) (tf : option operand) : res R :=
  bind (calc_time_series m (Some (one_or tf))) (fun ts => Ok (calc_cav (t_dt m) ts)).

(** motion.py:245-267, at one frequency.  Meaningful when the denominator is not
    zero; numpy gives a non-finite value otherwise (an undamped oscillator at its
    own frequency). *)
Definition sdof_tf (osc_freq damping f : R) : C :=
  Cdiv (RtoC (- osc_freq ^ 2))
       (Cminus (RtoC (f ^ 2 - osc_freq ^ 2)) (Cmult (Cmult (RtoC 2) Ci) (RtoC (damping * osc_freq * f)))).

(** motion.py:196-227, one oscillator. *)
Definition osc_accel (m : ts_motion) (damping : R) (tf : option (list C)) (osc_freq : R) : res R :=
  let t := match tf with None => map (fun _ => RtoC 1) (t_freqs m) | Some t => t end in
  bind (np_mul (OArray t) (map (sdof_tf osc_freq damping) (t_freqs m))) (fun x =>
  calc_peak m (Some (OArray x))).
Fixpoint calc_osc_accels (m : ts_motion) (osc_freqs : list R) (damping : R) (tf : option (list C)) : res (list R) :=
  match osc_freqs with
  | [] => Ok []
  | f :: rest =>
      bind (osc_accel m damping tf f) (fun a => bind (calc_osc_accels m rest damping tf) (fun r => Ok (a :: r)))
  end.
