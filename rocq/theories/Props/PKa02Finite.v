(** Property C170: when the published spectral shape gives finite strains. *)
From Verif Require Import Common Model.Curve Model.Layer Model.Eql Model.Text Model.Fdm.
From Verif Require Import Spec.LayerSpec Spec.FdmSpec Spec.PolylineSpec Proof.FdmFacts Proof.Polyline Proof.Ka02Finite.
From Coq Require Import List.
From Coquelicot Require Import Coquelicot.
Local Open Scope R_scope.
Local Open Scope R_scope.

(** C170: for ascending non-negative frequencies and amplitudes that are positive (the
    first may be zero), the strain spectrum of [ka02] is finite exactly when the second
    frequency lies below the mean frequency, the ratio of the area below frequency times
    amplitude to the area below the amplitude. *)
Theorem C170_iff : forall F f0 f1 fs a0 a1 amps eff,
  x_method F = KA02 -> length fs = length amps ->
  ascending (f0 :: f1 :: fs) -> 0 <= f0 -> 0 <= a0 -> 0 < a1 -> List.Forall (fun a => 0 < a) amps ->
  exists A0 A1 o,
    area_below (combine (f0 :: f1 :: fs) (a0 :: a1 :: amps)) A0 /\
    area_below (map (fun p => (fst p, fst p * snd p)) (combine (f0 :: f1 :: fs) (a0 :: a1 :: amps))) A1 /\ 0 < A0 /\
    strain_spectrum F (f0 :: f1 :: fs) (a0 :: a1 :: amps) eff = Ok o /\
    (o <> None <-> f1 < A1 / A0).
Proof. exact ka02_finite_iff. Qed.
Print Assumptions C170_iff.

(** Both outcomes occur: a spectrum of five equal amplitudes at 1 to 5 Hz is finite, one
    of two frequencies is not. *)
Example C170_ex : forall lsq eff, exists ss,
  strain_spectrum (mkFdm KA02 0.65 0.01 15 None lsq (fun _ _ xs => xs))
    (cons 1 (cons 2 (cons 3 (cons 4 (cons 5 nil))))) (cons 1 (cons 1 (cons 1 (cons 1 (cons 1 nil))))) eff = Ok (Some ss).
Proof.
  intros lsq eff.
  assert (A : ascending (cons 1 (cons 2 (cons 3 (cons 4 (cons 5 nil)))))).
  { intros [|[|[|[|[|i]]]]] x y E E'; cbn in E, E'; try discriminate; try (destruct i; discriminate); injection E as <-; injection E' as <-; lra. }
  destruct (C170_iff (mkFdm KA02 0.65 0.01 15 None lsq (fun _ _ xs => xs)) 1 2 (cons 3 (cons 4 (cons 5 nil))) 1 1 (cons 1 (cons 1 (cons 1 nil))) eff)
    as (A0 & A1 & o & E0 & E1 & P & E & H); [reflexivity|reflexivity|exact A|lra|lra|lra|repeat constructor; lra|].
  apply trapz_area in E0; [|exact A]. apply trapz_area in E1; [|exact A]. cbn in E0, E1.
  assert (V0 : A0 = 4) by lra. assert (V1 : A1 = 12) by lra.
  destruct o as [ss|]; [now exists ss|exfalso]. apply (proj2 H); [|reflexivity]. rewrite V0, V1. lra.
Qed.

(** C170: with two frequencies the strains are never finite. *)
Theorem C170_two : forall F f0 f1 a0 a1 eff,
  x_method F = KA02 -> 0 <= f0 -> f0 < f1 -> 0 <= a0 -> 0 < a1 ->
  strain_spectrum F (cons f0 (cons f1 nil)) (cons a0 (cons a1 nil)) eff = Ok None.
Proof. exact ka02_two. Qed.
Print Assumptions C170_two.
Example C170_two_ex : strain_spectrum (mkFdm KA02 0.65 0.01 15 None (fun _ _ => (0, 0)) (fun _ _ xs => xs)) (cons 0 (cons 1 nil)) (cons 0 (cons 1 nil)) 1 = Ok None.
Proof. apply C170_two; [reflexivity|lra|lra|lra|lra]. Qed.
