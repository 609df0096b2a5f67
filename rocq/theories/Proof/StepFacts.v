(** The layer-by-layer sum is the Riemann integral. *)
From Coquelicot Require Import Coquelicot.
From Verif Require Import Common Spec.StepSpec Proof.CommonFacts.
Local Open Scope R_scope.

Lemma scal1 (x : R) : x = scal 1 x.
Proof. unfold scal; cbn; unfold mult; cbn; ring. Qed.

Lemma step_int_is_RInt l : forall d,
  l <> [] -> Forall (fun p => 0 <= fst p) l -> 0 <= d ->
  is_RInt (step_fun l) 0 d (step_int l d).
Proof.
  induction l as [|[t v] rest IH]; intros d Hne Hpos Hd; [contradiction|].
  inversion Hpos as [|? ? Ht Hpos']; subst. cbn [fst] in Ht.
  destruct rest as [|p rest].
  - cbn [step_fun step_int]. replace (d * v) with (scal (d - 0) v) by (cbn; unfold mult; cbn; ring).
    apply (is_RInt_const 0 d v).
  - set (tail := p :: rest) in *. change (step_int ((t, v) :: tail) d)
      with (if Rle_dec d t then d * v else t * v + step_int tail (d - t)).
    change (step_fun ((t, v) :: tail))
      with (fun z => if Rlt_dec z t then v else step_fun tail (z - t)).
    assert (Hin : forall b, 0 <= b -> b <= t ->
              is_RInt (fun z => if Rlt_dec z t then v else step_fun tail (z - t)) 0 b (b * v)).
    { intros b Hb0 Hb. apply (is_RInt_ext (fun _ => v)).
      - intros x [_ Hx]. rewrite Rmax_right in Hx by lra.
        destruct (Rlt_dec x t); [reflexivity|lra].
      - replace (b * v) with (scal (b - 0) v) by (cbn; unfold mult; cbn; ring).
        apply (is_RInt_const 0 b v). }
    destruct (Rle_dec d t) as [Hle|Hgt].
    + apply Hin; assumption.
    + apply Rnot_le_lt in Hgt.
      apply (is_RInt_Chasles _ 0 t d (t * v) (step_int tail (d - t))).
      * apply Hin; lra.
      * apply (is_RInt_ext (fun y => scal 1 (step_fun tail (1 * y + - t)))).
        -- intros x [Hx _]. rewrite Rmin_left in Hx by lra.
           destruct (Rlt_dec x t); [lra|].
           replace (1 * x + - t) with (x - t) by ring.
           symmetry. apply scal1.
        -- apply (is_RInt_comp_lin (step_fun tail) 1 (- t) t d). replace (1 * t + - t) with 0 by ring.
           replace (1 * d + - t) with (d - t) by ring.
           apply IH; [discriminate|exact Hpos'|lra].
Qed.

Lemma step_int_RInt l d :
  l <> [] -> Forall (fun p => 0 <= fst p) l -> 0 <= d ->
  RInt (step_fun l) 0 d = step_int l d.
Proof. intros. apply is_RInt_unique, step_int_is_RInt; assumption. Qed.

Lemma step_int_cons t v p rest d :
  step_int ((t, v) :: p :: rest) d =
  if Rle_dec d t then d * v else t * v + step_int (p :: rest) (d - t).
Proof. reflexivity. Qed.

Lemma step_int_0 l : Forall (fun p => 0 <= fst p) l -> step_int l 0 = 0.
Proof.
  induction l as [|[t v] rest IH]; intros H; [reflexivity|].
  inversion H as [|? ? Ht H']; subst. cbn [fst] in Ht.
  destruct rest as [|p rest]; [cbn; ring|].
  rewrite step_int_cons. destruct (Rle_dec 0 t); [ring|lra].
Qed.

(** Bounds. *)
Lemma step_int_bounds l lo hi : forall d,
  l <> [] -> Forall (fun p => 0 <= fst p) l -> 0 <= d ->
  Forall (fun p => lo <= snd p <= hi) l ->
  d * lo <= step_int l d <= d * hi.
Proof.
  induction l as [|[t v] rest IH]; intros d Hne Hpos Hd Hb; [contradiction|].
  inversion Hpos as [|? ? Ht Hpos']; inversion Hb as [|? ? Hv Hb']; subst. cbn [fst snd] in *.
  destruct rest as [|p rest].
  - cbn. split; apply Rmult_le_compat_l; lra.
  - rewrite step_int_cons. destruct (Rle_dec d t) as [Hle|Hgt].
    + split; apply Rmult_le_compat_l; lra.
    + apply Rnot_le_lt in Hgt.
      assert (Hne' : p :: rest <> []) by discriminate.
      assert (Hd' : 0 <= d - t) by lra.
      specialize (IH (d - t) Hne' Hpos' Hd' Hb').
      assert (t * lo <= t * v <= t * hi) by (split; apply Rmult_le_compat_l; lra). lra.
Qed.

(** A stack whose values are scaled. *)
Lemma step_int_scal c l : forall d,
  step_int (map (fun p => (fst p, c * snd p)) l) d = c * step_int l d.
Proof.
  induction l as [|[t v] rest IH]; intros d; [cbn; ring|].
  destruct rest as [|p rest]; [cbn; ring|].
  cbn [map fst snd] in *. rewrite !step_int_cons. destruct (Rle_dec d t); [ring|].
  rewrite IH. ring.
Qed.
