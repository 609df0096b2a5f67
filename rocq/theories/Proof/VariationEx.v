(** A profile for the examples: 10 m and 20 m of sand on rock, the rock layer with its
    own minimum damping. *)
From Coq Require Import String.
From Verif Require Import Common Model.Curve Model.Layer Model.Profile Model.Gauss Model.Variation
  Spec.ProfileSpec Spec.VariationSpec Proof.CommonFacts.
Local Open Scope R_scope.

Definition ex_sand : soil := mkSoil 0 "Sand" 18
  (Some (mkCurve 0 [0.0001; 0.01; 1] [1; 0.6; 0.1] 0 1)) (DCurve (mkCurve 1 [0.0001; 0.01; 1] [0.01; 0.05; 0.2] 0 1)).
Definition ex_rock : soil := mkSoil 0 "Rock" 22 None (DConst 0.01).
Definition ex_heap (a : nat) : layer :=
  match a with
  | 0%nat => set_pos (layer_make ex_sand 10 200 0.01) 0 0 0
  | 1%nat => set_pos (layer_make ex_sand 20 400 0.01) 0 10 180
  | _ => set_pos (layer_make ex_rock 0 800 0.005) 0 30 540
  end.
Definition ex_w : world := mkWorld ex_heap 3 (fun _ => mkProfile [0; 1; 2]%nat 5) 1.

Lemma ex_view : view ex_w 0 = [ex_heap 0; ex_heap 1; ex_heap 2].
Proof. reflexivity. Qed.
Lemma ex_allocated : allocated ex_w 0.
Proof. intros a [<-|[<-|[<-|[]]]]; cbn; lia. Qed.
Lemma ex_nodup : NoDup (layers_of ex_w 0).
Proof. repeat constructor; cbn; intuition congruence. Qed.
Lemma ex_thick_ok : List.Forall (fun l => 0 <= l_thick l) (view ex_w 0).
Proof. rewrite ex_view. repeat (apply Forall_cons; [cbn; lra|]). apply Forall_nil. Qed.
Lemma ex_depths : depths_cumulative (view ex_w 0).
Proof.
  rewrite ex_view. intros above l below E. destruct above as [|a [|b [|c above]]]; cbn in E.
  - injection E as <- _. cbn. lra.
  - injection E as <- <- _. cbn. lra.
  - injection E as <- <- <- _. cbn. lra.
  - injection E as <- <- <- E. destruct above; discriminate.
Qed.
Lemma ex_unstrained : List.Forall (fun l => 0 < s_unit_wt (l_soil l) /\ 0 <= l_vs l /\ shear_mod l = initial_shear_mod l) (view ex_w 0).
Proof. rewrite ex_view. repeat (apply Forall_cons; [split; [cbn; lra|split; [cbn; lra|reflexivity]]|]). apply Forall_nil. Qed.
Lemma ex_total : total_thick (removelast (view ex_w 0)) = 30.
Proof. rewrite ex_view. cbn. lra. Qed.
