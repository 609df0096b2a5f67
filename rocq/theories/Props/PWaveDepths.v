(** Property C23: motions and strains at every depth of a refined profile. *)
From Verif Require Import Common Model.Curve Model.Layer Model.Profile Model.Cplx Model.Waves.
From Verif Require Import Spec.ProfileSpec Spec.WaveSpec Spec.DepthSpec Proof.CommonFacts Proof.CplxFacts Proof.LayerFacts Proof.ProfileFacts Proof.ProfileOps Proof.ProfileProps Proof.WaveFacts Proof.WaveProps Proof.WaveDepths.
From Coq Require Import List.
From Coquelicot Require Import Complex.
Local Open Scope R_scope.

(** C23: after any number of splits the acceleration and strain transfer functions
    between any two depths, for every kind of motion, are those of the layers before. *)
Theorem C23_depths : forall w ls ls' rs,
  finer ls ls' -> List.Forall (fun l => 0 <= wl_thick l) (removelast ls') -> calc_waves_python w ls = Ok rs ->
  exists rs', calc_waves_python w ls' = Ok rs' /\
  forall z1 z2 i1 u1 i2 u2 j1 v1 j2 v2 f1 f2,
    at_depth ls z1 i1 u1 -> at_depth ls z2 i2 u2 -> at_depth ls' z1 j1 v1 -> at_depth ls' z2 j2 v2 ->
    calc_accel_tf rs' (mkLoc j1 v1 f1) (mkLoc j2 v2 f2) = calc_accel_tf rs (mkLoc i1 u1 f1) (mkLoc i2 u2 f2) /\
    calc_strain_tf rs' w (mkLoc j1 v1 f1) (mkLoc j2 v2 f2) = calc_strain_tf rs w (mkLoc i1 u1 f1) (mkLoc i2 u2 f2).
Proof. exact finer_depths. Qed.
Print Assumptions C23_depths.
Definition wd_whole : list wlayer := cons (mkWL (RtoC 200) (RtoC 40000) 4) (cons (mkWL (RtoC 800) (RtoC 640000) 0) nil).
Definition wd_parts : list wlayer :=
  cons (mkWL (RtoC 200) (RtoC 40000) 1) (cons (mkWL (RtoC 200) (RtoC 40000) 3) (cons (mkWL (RtoC 800) (RtoC 640000) 0) nil)).
Example C23_depths_ex : exists rs rs', calc_waves_python 5 wd_whole = Ok rs /\ calc_waves_python 5 wd_parts = Ok rs' /\
  calc_strain_tf rs' 5 (mkLoc 2 0 Outcrop) (mkLoc 1 1 Within) = calc_strain_tf rs 5 (mkLoc 1 0 Outcrop) (mkLoc 0 2 Within).
Proof.
  assert (HF : finer wd_whole wd_parts).
  { pose proof (finer_split nil (RtoC 200) (RtoC 40000) (cons 1 (cons 3 nil)) (cons (mkWL (RtoC 800) (RtoC 640000) 0) nil) wd_parts) as H.
    cbn [app map] in H. replace (Rsum (cons 1 (cons 3 nil))) with 4 in H by (unfold Rsum; cbn; lra).
    apply H; [discriminate|discriminate|apply RtoC_neq_0; lra|apply RtoC_neq_0; lra|apply finer_refl]. }
  destruct (calc_waves_python 5 wd_whole) as [rs|] eqn:E; [|discriminate E].
  destruct (C23_depths 5 wd_whole wd_parts rs HF) as (rs' & E' & H); [cbn; repeat (apply Forall_cons; [cbn; lra|]); apply Forall_nil|exact E|].
  exists rs, rs'. split; [reflexivity|]. split; [exact E'|].
  apply (H 4 2 1%nat 0 0%nat 2 2%nat 0 1%nat 1 Outcrop Within).
  - exists (cons (mkWL (RtoC 200) (RtoC 40000) 4) nil), (mkWL (RtoC 800) (RtoC 640000) 0), nil. cbn. repeat split; try lra. now intros [].
  - exists nil, (mkWL (RtoC 200) (RtoC 40000) 4), (cons (mkWL (RtoC 800) (RtoC 640000) 0) nil). cbn. repeat split; try lra.
  - exists (cons (mkWL (RtoC 200) (RtoC 40000) 1) (cons (mkWL (RtoC 200) (RtoC 40000) 3) nil)), (mkWL (RtoC 800) (RtoC 640000) 0), nil.
    cbn. repeat split; try lra. now intros [].
  - exists (cons (mkWL (RtoC 200) (RtoC 40000) 1) nil), (mkWL (RtoC 200) (RtoC 40000) 3), (cons (mkWL (RtoC 800) (RtoC 640000) 0) nil).
    cbn. repeat split; try lra.
Qed.

(** C23,C14: auto_discretize keeps the motions and strains of a linear analysis at every
    depth, for unstrained profiles, at every frequency. *)
Theorem C23_discretised_depths : forall w p f wf nl w' q freq,
  (forall a, In a (layers_of w p) -> (a < w_next w)%nat) -> NoDup (layers_of w p) ->
  layers_of w p <> [] -> List.Forall site_ok (removelast (view w p)) -> 0 < f -> 0 < wf ->
  List.Forall (fun l => shear_vel l = l_vs l) (removelast (view w p)) ->
  auto_discretize w p f wf nl = (w', Ok q) ->
  forall rs, linear_elastic true freq (view w p) = Ok rs ->
  exists rs', linear_elastic true freq (view w' q) = Ok rs' /\
  forall z1 z2 i1 u1 i2 u2 j1 v1 j2 v2 f1 f2,
    contains_depth (view w p) z1 i1 u1 -> contains_depth (view w p) z2 i2 u2 ->
    contains_depth (view w' q) z1 j1 v1 -> contains_depth (view w' q) z2 j2 v2 ->
    calc_accel_tf rs' (mkLoc j1 v1 f1) (mkLoc j2 v2 f2) = calc_accel_tf rs (mkLoc i1 u1 f1) (mkLoc i2 u2 f2) /\
    calc_strain_tf rs' freq (mkLoc j1 v1 f1) (mkLoc j2 v2 f2) = calc_strain_tf rs freq (mkLoc i1 u1 f1) (mkLoc i2 u2 f2).
Proof. exact discretize_depths. Qed.
Print Assumptions C23_discretised_depths.
