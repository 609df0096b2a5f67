(** Refinement of the heap model to the abstract description. *)
From Coq Require Import String.
From Verif Require Import Common Model.Curve Model.Layer Model.Profile
  Spec.LayerSpec Spec.ProfileSpec Spec.HistorySpec Spec.AbstractProfile
  Proof.CommonFacts Proof.LayerFacts Proof.ProfileFacts.
Local Open Scope R_scope.

(** Operations that raise before doing anything are left out of the abstract
    history: a layer whose default damping cannot be read. *)
Definition op_defined (o : op) : Prop :=
  match o with
  | ONewLayer s _ _ None => exists d, soil_damping_min s = Ok d
  | _ => True
  end.

Record refines (m : amodel) (w : world) : Prop := {
  rf_next : a_next m = w_next w;
  rf_pnext : a_pnext m = w_pnext w;
  rf_wt : forall p, a_wt m p = p_wt (w_profs w p);
  rf_layers : forall p, a_layers m p = layers_of w p;
  rf_thick : forall a, (a < w_next w)%nat -> a_thick m a = l_thick (w_heap w a);
  rf_uwt : forall a, (a < w_next w)%nat -> a_uwt m a = s_unit_wt (l_soil (w_heap w a))
}.

Lemma refines_core m w w' :
  refines m w -> w_next w' = w_next w -> w_pnext w' = w_pnext w -> w_profs w' = w_profs w ->
  (forall b, same_core (w_heap w b) (w_heap w' b)) -> refines m w'.
Proof.
  intros R E1 E2 E3 Hc. destruct R as [R1 R2 Rw R3 R4 R5]. constructor; rewrite ?E1, ?E2; auto.
  - intros p. rewrite E3. apply Rw.
  - intros p. unfold layers_of. rewrite E3. apply R3.
  - intros a Ha. destruct (Hc a) as (_ & <- & _). auto.
  - intros a Ha. destruct (Hc a) as (<- & _). auto.
Qed.
Lemma refines_update m w p start : refines m w -> refines m (fst (update_layers w p start)).
Proof.
  intros R. destruct (update_layers_frame w p start) as (F1 & F2 & F3).
  eapply refines_core; eauto. intros; apply update_layers_core.
Qed.

Lemma refines_alloc m w l :
  refines m w -> refines (acreate m (l_thick l) (s_unit_wt (l_soil l))) (fst (alloc_layer w l)).
Proof.
  intros [R1 R2 Rw R3 R4 R5].
  constructor; unfold alloc_layer, acreate; cbn [fst w_next w_pnext w_heap a_next a_pnext a_thick a_uwt a_layers a_wt w_profs]; auto.
  - intros a Ha. unfold upd, hset. rewrite R1. destruct (Nat.eqb_spec a (w_next w)); [reflexivity|]. apply R4. lia.
  - intros a Ha. unfold upd, hset. rewrite R1. destruct (Nat.eqb_spec a (w_next w)); [reflexivity|]. apply R5. lia.
Qed.

Lemma fold_acreate_layers {A} (f g : A -> R) l : forall m,
  let m1 := fold_left (fun x b => acreate x (f b) (g b)) l m in
  a_layers m1 = a_layers m /\ a_pnext m1 = a_pnext m /\ a_wt m1 = a_wt m.
Proof.
  induction l as [|b l IH]; intros m; [repeat split; reflexivity|].
  cbn [fold_left]. exact (IH (acreate m (f b) (g b))).
Qed.

Lemma refines_alloc_layers ls : forall m w,
  refines m w ->
  refines (fold_left (fun x l => acreate x (l_thick l) (s_unit_wt (l_soil l))) ls m) (fst (alloc_layers w ls)) /\
  snd (alloc_layers w ls) = seq (w_next w) (length ls).
Proof.
  induction ls as [|l ls IH]; intros m w R; [split; [exact R|reflexivity]|].
  pose proof (refines_alloc m w l R) as R1. cbn [alloc_layers fold_left].
  destruct (alloc_layer w l) as [w1 a] eqn:E1. cbn [fst] in R1.
  destruct (IH _ _ R1) as [R2 R3]. destruct (alloc_layers w1 ls) as [w2 addrs]. cbn [fst snd] in *.
  split; [exact R2|]. injection E1 as <- <-. cbn [w_next] in R3. rewrite R3. reflexivity.
Qed.

Lemma refines_set_prof m w p addrs :
  refines m w ->
  refines (mkA (a_thick m) (a_uwt m) (a_next m) (upd (a_layers m) p addrs) (a_wt m) (a_pnext m))
    (set_prof w p (mkProfile addrs (p_wt (w_profs w p)))).
Proof.
  intros [R1 R2 Rw R3 R4 R5]. constructor; auto.
  { intros q. unfold set_prof; cbn. destruct (Nat.eqb_spec q p) as [->|]; apply Rw. } intros q. unfold layers_of, set_prof, upd; cbn.
  destruct (Nat.eqb q p); [reflexivity|]. apply R3.
Qed.
Lemma refines_new_profile m w addrs wt :
  refines m w ->
  refines (mkA (a_thick m) (a_uwt m) (a_next m) (upd (a_layers m) (a_pnext m) addrs)
      (upd (a_wt m) (a_pnext m) wt) (S (a_pnext m)))
    (fst (new_profile w addrs wt)).
Proof.
  intros [R1 R2 Rw R3 R4 R5]. unfold new_profile; cbn [fst]. apply refines_update.
  constructor; cbn; auto; intros q; unfold layers_of, upd; cbn; rewrite R2;
    (destruct (Nat.eqb q (w_pnext w)); [reflexivity|]); [apply Rw|apply R3].
Qed.

Lemma refines_ext m m' w :
  (forall a, a_thick m' a = a_thick m a) -> (forall a, a_uwt m' a = a_uwt m a) ->
  a_next m' = a_next m -> (forall p, a_layers m' p = a_layers m p) ->
  (forall p, a_wt m' p = a_wt m p) -> a_pnext m' = a_pnext m ->
  refines m w -> refines m' w.
Proof.
  intros E1 E2 E3 E4 E6 E5 [R1 R2 Rw R3 R4 R5]. constructor; [congruence|congruence| | | |].
  - intros p. rewrite E6. apply Rw.
  - intros p. rewrite E4. apply R3.
  - intros a Ha. rewrite E1. auto.
  - intros a Ha. rewrite E2. auto.
Qed.

Lemma fold_acreate_ext {A B} (f g : A -> R) (f' g' : B -> R) (h : A -> B) l : forall m,
  (forall x, In x l -> f x = f' (h x) /\ g x = g' (h x)) ->
  fold_left (fun x b => acreate x (f b) (g b)) l m =
  fold_left (fun x b => acreate x (f' b) (g' b)) (map h l) m.
Proof.
  induction l as [|b l IH]; intros m H; [reflexivity|]. cbn [fold_left map].
  destruct (H b (or_introl eq_refl)) as [-> ->]. apply IH. intros x Hx. apply H. now right.
Qed.

Lemma step_refines m w o :
  Inv w -> admissible w o -> op_defined o -> refines m w -> refines (astep m o) (step w o).
Proof.
  intros I Ha Hd R. destruct o as [s t v d|addrs wt|p a|p i a|a t|p st|a lo|p d|p|p f wf nl]; cbn [admissible step astep op_defined] in *.
  - assert (exists l, layer_new s t v d = Ok l /\ l_thick l = t /\ l_soil l = s) as (l & -> & El & Es).
    { unfold layer_new. destruct d as [x|]; cbn [bind]; [eexists; split; [reflexivity|split; reflexivity]|].
      destruct Hd as [dm ->]. cbn [bind]. eexists; split; [reflexivity|split; reflexivity]. }
    rewrite <- El, <- Es. now apply refines_alloc.
  - now apply refines_new_profile.
  - unfold append. apply refines_update. destruct R as [R1 R2 Rw R3 R4 R5]. rewrite R3.
    apply refines_set_prof. constructor; auto.
  - destruct Ha as (Hp & Hf & Hi & _). unfold insert. apply refines_update.
    assert (Hk : py_slice_start i (length (layers_of w p)) = Z.to_nat i).
    { unfold py_slice_start. destruct (Z.ltb_spec i 0); [lia|]. destruct (Z.ltb_spec i 0); [lia|].
      destruct (Z.ltb_spec (Z.of_nat (length (layers_of w p))) i); [lia|reflexivity]. }
    rewrite Hk. destruct R as [R1 R2 Rw R3 R4 R5]. rewrite R3. apply refines_set_prof. constructor; auto.
  - unfold set_thickness. set (w1 := set_heap w _).
    assert (R1 : refines (mkA (upd (a_thick m) a t) (a_uwt m) (a_next m) (a_layers m) (a_wt m) (a_pnext m)) w1).
    { destruct R as [R1 R2 Rw R3 R4 R5]. constructor; unfold w1; cbn; auto.
      - intros b Hb. unfold upd, hset. destruct (Nat.eqb b a); [reflexivity|auto].
      - intros b Hb. unfold hset. destruct (Nat.eqb_spec b a) as [->|]; [cbn; auto|auto]. }
    destruct (l_prof (w_heap w1 a)); [|exact R1]. destruct (profile_index w1 n a); [|exact R1].
    now apply refines_update.
  - now apply refines_update.
  - destruct R as [R1 R2 Rw R3 R4 R5]. constructor; auto; cbn; intros b Hb; unfold hset;
      destruct (Nat.eqb_spec b a) as [->|]; auto; destruct (layer_step_pos (w_heap w a) lo) as (_ & _ & _ & E1 & E2);
      rewrite ?E1, ?E2; auto.
  - unfold lookup_depth; cbn [fst]. now apply refines_update.
  - destruct Ha as [Hp _]. unfold profile_copy.
    destruct (refines_alloc_layers (map layer_copy (view w p)) m w R) as [R1 R2].
    destruct (alloc_layers w (map layer_copy (view w p))) as [w1 addrs]. cbn [fst snd] in *.
    pose proof R as [S1 S2 Sw S3 S4 S5].
    assert (Ef : fold_left (fun x b => acreate x (a_thick m b) (a_uwt m b)) (a_layers m p) m =
       fold_left (fun x l => acreate x (l_thick l) (s_unit_wt (l_soil l))) (map layer_copy (view w p)) m).
    { rewrite S3. unfold view. rewrite map_map. apply fold_acreate_ext.
      intros x Hx. apply (inv_alloc w I p) in Hx; auto. split; cbn; auto. }
    rewrite Ef.
    destruct (fold_acreate_layers l_thick (fun l => s_unit_wt (l_soil l)) (map layer_copy (view w p)) m) as (L1 & L2 & L3).
    set (m1 := fold_left (fun x l => acreate x (l_thick l) (s_unit_wt (l_soil l))) (map layer_copy (view w p)) m) in *.
    replace (seq (a_next m) (length (a_layers m p))) with addrs.
    2:{ rewrite R2, S1, S3. f_equal. unfold view. now rewrite !map_length. }
    eapply refines_ext; [| | | | | |apply (refines_new_profile m1 w1 addrs (p_wt (w_profs w p))); exact R1]; cbn; auto.
    + intros q. now rewrite L1, L2.
    + intros q. rewrite L2, L3, Sw. reflexivity.
  - contradiction.
Qed.

Lemma run_refines os : forall m w,
  Inv w -> admissible_run w os -> Forall op_defined os -> refines m w ->
  refines (arun m os) (run w os).
Proof.
  unfold arun, run. induction os as [|o os IH]; intros m w I H Hd R; [exact R|].
  cbn in *. destruct H as [H1 H2]. inversion Hd; subst.
  apply IH; auto; [now apply step_inv|now apply step_refines].
Qed.
Lemma init_refines : refines ainit init_world.
Proof. constructor; cbn; auto; intros; lia. Qed.

(** Depths and stresses of an admissible program. *)
Lemma run_depths os p i a :
  admissible_run init_world os -> Forall op_defined os ->
  (p < w_pnext (run init_world os))%nat ->
  nth_error (layers_of (run init_world os) p) i = Some a ->
  a_layers (arun ainit os) p = layers_of (run init_world os) p /\
  l_depth (w_heap (run init_world os) a) = adepth (arun ainit os) p i /\
  l_svert (w_heap (run init_world os) a) = aweight (arun ainit os) p i /\
  l_prof (w_heap (run init_world os) a) = Some p /\
  a_wt (arun ainit os) p = p_wt (w_profs (run init_world os) p) /\
  l_thick (w_heap (run init_world os) a) = a_thick (arun ainit os) a /\
  s_unit_wt (l_soil (w_heap (run init_world os) a)) = a_uwt (arun ainit os) a.
Proof.
  intros H Hd Hp Hn. set (w := run init_world os) in *. set (m := arun ainit os).
  assert (I : Inv w) by (apply run_inv; [apply init_inv|exact H]).
  assert (R : refines m w) by (apply run_refines; auto using init_inv, init_refines).
  destruct R as [R1 R2 Rw R3 R4 R5].
  split; [apply R3|].
  apply nth_error_split in Hn. destruct Hn as (l1 & l2 & E & El).
  destruct (inv_placed w I p Hp l1 a l2 E) as (P1 & P2 & P3).
  assert (Haw : (a < w_next w)%nat).
  { apply (inv_alloc w I p); auto. rewrite E. apply in_or_app; right; now left. }
  rewrite P1, P2, P3. rewrite Rw, R4, R5 by exact Haw. unfold adepth, aweight. rewrite R3, E, <- El, firstn_app, Nat.sub_diag.
  cbn [firstn]. rewrite app_nil_r, firstn_all.
  assert (Hall : forall b, In b l1 -> (b < w_next w)%nat).
  { intros b Hb. apply (inv_alloc w I p); auto. rewrite E. apply in_or_app; now left. }
  cut (sum_thick (w_heap w) l1 = Rsum (map (a_thick m) l1) /\
    sum_weight (w_heap w) l1 = Rsum (map (fun a0 => a_uwt m a0 * a_thick m a0) l1)).
  { intros [-> ->]. repeat split; reflexivity. }
  clear - Hall R4 R5. unfold sum_thick, sum_weight.
  induction l1 as [|b l1 IH]; [split; reflexivity|].
  cbn [map]. rewrite total_thick_cons, total_weight_cons, !Rsum_cons.
  destruct IH as [-> ->]; [intros; apply Hall; now right|].
  rewrite R4, R5 by (apply Hall; now left). auto.
Qed.
