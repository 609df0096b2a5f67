(** C15: profiles of which every layer above the half-space was divided. *)
From Coq Require Import String.
From Verif Require Import Common Model.Curve Model.Layer Model.Profile Spec.LayerSpec Spec.ProfileSpec Spec.HistorySpec
  Proof.CommonFacts Proof.ProfileFacts Proof.ProfileOps Proof.ProfileRefute.
Local Open Scope R_scope.

(** Changing a layer that is in its place, with the layers above. *)
Lemma set_thickness_places w p a t upper lower :
  NoDup (layers_of w p) -> layers_of w p = upper ++ lower -> In a upper ->
  placed (w_heap w) p upper -> bottom_distinct (view (fst (set_thickness w a t)) p) ->
  let w2 := fst (set_thickness w a t) in
  snd (set_thickness w a t) = Ok tt /\ layers_of w2 p = layers_of w p /\ placed (w_heap w2) p (layers_of w2 p).
Proof.
  intros Hnd Hul Ha Hpl Hb w2. unfold w2. clear w2. unfold set_thickness in *. set (w1 := set_heap w _) in *.
  assert (Hpr : l_prof (w_heap w1 a) = Some p).
  { unfold w1; cbn. rewrite hset_same. cbn. now apply (placed_owner _ _ _ _ Hpl). }
  rewrite Hpr in *. assert (Hin : In a (layers_of w p)) by (rewrite Hul; apply in_or_app; now left).
  assert (Hl1 : layers_of w1 p = layers_of w p) by reflexivity.
  unfold profile_index in *. rewrite Hl1 in *.
  destruct (index_from_spec (w_heap w1) (layers_of w p) a 0 Hin) as (j & Hj & Hjl & (pre & suf & Hsplit & Hjpre)).
  rewrite Hj in *. cbn [plus] in *. apply bottom_ok_view in Hb.
  replace (Z.of_nat j + 1)%Z with (Z.of_nat (S j)) in * by lia.
  assert (Hlp : layers_of (fst (update_layers w1 p (Z.of_nat (S j)))) p = layers_of w p).
  { unfold layers_of. destruct (update_layers_frame w1 p (Z.of_nat (S j))) as (_ & -> & _). reflexivity. }
  rewrite Hlp in *.
  assert (Hb1 : bottom_ok (w_heap w1) (layers_of w p)) by (eapply bottom_ok_core'; [|exact Hb]; intros; apply update_layers_core).
  (* the position of [a] is in the upper part *)
  assert (Hup : (length pre < length upper)%nat).
  { apply in_split in Ha. destruct Ha as (u1 & u2 & Eu).
    assert (N1 : nth_error (layers_of w p) (length u1) = Some a) by (rewrite Hul, Eu, <- app_assoc, nth_error_app2, Nat.sub_diag by lia; reflexivity).
    assert (N2 : nth_error (layers_of w p) (length pre) = Some a) by (rewrite Hsplit, nth_error_app2, Nat.sub_diag by lia; reflexivity).
    assert (E : length u1 = length pre).
    { rewrite NoDup_nth_error in Hnd. apply Hnd; [|congruence]. rewrite Hul, Eu, !app_length. cbn. lia. }
    rewrite Eu, app_length. cbn. lia. }
  assert (Hfn : firstn (S j) (layers_of w p) = firstn (S j) upper).
  { rewrite Hul, firstn_app. replace (S j - length upper)%nat with 0%nat by lia. cbn. now rewrite app_nil_r. }
  destruct (update_layers_placed w1 p (S j)) as [P1 P2]; rewrite ?Hl1; [exact Hnd|exact Hb1|lia| |].
  - rewrite Hfn. intros above b below E. set (h1 := w_heap w1).
    assert (Efull : upper = above ++ b :: below ++ skipn (S j) upper).
    { rewrite <- (firstn_skipn (S j) upper) at 1. rewrite E, <- app_assoc. reflexivity. }
    assert (Hlen : (length above <= j)%nat).
    { assert (Hl : length (firstn (S j) upper) = S j) by (apply firstn_length_le; lia). rewrite E, app_length in Hl. cbn in Hl. lia. }
    assert (Hna : ~ In a above).
    { intros Hia. apply in_split in Hia. destruct Hia as (x1 & x2 & Ex).
      assert (E2 : layers_of w p = x1 ++ a :: (x2 ++ b :: below ++ skipn (S j) upper) ++ lower).
      { rewrite Hul. rewrite Efull at 1. rewrite Ex. repeat (rewrite <- app_assoc; cbn [app]). reflexivity. }
      assert (Hlt : (length x1 < length pre)%nat) by (rewrite Ex, app_length in Hlen; cbn in Hlen; lia).
      assert (N1 : nth_error (layers_of w p) (length x1) = Some a) by (rewrite E2, nth_error_app2, Nat.sub_diag by lia; reflexivity).
      assert (N2 : nth_error (layers_of w p) (length pre) = Some a) by (rewrite Hsplit, nth_error_app2, Nat.sub_diag by lia; reflexivity).
      rewrite NoDup_nth_error in Hnd. specialize (Hnd (length x1) (length pre)).
      assert (length x1 = length pre); [|lia]. apply Hnd; [|congruence]. rewrite E2, app_length; cbn; lia. }
    destruct (Hpl above b (below ++ skipn (S j) upper) Efull) as (Q1 & Q2 & Q3).
    assert (Hcore : forall c, In c above -> same_core (h1 c) (w_heap w c)).
    { intros c Hc. unfold h1, w1; cbn. rewrite hset_other; [apply same_core_refl|]. intros ->; contradiction. }
    rewrite (sum_thick_core h1 (w_heap w)), (sum_weight_core h1 (w_heap w)) by exact Hcore.
    unfold h1, w1; cbn. destruct (Nat.eq_dec b a) as [->|Hne]; [rewrite hset_same; cbn; auto|rewrite hset_other by exact Hne; auto].
  - split; [exact P2|]. split; [reflexivity|]. exact P1.
Qed.

(** C15: if every layer above the half-space is replaced, the original profile goes on
    working: changing one of these layers puts all its layers in their places. *)
Theorem divided_usable os p f wf nl a t w' q :
  let w := run init_world os in
  admissible_run init_world os -> (p < w_pnext w)%nat ->
  (nl = true -> forall b, In b (removelast (layers_of w p)) -> is_nonlinear (l_soil (w_heap w b)) = true) ->
  auto_discretize w p f wf nl = (w', Ok q) -> In a (removelast (layers_of w p)) ->
  let w2 := fst (set_thickness w' a t) in
  bottom_distinct (view w2 p) ->
  snd (set_thickness w' a t) = Ok tt /\ layers_of w2 p = layers_of w p /\ l_thick (w_heap w2 a) = t /\
  depths_cumulative (view w2 p) /\ stresses_cumulative (view w2 p) /\
  (forall b, In b (layers_of w p) -> l_prof (w_heap w2 b) = Some p).
Proof.
  intros w HA Hp Hnl E Ha w2 Hb. assert (I : Inv w) by (apply run_inv; [exact init_inv|exact HA]).
  assert (Hal := fun x Hx => inv_alloc w I p x Hp Hx). assert (Hnd := inv_nodup w I p Hp).
  assert (Hne : layers_of w p <> []) by (intros E0; rewrite E0 in Ha; destruct Ha).
  destruct (last_opt (layers_of w p)) as [bot|] eqn:Eb; [|apply last_opt_none in Eb; contradiction].
  pose proof (last_opt_inv _ _ Eb) as Hinv.
  assert (Hsub : forall x, In x (removelast (layers_of w p)) -> In x (layers_of w p)) by (intros x Hx; rewrite Hinv; apply in_or_app; now left).
  destruct (auto_discretize_spec w p f wf nl Hal Hnd Hne) as (w'' & q' & groups & bottom & E' & Eq & _ & _ & _ & _ & _ & _ & Hprofs & _ & Hunch).
  rewrite E in E'. injection E' as <- <-.
  assert (Hnb : forall b, In b (removelast (layers_of w p)) -> ~ In b (layers_of w' q)).
  { intros b Hbi. unfold auto_discretize in E. rewrite Eb in E.
    pose proof (discretize_kept (removelast (layers_of w p)) f wf nl w (fun x Hx => Hal x (Hsub x Hx)) b (Hal b (Hsub b Hbi))) as Hk.
    destruct (discretize_loop w (removelast (layers_of w p)) f wf nl) as [w1 addrs]. cbn [snd] in Hk.
    pose proof (new_profile_frame w1 (addrs ++ [bot]) (p_wt (w_profs w p))) as Hn.
    destruct (new_profile w1 (addrs ++ [bot]) (p_wt (w_profs w p))) as [w3 q3].
    injection E as <- <-. cbn [fst snd] in Hn. destruct Hn as (_ & N2 & _). rewrite N2.
    intros Hi. apply in_app_or in Hi. destruct Hi as [Hi|[<-|[]]].
    - apply Hk in Hi. destruct Hi as [_ Hi]. unfold kept in Hi. destruct nl; [rewrite (Hnl eq_refl b Hbi) in Hi; discriminate|discriminate].
    - rewrite Hinv in Hnd. apply NoDup_remove_2 in Hnd. rewrite app_nil_r in Hnd. contradiction. }
  assert (HL : layers_of w' p = layers_of w p) by (unfold layers_of; now rewrite Hprofs).
  assert (HP : placed (w_heap w') p (removelast (layers_of w p))).
  { apply (placed_ext (w_heap w)); [intros b Hbi; apply Hunch; auto|]. apply (placed_prefix _ _ _ [bot]). rewrite <- Hinv. now apply (inv_placed w I). }
  destruct (set_thickness_places w' p a t (removelast (layers_of w p)) [bot]) as (R1 & R2 & R3);
    [now rewrite HL|now rewrite HL|exact Ha|exact HP|exact Hb|].
  split; [exact R1|]. split; [unfold w2; now rewrite R2|]. split; [apply set_thickness_thick|].
  destruct (placed_view _ _ R3) as [D1 D2]. split; [exact D1|]. split; [exact D2|].
  intros b Hbi. apply (placed_owner _ _ _ _ R3). now rewrite R2, HL.
Qed.
