(** A profile built from new layers followed by existing ones. *)
From Verif Require Import Common Model.Curve Model.Layer Model.Profile
  Spec.ProfileSpec Proof.CommonFacts Proof.ProfileFacts Proof.ProfileOps.
Local Open Scope R_scope.

Lemma built_profile w ls tail wt :
  (forall a, In a tail -> (a < w_next w)%nat) -> NoDup tail ->
  let r1 := alloc_layers w ls in
  let r2 := new_profile (fst r1) (snd r1 ++ tail) wt in
  let w' := fst r2 in let q := snd r2 in
  q = w_pnext w /\
  Forall2 same_core (ls ++ map (w_heap w) tail) (view w' q) /\
  p_wt (w_profs w' q) = wt /\ NoDup (layers_of w' q) /\
  (bottom_distinct (ls ++ map (w_heap w) tail) -> placed (w_heap w') q (layers_of w' q)) /\
  (forall a, (a < w_next w)%nat -> same_core (w_heap w a) (w_heap w' a)) /\
  (forall a, (a < w_next w)%nat -> ~ In a tail -> w_heap w' a = w_heap w a) /\
  (forall r, (r < w_pnext w)%nat -> w_profs w' r = w_profs w r) /\
  (exists addrs, layers_of w' q = addrs ++ tail /\ length addrs = length ls /\
     forall a, In a addrs -> (w_next w <= a < w_next w')%nat) /\
  (w_next w <= w_next w')%nat /\ w_pnext w' = S (w_pnext w).
Proof.
  intros Ht Hnt. cbv zeta.
  pose proof (alloc_raw ls w) as Hr. destruct (alloc_layers w ls) as [w1 addrs]. cbn [fst snd] in *.
  destruct Hr as (B & C & D & E & F & G & H).
  assert (Hnd : NoDup (addrs ++ tail)).
  { clear - B D Ht Hnt. induction addrs as [|x addrs IH]; [exact Hnt|]. inversion B; subst. cbn. constructor.
    - intros Hi. apply in_app_or in Hi. destruct Hi as [Hi|Hi]; [contradiction|]. apply Ht in Hi.
      specialize (D x (or_introl eq_refl)). lia.
    - apply IH; auto. intros a Ha. apply D. now right. }
  pose proof (new_profile_frame w1 (addrs ++ tail) wt) as Hn.
  assert (Hplaced : bottom_ok (w_heap w1) (addrs ++ tail) ->
     placed (w_heap (fst (new_profile w1 (addrs ++ tail) wt))) (w_pnext w1) (addrs ++ tail)).
  { intros Hb. unfold new_profile; cbn [fst]. set (w2 := mkWorld _ _ _ _).
    assert (Hl2 : layers_of w2 (w_pnext w1) = addrs ++ tail) by (unfold layers_of, w2; cbn; now rewrite Nat.eqb_refl).
    destruct (update_layers_placed w2 (w_pnext w1) 0) as [Hp _]; rewrite ?Hl2; auto; [lia| |].
    { cbn. intros above a below E0. destruct above; discriminate. }
    rewrite Hl2 in Hp. exact Hp. }
  assert (Hpn : w_pnext (fst (new_profile w1 (addrs ++ tail) wt)) = S (w_pnext w1)).
  { unfold new_profile; cbn [fst]. match goal with |- w_pnext (fst (update_layers ?x ?y ?z)) = _ =>
      destruct (update_layers_frame x y z) as (_ & _ & ->) end. reflexivity. }
  destruct (new_profile w1 (addrs ++ tail) wt) as [w2 q]. cbn [fst snd] in *.
  destruct Hn as (N1 & N2 & N3 & N4 & N5 & N6 & N7).
  assert (Hmap : map (w_heap w1) (addrs ++ tail) = ls ++ map (w_heap w) tail).
  { rewrite map_app, C. f_equal. apply map_ext_in. intros a Ha. apply E, Ht, Ha. }
  split; [rewrite N1; exact G|]. split.
  { rewrite <- Hmap. unfold view. rewrite N2. clear - N5. induction (addrs ++ tail); cbn; constructor; auto. }
  split; [exact N3|]. split; [now rewrite N2|]. split.
  { intros Hb. rewrite N2, N1. apply Hplaced. rewrite <- Hmap in Hb.
    set (w0 := mkWorld (w_heap w1) 0 (fun _ => mkProfile (addrs ++ tail) 0) 0).
    change (map (w_heap w1) (addrs ++ tail)) with (view w0 0) in Hb. apply bottom_ok_view in Hb. exact Hb. }
  split.
  { intros a Ha. rewrite <- (E a Ha). apply N5. }
  split.
  { intros a Ha Hn'. rewrite <- (E a Ha). apply N6. intros Hi. apply in_app_or in Hi.
    destruct Hi as [Hi|Hi]; [apply D in Hi; lia|contradiction]. }
  split; [intros r Hr; rewrite N4 by lia; now rewrite F|]. split.
  { exists addrs. split; [exact N2|]. split.
    - rewrite <- C. now rewrite map_length.
    - intros a Ha. rewrite N7. now apply D. }
  split; [lia|lia].
Qed.

(** The stack is placed, so its stored depths add up. *)
Lemma placed_depths w p : placed (w_heap w) p (layers_of w p) -> depths_cumulative (view w p).
Proof. intros H. now apply placed_view in H. Qed.

Lemma bottom_distinct_app ls b : l_thick b = 0 -> bottom_distinct (ls ++ [b]).
Proof.
  intros H above l middle bottom E _. assert (last_opt (ls ++ [b]) = Some bottom).
  { rewrite E, app_comm_cons, app_assoc. apply last_opt_app. }
  rewrite last_opt_app in H0. now injection H0 as <-.
Qed.
Lemma Forall2_weaken {A B} (P Q : A -> B -> Prop) xs ys :
  (forall x y, P x y -> Q x y) -> Forall2 P xs ys -> Forall2 Q xs ys.
Proof. intros H. induction 1; constructor; auto. Qed.
