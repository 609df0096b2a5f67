(** Splitting layers changes the motion at no depth. *)
From Coq Require Import List.
From Verif Require Import Common Proof.CommonFacts Model.Curve Model.Layer Model.Profile Model.Cplx Model.Waves
  Spec.ProfileSpec Spec.WaveSpec Spec.DepthSpec Proof.LayerFacts Proof.ProfileFacts Proof.ProfileOps Proof.ProfileProps
  Proof.CplxFacts Proof.WaveFacts Proof.WaveSplit Proof.WaveEnergy Proof.WaveProps.
From Coquelicot Require Import Complex.
Local Open Scope R_scope.

Local Notation nn := (List.Forall (fun l => 0 <= wl_thick l)).

Lemma Rsum_nn hs : List.Forall (fun h => 0 <= h) hs -> 0 <= Rsum hs.
Proof. induction 1 as [|h hs H _ IH]; unfold Rsum in *; cbn [fold_right]; lra. Qed.
Lemma Rsum_app' a b : Rsum (a ++ b) = Rsum a + Rsum b.
Proof. induction a as [|x a IH]; unfold Rsum in *; cbn [app fold_right]; [ring|rewrite IH; ring]. Qed.
Lemma removelast_app2 {A} (a b : list A) : b <> [] -> removelast (a ++ b) = a ++ removelast b.
Proof. apply removelast_app. Qed.

Lemma firstn_app_len {A} (a b : list A) : firstn (length a) (a ++ b) = a.
Proof. rewrite firstn_app, firstn_all, Nat.sub_diag. apply app_nil_r. Qed.

(** The same depth is in the same place. *)
Lemma depth_unique ls z i j u v : nn (removelast ls) -> at_depth ls z i u -> at_depth ls z j v -> i = j /\ u = v.
Proof.
  intros Hp.
  assert (Hlt : forall i j u v, at_depth ls z i u -> at_depth ls z j v -> ~ (i < j)%nat).
  { clear i j u v. intros i j u v (a1 & l1 & b1 & E1 & -> & S1 & P1 & L1) (a2 & l2 & b2 & E2 & -> & S2 & P2 & L2) Hij.
    assert (exists mid, a2 = a1 ++ l1 :: mid) as [mid ->].
    { assert (F1 : firstn (length a2) ls = a2) by (rewrite E2; apply firstn_app_len).
      rewrite E1, firstn_app, firstn_all2 in F1 by lia.
      destruct (length a2 - length a1)%nat as [|n] eqn:En; [lia|]. cbn [firstn] in F1. eexists. symmetry. exact F1. }
    assert (Hm : nn mid).
    { rewrite E2, <- app_assoc in Hp. rewrite removelast_app2 in Hp by discriminate. apply Forall_app in Hp. destruct Hp as [_ Hp].
      cbn [app] in Hp. change (l1 :: mid ++ l2 :: b2) with ([l1] ++ (mid ++ l2 :: b2)) in Hp.
      rewrite removelast_app2 in Hp by (destruct mid; discriminate). rewrite removelast_app2 in Hp by discriminate.
      cbn [app] in Hp. inversion Hp as [|? ? _ Hq]. apply Forall_app in Hq. apply Hq. }
    assert (0 <= Rsum (map wl_thick mid)) by (apply Rsum_nn, Forall_map; exact Hm).
    rewrite map_app, Rsum_app' in S2. cbn [map] in S2. unfold Rsum in S2 at 2. cbn [fold_right] in S2. fold (Rsum (map wl_thick mid)) in S2.
    assert (b1 <> []) as Hb.
    { intros ->. rewrite E2, <- app_assoc in E1. apply app_inv_head in E1. cbn [app] in E1. injection E1 as E1. destruct mid; discriminate. }
    specialize (L1 Hb). lra. }
  intros H1 H2. assert (i = j) as -> by (pose proof (Hlt _ _ _ _ H1 H2); pose proof (Hlt _ _ _ _ H2 H1); lia).
  split; [reflexivity|]. destruct H1 as (a1 & l1 & b1 & E1 & I1 & S1 & _), H2 as (a2 & l2 & b2 & E2 & I2 & S2 & _).
  assert (a1 = a2).
  { rewrite E1 in E2. apply (f_equal (firstn j)) in E2. rewrite I1, firstn_app_len in E2. rewrite <- I1, I2, firstn_app_len in E2. exact E2. }
  subst a2. lra.
Qed.

(** Two rows looked at from two places report the same motion and have the same wave number. *)
Definition agree (r : wrow) (u : R) (r' : wrow) (u' : R) : Prop :=
  r_k r = r_k r' /\ forall f, wave_at r u f = wave_at r' u' f.
Lemma agree_trans r u r1 u1 r2 u2 : agree r u r1 u1 -> agree r1 u1 r2 u2 -> agree r u r2 u2.
Proof. intros [A1 A2] [B1 B2]. split; [congruence|]. intros f. now rewrite A2, B2. Qed.

Lemma row_number w ls rs i r : calc_waves_python w ls = Ok rs -> nth_error rs i = Some r ->
  exists l, nth_error ls i = Some l /\ r_k r = wave_num w l.
Proof.
  destruct ls as [|l0 ls]; [discriminate|]. intros E H. apply Ok_inj in E. subst rs. rewrite rows_nth in H.
  destruct (nth_error (l0 :: ls) i) as [l|]; [|discriminate].
  destruct (nth_error _ i) as [ab|] in H; [|discriminate]. injection H as <-. now exists l.
Qed.

Lemma split_place pre v m hs post z i u : post <> [] -> List.Forall (fun h => 0 <= h) hs ->
  at_depth (pre ++ map (mkWL v m) hs ++ post) z i u ->
  ((i < length pre)%nat /\ at_depth (pre ++ mkWL v m (Rsum hs) :: post) z i u) \/
  (exists j, (j < length hs)%nat /\ i = (length pre + j)%nat /\
     at_depth (pre ++ mkWL v m (Rsum hs) :: post) z (length pre) (Rsum (firstn j hs) + u)) \/
  (exists j, i = (length pre + length hs + j)%nat /\ at_depth (pre ++ mkWL v m (Rsum hs) :: post) z (length pre + 1 + j)%nat u).
Proof.
  intros Hp Hh (a & l & b & E & -> & S0 & P0 & L0).
  destruct (le_lt_dec (length pre) (length a)) as [Hle|Hlt].
  - right. assert (exists c, a = pre ++ c) as [c ->].
    { exists (skipn (length pre) a). apply (f_equal (firstn (length pre))) in E. rewrite firstn_app_len in E.
      rewrite firstn_app in E. replace (length pre - length a)%nat with 0%nat in E by lia. cbn [firstn] in E. rewrite app_nil_r in E.
      rewrite E at 1. symmetry. apply firstn_skipn. }
    rewrite <- app_assoc in E. apply app_inv_head in E. rewrite map_app, Rsum_app' in S0.
    destruct (le_lt_dec (length hs) (length c)) as [Hc|Hc].
    + right. assert (exists d, c = map (mkWL v m) hs ++ d) as [d ->].
      { exists (skipn (length hs) c). apply (f_equal (firstn (length hs))) in E.
        replace (length hs) with (length (map (mkWL v m) hs)) in E at 1 by apply map_length. rewrite firstn_app_len in E.
        rewrite firstn_app in E. replace (length hs - length c)%nat with 0%nat in E by lia. cbn [firstn] in E. rewrite app_nil_r in E.
        rewrite E. symmetry. apply firstn_skipn. }
      rewrite <- app_assoc in E. apply app_inv_head in E. exists (length d). split; [rewrite !app_length, map_length; lia|].
      exists (pre ++ mkWL v m (Rsum hs) :: d), l, b. split; [rewrite E, <- app_assoc; reflexivity|].
      split; [rewrite app_length; cbn; lia|]. split; [|split; assumption]. rewrite map_app, Rsum_app' in S0 |- *.
      cbn [map]. unfold Rsum in S0 at 2; unfold Rsum at 2; cbn [fold_right wl_thick]. fold (Rsum (map wl_thick d)).
      rewrite map_map in S0. cbn [wl_thick] in S0. rewrite map_id in S0. fold (Rsum hs) in S0. fold (Rsum (map wl_thick d)) in S0. lra.
    + left. exists (length c). split; [exact Hc|]. split; [rewrite app_length; lia|].
      assert (Ec : c = map (mkWL v m) (firstn (length c) hs)).
      { apply (f_equal (firstn (length c))) in E. rewrite firstn_app_len in E.
        rewrite firstn_app, map_length in E. replace (length c - length hs)%nat with 0%nat in E by lia. cbn [firstn] in E.
        rewrite app_nil_r, firstn_map in E. now symmetry. }
      assert (El : exists t tl, hs = firstn (length c) hs ++ t :: tl /\ l = mkWL v m t).
      { pose proof (firstn_skipn (length c) hs) as F. destruct (skipn (length c) hs) as [|t tl] eqn:Es.
        - apply (f_equal (@length R)) in Es. rewrite skipn_length in Es. cbn in Es. lia.
        - exists t, tl. split; [now symmetry|]. rewrite <- F, map_app, <- app_assoc, <- Ec in E. apply app_inv_head in E.
          cbn in E. now injection E. }
      destruct El as (t & tl & El & ->).
      assert (Sc : Rsum (map wl_thick c) = Rsum (firstn (length c) hs)).
      { rewrite Ec at 1. rewrite map_map. cbn [wl_thick]. now rewrite map_id. }
      exists pre, (mkWL v m (Rsum hs)), post. split; [reflexivity|]. split; [reflexivity|].
      assert (H1 : List.Forall (fun h => 0 <= h) (firstn (length c) hs) /\ List.Forall (fun h => 0 <= h) (t :: tl))
        by (rewrite El in Hh; apply Forall_app in Hh; exact Hh).
      destruct H1 as [H1 H2]. inversion H2 as [|? ? H3 H4]. apply Rsum_nn in H1, H4.
      split; [lra|]. split; [lra|]. intros _. cbn [wl_thick] in L0 |- *.
      assert (Hb : b <> []).
      { intros ->. rewrite <- (firstn_skipn (length c) hs), map_app, <- app_assoc, <- Ec in E. apply app_inv_head in E.
        apply (f_equal (@length wlayer)) in E. rewrite app_length, map_length, skipn_length in E. cbn in E. destruct post; [contradiction|cbn in E; lia]. }
      specialize (L0 Hb). rewrite El at 2. rewrite Rsum_app'. unfold Rsum at 3. cbn [fold_right]. fold (Rsum tl). lra.
  - left. split; [exact Hlt|]. exists a, l.
    assert (exists c, pre = a ++ l :: c) as [c ->].
    { exists (skipn (S (length a)) pre). pose proof (firstn_app_len (a ++ [l]) b) as F.
      assert (E3 : (a ++ [l]) ++ b = pre ++ map (mkWL v m) hs ++ post) by (rewrite E, <- app_assoc; reflexivity).
      rewrite E3, firstn_app in F. rewrite app_length in F. cbn [length] in F.
      replace (length a + 1 - length pre)%nat with 0%nat in F by lia. cbn [firstn] in F. rewrite app_nil_r in F.
      replace (length a + 1)%nat with (S (length a)) in F by lia.
      rewrite <- (firstn_skipn (S (length a)) pre) at 1. rewrite F, <- app_assoc. reflexivity. }
    exists (c ++ mkWL v m (Rsum hs) :: post). split; [rewrite <- app_assoc; reflexivity|]. split; [reflexivity|].
    split; [exact S0|]. split; [exact P0|]. intros _. apply L0. rewrite <- app_assoc in E. apply app_inv_head in E. injection E as E.
    rewrite <- E. destruct c; [destruct hs; [now destruct post|discriminate]|discriminate].
Qed.

Lemma finer_agree w ls ls' : finer ls ls' -> forall rs, calc_waves_python w ls = Ok rs -> nn (removelast ls') ->
  nn (removelast ls) /\ exists rs', calc_waves_python w ls' = Ok rs' /\
  forall z i' u', at_depth ls' z i' u' -> exists i u r r', at_depth ls z i u /\ nth_error rs i = Some r /\ nth_error rs' i' = Some r' /\ agree r u r' u'.
Proof.
  induction 1 as [ls|pre v m hs post ls' Hne Hp Hv Hm Hf IH]; intros rs H Hnn.
  - split; [exact Hnn|]. exists rs. split; [exact H|]. intros z i u Hd. exists i, u.
    assert (Hi : exists r, nth_error rs i = Some r).
    { destruct (nth_error rs i) as [r|] eqn:E; [now exists r|]. exfalso. apply nth_error_None in E.
      destruct Hd as (a & l & b & El & -> & _). destruct ls as [|l0 ls]; [destruct a; discriminate|]. apply Ok_inj in H. subst rs.
      unfold rows in E. rewrite map_length, combine_length in E.
      assert (length (if isclose w 0 then set_last_ones (waves_from w (l0 :: ls) (c_one, c_one)) else waves_from w (l0 :: ls) (c_one, c_one)) = length (l0 :: ls))
        by (destruct (isclose w 0); [rewrite set_last_ones_length|]; apply waves_from_length).
      rewrite H, El, app_length in E. cbn [length] in E. lia. }
    destruct Hi as [r Hr]. exists r, r. split; [exact Hd|]. split; [exact Hr|]. split; [exact Hr|]. now split.
  - destruct (split_motion w pre v m hs post Hv Hm Hne (or_introl Hp)) as (Ra & r & Rs & Rb & E1 & E2 & La & Ls & Lb & HM).
    destruct (IH _ E2 Hnn) as (HN & rs' & E' & HD). rewrite E1 in H. apply Ok_inj in H. subst rs.
    assert (Hq : map (mkWL v m) hs ++ post <> []) by (destruct hs; [contradiction|discriminate]).
    rewrite !removelast_app2 in HN by assumption. apply Forall_app in HN. destruct HN as [N1 N2]. apply Forall_app in N2. destruct N2 as [N2 N3].
    assert (Hh : List.Forall (fun h => 0 <= h) hs) by (rewrite Forall_map in N2; exact N2).
    split.
    + rewrite removelast_app2 by discriminate. apply Forall_app. split; [exact N1|].
      change (mkWL v m (Rsum hs) :: post) with ([mkWL v m (Rsum hs)] ++ post). rewrite removelast_app2 by exact Hp.
      constructor; [cbn; now apply Rsum_nn|exact N3].
    + exists rs'. split; [exact E'|]. intros z i' u' Hd. destruct (HD z i' u' Hd) as (i & u & r1 & r' & D1 & R1 & R' & A1).
      destruct (split_place pre v m hs post z i u Hp Hh D1) as [[Hi D2]|[(j & Hj & Hi & D2)|(j & Hi & D2)]].
      * exists i, u, r1, r'. split; [exact D2|]. split; [|now split].
        rewrite nth_error_app1 in R1 |- * by lia. exact R1.
      * exists (length pre), (Rsum (firstn j hs) + u), r, r'. split; [exact D2|]. split.
        { rewrite nth_error_app2 by lia. now rewrite La, Nat.sub_diag. }
        split; [exact R'|]. apply agree_trans with r1 u; [|exact A1].
        assert (R2 : nth_error Rs j = Some r1).
        { rewrite nth_error_app2 in R1 by lia. rewrite nth_error_app1 in R1 by lia. rewrite <- R1. f_equal. lia. }
        split; [|intros f; symmetry; apply (HM j r1 R2)].
        destruct (row_number w _ _ (length pre) r E1) as (l1 & X1 & X2); [rewrite nth_error_app2 by lia; now rewrite La, Nat.sub_diag|].
        rewrite nth_error_app2, Nat.sub_diag in X1 by lia. injection X1 as <-.
        destruct (row_number w _ _ i r1 E2 R1) as (l2 & Y1 & Y2).
        rewrite nth_error_app2 in Y1 by lia. rewrite nth_error_app1 in Y1 by (rewrite map_length; lia).
        apply nth_error_In, in_map_iff in Y1. destruct Y1 as (t & <- & _). rewrite X2, Y2. reflexivity.
      * exists (length pre + 1 + j)%nat, u, r1, r'. split; [exact D2|]. split; [|now split].
        rewrite nth_error_app2 by lia. replace (length pre + 1 + j - length Ra)%nat with (S j) by lia. cbn [nth_error].
        rewrite nth_error_app2 in R1 by lia. rewrite nth_error_app2 in R1 by lia. rewrite <- R1. f_equal. lia.
Qed.

(** The strain depends on the wave number and the reported motions only. *)
Lemma strain_agree w out u out' u' inp z inp' z' f g : agree out u out' u' -> agree inp z inp' z' ->
  strain_tf_python out u w inp z f g = strain_tf_python out' u' w inp' z' f g.
Proof.
  intros [K1 W1] [_ W2]. unfold strain_tf_python. destruct (isclose w 0); [reflexivity|]. rewrite K1, (W2 f).
  destruct (r_k out') as [k|] eqn:Ek; [|reflexivity]. destruct (wave_at inp' z' f) as [x|]; [|reflexivity]. f_equal. f_equal.
  pose proof (W1 Within) as A. pose proof (W1 IncomingOnly) as B. unfold wave_at in A, B. rewrite K1, Ek in A, B.
  assert (I : forall x y : C, Some x = Some y -> x = y) by (intros x0 y0 Q; now injection Q).
  apply I in A, B.
  unfold strain_numer. f_equal.
  transitivity (Cminus (Cplus (Cmult (r_a out) (Cexp (cterm k u))) (Cmult (r_a out) (Cexp (cterm k u)))) (Cplus (Cmult (r_a out) (Cexp (cterm k u))) (Cmult (r_b out) (Cexp (Copp (cterm k u))))));
    [ring|]. rewrite A, B. ring.
Qed.

Theorem finer_depths w ls ls' rs : finer ls ls' -> List.Forall (fun l => 0 <= wl_thick l) (removelast ls') -> calc_waves_python w ls = Ok rs ->
  exists rs', calc_waves_python w ls' = Ok rs' /\
  forall z1 z2 i1 u1 i2 u2 j1 v1 j2 v2 f1 f2,
    at_depth ls z1 i1 u1 -> at_depth ls z2 i2 u2 -> at_depth ls' z1 j1 v1 -> at_depth ls' z2 j2 v2 ->
    calc_accel_tf rs' (mkLoc j1 v1 f1) (mkLoc j2 v2 f2) = calc_accel_tf rs (mkLoc i1 u1 f1) (mkLoc i2 u2 f2) /\
    calc_strain_tf rs' w (mkLoc j1 v1 f1) (mkLoc j2 v2 f2) = calc_strain_tf rs w (mkLoc i1 u1 f1) (mkLoc i2 u2 f2).
Proof.
  intros Hf Hn H. destruct (finer_agree w ls ls' Hf rs H Hn) as (Hn0 & rs' & E' & HD). exists rs'. split; [exact E'|].
  intros z1 z2 i1 u1 i2 u2 j1 v1 j2 v2 f1 f2 D1 D2 D1' D2'.
  destruct (HD z1 j1 v1 D1') as (i & u & r1 & r1' & X1 & R1 & R1' & A1). destruct (depth_unique ls z1 i i1 u u1 Hn0 X1 D1) as [-> ->].
  destruct (HD z2 j2 v2 D2') as (i & u & r2 & r2' & X2 & R2 & R2' & A2). destruct (depth_unique ls z2 i i2 u u2 Hn0 X2 D2) as [-> ->].
  split.
  - unfold calc_accel_tf, wave_at_location. cbn [loc_index loc_within loc_field]. rewrite R1, R2, R1', R2'.
    destruct A1 as [_ A1], A2 as [_ A2]. now rewrite A1, A2.
  - unfold calc_strain_tf. cbn [loc_index loc_within loc_field]. rewrite R1, R2, R1', R2'. destruct f2; try reflexivity.
    f_equal. symmetry. now apply strain_agree.
Qed.

(** Discretised profiles. *)
Lemma discretize_finer w p f wf nl w' q :
  (forall a, In a (layers_of w p) -> (a < w_next w)%nat) -> NoDup (layers_of w p) ->
  layers_of w p <> [] -> List.Forall site_ok (removelast (view w p)) -> 0 < f -> 0 < wf ->
  List.Forall (fun l => shear_vel l = l_vs l) (removelast (view w p)) ->
  auto_discretize w p f wf nl = (w', Ok q) ->
  let wl := fun l => wlayer_of (layer_reset l) in
  finer (map wl (view w p)) (map wl (view w' q)) /\ nn (removelast (map wl (view w' q))).
Proof.
  intros Hal Hnd Hne Hok Hf Hwf Hvs E wl.
  destruct (auto_discretize_refines w p f wf nl Hal Hnd Hne Hok Hf Hwf)
    as (w1 & q1 & groups & bottom & E' & Hbot & Hgr & Hcore & _).
  rewrite E in E'. injection E' as <- <-.
  assert (EV : view w p = removelast (view w p) ++ [bottom]) by (now apply last_opt_inv).
  assert (HM : map wl (view w' q) = concat (map (map wl) groups) ++ [wl bottom]).
  { transitivity (map wl (concat groups ++ [bottom])).
    - clear -Hcore. induction Hcore as [|a b xs ys H HF IH]; [reflexivity|]. cbn [map]. rewrite IH.
      f_equal. unfold wl. symmetry. now apply same_core_wlayer.
    - rewrite map_app, concat_map. reflexivity. }
  split.
  - rewrite HM, EV, map_app. apply finer_groups; [discriminate|].
    clear -Hgr Hok Hvs. induction Hgr as [|l g ls gs H HF IH]; [constructor|].
    inversion Hok as [|? ? Ho1 Ho2]; subst. inversion Hvs as [|? ? Hv1 Hv2]; subst.
    cbn [map]. constructor; [|now apply IH].
    destruct (negb nl || is_nonlinear (l_soil l)); [|subst g; right; reflexivity].
    left. destruct H as (n & Hn & Hlen & HFx & _). exists (map l_thick g).
    assert (HS : Rsum (map l_thick g) * INR n = INR (length g) * l_thick l).
    { clear Hlen. induction HFx as [|x xs (X1 & X2 & _) HFx IHx].
      - cbn. ring.
      - cbn [map Rsum fold_right length]. rewrite S_INR. unfold Rsum in IHx.
        rewrite Rmult_plus_distr_r, IHx, X2. ring. }
    split; [destruct g; [cbn in Hlen; lia|discriminate]|]. split; [|split].
    + rewrite map_map. apply map_ext_in. intros x Hx. rewrite Forall_forall in HFx.
      destruct (HFx x Hx) as (X1 & X2 & X3 & X4). unfold wl. apply wlayer_reset_eq; congruence.
    + rewrite Hlen in HS. unfold wl; cbn [wlayer_of layer_reset wl_thick l_thick].
      apply Rmult_eq_reg_r with (INR n); [rewrite HS; ring|]. apply not_0_INR. lia.
    + apply phys_carries, sound_phys. apply reset_sound; assumption.
  - rewrite HM, removelast_last.
    clear -Hgr Hok. induction Hgr as [|l g ls gs H HF IH]; [constructor|].
    inversion Hok as [|? ? Ho1 Ho2]; subst. cbn [map concat]. apply Forall_app. split; [|now apply IH].
    destruct Ho1 as (_ & _ & Ht). destruct (negb nl || is_nonlinear (l_soil l)).
    + destruct H as (n & Hn & _ & HFx & _). apply Forall_map. apply List.Forall_impl with (2 := HFx). intros x (_ & X & _).
      unfold wl; cbn [wlayer_of layer_reset wl_thick l_thick]. assert (0 < INR n) by (apply lt_0_INR; lia).
      apply Rmult_le_reg_r with (INR n); [assumption|]. rewrite X. lra.
    + subst g. cbn [map]. constructor; [exact Ht|constructor].
Qed.

Lemma contains_at ls d i u : contains_depth ls d i u -> at_depth (map (fun l => wlayer_of (layer_reset l)) ls) d i u.
Proof.
  intros (a & l & b & -> & -> & S0 & P0 & L0). exists (map (fun l => wlayer_of (layer_reset l)) a), (wlayer_of (layer_reset l)), (map (fun l => wlayer_of (layer_reset l)) b).
  split; [now rewrite map_app|]. split; [now rewrite map_length|]. split; [|split; [exact P0|]].
  - rewrite <- S0. f_equal. rewrite map_map. clear. induction a as [|x a IH]; [reflexivity|]. rewrite total_thick_cons, <- IH. reflexivity.
  - intros H. apply L0. now destruct b.
Qed.

Theorem discretize_depths w p f wf nl w' q freq :
  (forall a, In a (layers_of w p) -> (a < w_next w)%nat) -> NoDup (layers_of w p) ->
  layers_of w p <> [] -> List.Forall site_ok (removelast (view w p)) -> 0 < f -> 0 < wf ->
  List.Forall (fun l => shear_vel l = l_vs l) (removelast (view w p)) ->
  auto_discretize w p f wf nl = (w', Ok q) ->
  forall rs, linear_elastic true freq (view w p) = Ok rs ->
  exists rs', linear_elastic true freq (view w' q) = Ok rs' /\
  forall z1 z2 i1 u1 i2 u2 j1 v1 j2 v2 f1 f2,
    contains_depth (view w p) z1 i1 u1 -> contains_depth (view w p) z2 i2 u2 ->
    contains_depth (view w' q) z1 j1 v1 -> contains_depth (view w' q) z2 j2 v2 ->
    calc_accel_tf rs' (mkLoc j1 v1 f1) (mkLoc j2 v2 f2) = calc_accel_tf rs (mkLoc i1 u1 f1) (mkLoc i2 u2 f2) /\
    calc_strain_tf rs' freq (mkLoc j1 v1 f1) (mkLoc j2 v2 f2) = calc_strain_tf rs freq (mkLoc i1 u1 f1) (mkLoc i2 u2 f2).
Proof.
  intros Hal Hnd Hne Hok Hf Hwf Hvs E rs Hrs. unfold linear_elastic in *. rewrite map_map in Hrs.
  destruct (discretize_finer w p f wf nl w' q Hal Hnd Hne Hok Hf Hwf Hvs E) as [HF HN].
  destruct (finer_depths freq _ _ rs HF HN Hrs) as (rs' & E1 & E2). exists rs'. split; [now rewrite map_map|].
  intros z1 z2 i1 u1 i2 u2 j1 v1 j2 v2 f1 f2 D1 D2 D3 D4. apply (E2 z1 z2); now apply contains_at.
Qed.
