(** Splitting layers does not change the computed motion. *)
From Coq Require Import List.
From Verif Require Import Common Proof.CommonFacts Model.Curve Model.Layer Model.Cplx Model.Waves
  Spec.WaveSpec Proof.CplxFacts Proof.WaveFacts.
From Coquelicot Require Import Complex.
Local Open Scope R_scope.

Lemma cterm_plus k s t : cterm k (s + t) = Cplus (cterm k s) (cterm k t).
Proof. unfold cterm. rewrite RtoC_plus. ring. Qed.

Lemma transmit_shift c k s t a b :
  transmit c (cterm k t) (Cmult a (Cexp (cterm k s))) (Cmult b (Cexp (Copp (cterm k s)))) =
  transmit c (cterm k (s + t)) a b.
Proof.
  unfold transmit. rewrite cterm_plus.
  replace (Copp (Cplus (cterm k s) (cterm k t))) with (Cplus (Copp (cterm k s)) (Copp (cterm k t))) by ring.
  rewrite !Cexp_plus. f_equal; ring.
Qed.

(** At zero frequency all amplitudes are one. *)
Lemma step_zero l l' : step_py 0 l l' (c_one, c_one) = (c_one, c_one).
Proof.
  unfold step_py, cimped, wave_num.
  destruct (cdivx (RtoC 0) (wl_vel l)) as [k|] eqn:E; [|reflexivity].
  destruct (cdivx (RtoC 0) (wl_vel l')) as [k'|] eqn:E'; [|reflexivity].
  unfold cdivx in E'. destruct (Ceq_dec (wl_vel l') (RtoC 0)); [discriminate|].
  injection E' as <-. unfold cdivx.
  destruct (Ceq_dec _ _) as [_|N]; [reflexivity|]. exfalso. apply N.
  unfold Cdiv. ring.
Qed.

Lemma waves_zero ls : waves_from 0 ls (c_one, c_one) = repeat (c_one, c_one) (length ls).
Proof.
  induction ls as [|l rest IH]; [reflexivity|]. cbn [waves_from length repeat]. f_equal.
  destruct rest as [|l' r]; [reflexivity|]. rewrite step_zero. exact IH.
Qed.

(** The rows above a layer do not depend on its thickness or what is below. *)
Lemma waves_prefix w v m : forall pre ab, exists W ab',
  length W = length pre /\
  (w = 0 -> ab = (c_one, c_one) -> ab' = (c_one, c_one)) /\
  forall h post, waves_from w (pre ++ mkWL v m h :: post) ab =
                 W ++ waves_from w (mkWL v m h :: post) ab'.
Proof.
  induction pre as [|l pre IH]; intros ab.
  - exists [], ab. repeat split; auto.
  - destruct pre as [|l' pre'].
    + exists [ab], (step_py w l (mkWL v m 0) ab). split; [reflexivity|]. split.
      { intros -> ->. apply step_zero. }
      intros h post. reflexivity.
    + destruct (IH (step_py w l l' ab)) as (W & ab' & HL & HZ & HW).
      exists (ab :: W), ab'. split; [cbn [length] in *; congruence|]. split.
      { intros -> ->. apply HZ; [reflexivity|apply step_zero]. }
      intros h post. cbn [app waves_from]. f_equal. exact (HW h post).
Qed.

(** Amplitudes inside the parts. *)
Fixpoint part_waves (k : C) (hs : list R) (a b : C) : list (C * C) :=
  match hs with
  | [] => []
  | t :: rest => (a, b) :: part_waves k rest (Cmult a (Cexp (cterm k t)))
                                             (Cmult b (Cexp (Copp (cterm k t))))
  end.

Lemma part_waves_length k hs : forall a b, length (part_waves k hs a b) = length hs.
Proof. induction hs as [|t hs IH]; intros a b; [reflexivity|]. cbn. now rewrite IH. Qed.

Lemma part_waves_nth k : forall hs a b j x,
  nth_error (part_waves k hs a b) j = Some x ->
  x = (Cmult a (Cexp (cterm k (Rsum (firstn j hs)))),
       Cmult b (Cexp (Copp (cterm k (Rsum (firstn j hs)))))).
Proof.
  induction hs as [|t hs IH]; intros a b [|j] x H; try discriminate.
  - cbn in H. injection H as <-. cbn [firstn Rsum fold_right]. rewrite cterm_0.
    replace (Copp (RtoC 0)) with (RtoC 0) by ring. rewrite Cexp_0. f_equal; ring.
  - cbn [part_waves nth_error] in H. rewrite (IH _ _ j x H).
    change (Rsum (firstn (S j) (t :: hs))) with (t + Rsum (firstn j hs)).
    rewrite cterm_plus.
    replace (Copp (Cplus (cterm k t) (cterm k (Rsum (firstn j hs)))))
      with (Cplus (Copp (cterm k t)) (Copp (cterm k (Rsum (firstn j hs))))) by ring.
    rewrite !Cexp_plus. f_equal; ring.
Qed.

Lemma split_here w v m post : w <> 0 -> v <> RtoC 0 -> m <> RtoC 0 ->
  forall hs ab, hs <> [] ->
  exists below, length below = length post /\
  waves_from w (mkWL v m (Rsum hs) :: post) ab = ab :: below /\
  waves_from w (map (mkWL v m) hs ++ post) ab =
    part_waves (Cdiv (RtoC w) v) hs (fst ab) (snd ab) ++ below.
Proof.
  intros Hw Hv Hm hs. set (k := Cdiv (RtoC w) v).
  assert (Hk : k <> RtoC 0) by (apply Cdiv_neq_0; [now apply RtoC_neq_0|assumption]).
  induction hs as [|t hs IH]; intros ab Hne; [contradiction|].
  destruct hs as [|t' hs'].
  - exists (match post with [] => [] | l' :: _ => waves_from w post (step_py w (mkWL v m (Rsum [t])) l' ab) end).
    split; [destruct post; [reflexivity|apply waves_from_length]|].
    split; [reflexivity|]. cbn [map app part_waves waves_from].
    replace (Rsum [t]) with t by (cbn; ring). destruct ab; reflexivity.
  - set (ab' := (Cmult (fst ab) (Cexp (cterm k t)), Cmult (snd ab) (Cexp (Copp (cterm k t))))).
    destruct (IH ab') as (below & HL & H1 & H2); [discriminate|].
    exists below. split; [exact HL|]. split.
    + cbn [waves_from] in H1 |- *. f_equal. injection H1 as <-.
      destruct post as [|l' post']; [reflexivity|]. f_equal.
      unfold step_py, cimped, wave_num. cbn [wl_vel wl_mod wl_thick].
      rewrite (cdivx_some (RtoC w) v) by assumption. fold k.
      destruct (cdivx (RtoC w) (wl_vel l')) as [k'|]; [|reflexivity].
      destruct (cdivx (Cmult k m) (Cmult k' (wl_mod l'))) as [c|]; [|reflexivity].
      change (Rsum (t :: t' :: hs')) with (t + Rsum (t' :: hs')).
      rewrite <- transmit_shift. reflexivity.
    + cbn [map app waves_from part_waves] in H2 |- *. destruct ab as [a b]. f_equal.
      assert (E : step_py w (mkWL v m t) (mkWL v m t') (a, b) = ab').
      { rewrite step_carry by (try split; assumption). cbn [wl_vel wl_mod wl_thick]. fold k.
        replace (Cdiv (Cmult k m) (Cmult k m)) with (RtoC 1).
        - apply transmit_one.
        - field. split; assumption. }
      rewrite E. exact H2.
Qed.

Lemma part_rows_motion w v m : v <> RtoC 0 -> forall hs a b j r,
  nth_error (rows w (map (mkWL v m) hs) (part_waves (Cdiv (RtoC w) v) hs a b)) j = Some r ->
  same_motion r (mkRow (wave_num w (mkWL v m (Rsum hs))) a b) (Rsum (firstn j hs)).
Proof.
  intros Hv hs a b j r H. rewrite rows_nth in H.
  destruct (nth_error (map (mkWL v m) hs) j) as [l|] eqn:El; [|discriminate].
  destruct (nth_error (part_waves _ hs a b) j) as [x|] eqn:Ex; [|discriminate].
  injection H as <-. rewrite nth_error_map in El.
  destruct (nth_error hs j) as [t|] eqn:Et; [|discriminate]. injection El as <-.
  apply part_waves_nth in Ex. subst x. cbn [fst snd].
  set (s := Rsum (firstn j hs)).
  intros z f. unfold wave_at. cbn [r_k r_a r_b].
  rewrite !wave_num_some by assumption. cbn [wl_vel]. set (k := Cdiv (RtoC w) v).
  rewrite cterm_plus.
  replace (Copp (Cplus (cterm k s) (cterm k z)))
    with (Cplus (Copp (cterm k s)) (Copp (cterm k z))) by ring.
  rewrite !Cexp_plus. f_equal. destruct f; ring.
Qed.

Lemma same_motion_refl r : same_motion r r 0.
Proof. intros z f. now rewrite Rplus_0_l. Qed.

Theorem split_motion w pre v m hs post :
  v <> RtoC 0 -> m <> RtoC 0 -> hs <> [] -> (post <> [] \/ 1e-8 < Rabs w) ->
  exists Ra r Rs Rb,
    calc_waves_python w (pre ++ mkWL v m (Rsum hs) :: post) = Ok (Ra ++ r :: Rb) /\
    calc_waves_python w (pre ++ map (mkWL v m) hs ++ post) = Ok (Ra ++ Rs ++ Rb) /\
    length Ra = length pre /\ length Rs = length hs /\ length Rb = length post /\
    forall j rj, nth_error Rs j = Some rj -> same_motion rj r (Rsum (firstn j hs)).
Proof.
  intros Hv Hm Hne Hc.
  assert (Hok : forall ls, ls <> [] -> calc_waves_python w ls =
     Ok (rows w ls (if isclose w 0 then set_last_ones (waves_from w ls (c_one, c_one))
                    else waves_from w ls (c_one, c_one)))).
  { intros [|? ?]; [contradiction|reflexivity]. }
  assert (Hmap : map (mkWL v m) hs <> []) by (destruct hs; [contradiction|discriminate]).
  destruct (waves_prefix w v m pre (c_one, c_one)) as (W & ab & HLW & HZ & HW).
  assert (Hsplit : exists subs below, length below = length post /\
     length subs = length hs /\
     waves_from w (mkWL v m (Rsum hs) :: post) ab = ab :: below /\
     waves_from w (map (mkWL v m) hs ++ post) ab = subs ++ below /\
     forall j rj, nth_error (rows w (map (mkWL v m) hs) subs) j = Some rj ->
       same_motion rj (mkRow (wave_num w (mkWL v m (Rsum hs))) (fst ab) (snd ab))
         (Rsum (firstn j hs))).
  { destruct (Req_dec w 0) as [-> | Hw].
    - rewrite (HZ eq_refl eq_refl).
      exists (repeat (c_one, c_one) (length hs)), (repeat (c_one, c_one) (length post)).
      rewrite !repeat_length. split; [reflexivity|]. split; [reflexivity|].
      split; [rewrite waves_zero; reflexivity|]. split.
      { rewrite waves_zero, app_length, map_length, repeat_app. reflexivity. }
      intros j rj H. rewrite rows_nth, nth_error_map in H.
      destruct (nth_error hs j) eqn:E; [|discriminate]. cbn [option_map] in H.
      destruct (nth_error (repeat (c_one, c_one) (length hs)) j) as [x|] eqn:Ex; [|discriminate].
      apply nth_error_In, repeat_spec in Ex. subst x. injection H as <-.
      intros z f. unfold wave_at. cbn [r_k r_a r_b fst snd].
      rewrite !wave_num_some by assumption. cbn [wl_vel].
      assert (Hc0 : forall d, cterm (Cdiv (RtoC 0) v) d = RtoC 0)
        by (intros d; unfold cterm, Cdiv; ring).
      now rewrite !Hc0.
    - destruct (split_here w v m post Hw Hv Hm hs ab Hne) as (below & HL & H1 & H2).
      exists (part_waves (Cdiv (RtoC w) v) hs (fst ab) (snd ab)), below.
      split; [exact HL|]. split; [apply part_waves_length|]. split; [exact H1|]. split; [exact H2|].
      now apply part_rows_motion. }
  destruct Hsplit as (subs & below & HLb & HLs & H1 & H2 & HM).
  assert (HW2 : waves_from w (pre ++ map (mkWL v m) hs ++ post) (c_one, c_one) = W ++ subs ++ below).
  { rewrite <- H2. destruct hs as [|t hs']; [contradiction|]. exact (HW t (map (mkWL v m) hs' ++ post)). }
  assert (HW1 : waves_from w (pre ++ mkWL v m (Rsum hs) :: post) (c_one, c_one) = W ++ ab :: below).
  { rewrite (HW (Rsum hs) post), H1. reflexivity. }
  set (below' := if isclose w 0 then set_last_ones below else below).
  assert (HB' : length below' = length post).
  { unfold below'. destruct (isclose w 0); [rewrite set_last_ones_length|]; exact HLb. }
  assert (Hfix : forall X x, (if isclose w 0 then set_last_ones (X ++ x :: below)
                            else X ++ x :: below) = X ++ x :: below').
  { intros X x. unfold below'. destruct (isclose w 0) eqn:Ei; [|reflexivity].
    destruct Hc as [Hp|Hbig]; [|rewrite isclose_zero_false in Ei by assumption; discriminate].
    destruct below as [|y ys]; [destruct post; [contradiction|discriminate]|].
    rewrite set_last_ones_app. reflexivity. }
  exists (rows w pre W), (mkRow (wave_num w (mkWL v m (Rsum hs))) (fst ab) (snd ab)),
         (rows w (map (mkWL v m) hs) subs), (rows w post below').
  assert (HLrows : forall ls abs, length ls = length abs -> length (rows w ls abs) = length ls).
  { intros ls abs H. unfold rows. rewrite map_length, combine_length. lia. }
  split; [|split; [|split; [|split; [|split]]]].
  - rewrite Hok by (destruct pre; discriminate). rewrite HW1.
    rewrite Hfix, rows_app by (symmetry; assumption). reflexivity.
  - rewrite Hok by (destruct pre; [destruct hs; [contradiction|discriminate]|discriminate]).
    rewrite HW2.
    assert (Hs : subs <> []) by (intros ->; destruct hs; [contradiction|discriminate]).
    destruct (exists_last Hs) as (subs' & x & ->).
    rewrite <- app_assoc. cbn [app]. rewrite (app_assoc W subs'). rewrite Hfix.
    rewrite <- app_assoc. rewrite rows_app by (symmetry; assumption). f_equal. f_equal.
    change (subs' ++ x :: below') with (subs' ++ [x] ++ below'). rewrite app_assoc.
    apply rows_app. rewrite map_length. symmetry. exact HLs.
  - apply HLrows. symmetry. exact HLW.
  - rewrite HLrows; rewrite map_length; [reflexivity|symmetry; exact HLs].
  - apply HLrows. symmetry. exact HB'.
  - exact HM.
Qed.

(** Surface and base rows under any refinement. *)
Lemma same_motion_trans r1 r2 r3 s t :
  same_motion r1 r2 s -> same_motion r2 r3 t -> same_motion r1 r3 (t + s).
Proof. intros H1 H2 z f. rewrite (H1 z f), (H2 (s + z) f). f_equal. ring. Qed.

Lemma finer_ends w ls ls' : finer ls ls' -> forall rs, calc_waves_python w ls = Ok rs ->
  exists rs', calc_waves_python w ls' = Ok rs' /\
    last_opt rs' = last_opt rs /\
    exists r0 r0', nth_error rs 0 = Some r0 /\ nth_error rs' 0 = Some r0' /\ same_motion r0' r0 0.
Proof.
  induction 1 as [ls|pre v m hs post ls' Hne Hp Hv Hm Hf IH]; intros rs H.
  - exists rs. split; [exact H|]. split; [reflexivity|].
    destruct ls as [|l ls]; [discriminate|]. apply Ok_inj in H. subst rs.
    destruct (nth_error (rows w (l :: ls) _) 0) as [r|] eqn:E.
    + exists r, r. repeat split. apply same_motion_refl.
    + exfalso. rewrite rows_nth in E. cbn [nth_error] in E.
      destruct (isclose w 0); [destruct ls; cbn in E; discriminate|discriminate].
  - destruct (split_motion w pre v m hs post Hv Hm Hne (or_introl Hp))
      as (Ra & r & Rs & Rb & E1 & E2 & La & Ls & Lb & HM).
    rewrite E1 in H. apply Ok_inj in H. subst rs.
    destruct (IH _ E2) as (rs' & E' & HLast & r0 & r0' & N0 & N0' & HS).
    exists rs'. split; [exact E'|].
    assert (Rb <> []) by (intros ->; destruct post; [contradiction|discriminate]).
    assert (HLa : forall X, last_opt (X ++ Rb) = last_opt Rb).
    { intros X. induction X as [|x X IHX]; [reflexivity|].
      cbn [app last_opt]. destruct (X ++ Rb) eqn:E; [|exact IHX].
      apply app_eq_nil in E. destruct E. contradiction. }
    split.
    + rewrite HLast. change (r :: Rb) with ([r] ++ Rb). now rewrite !app_assoc, !HLa.
    + destruct Ra as [|ra Ra'].
      * exists r, r0'. split; [reflexivity|]. split; [exact N0'|].
        destruct Rs as [|rs0 Rs']; [destruct hs; [contradiction|discriminate]|].
        cbn in N0. injection N0 as <-.
        pose proof (HM 0%nat rs0 eq_refl) as H0. cbn [firstn] in H0.
        pose proof (same_motion_trans _ _ _ _ _ HS H0) as H1.
        replace (Rsum [] + 0) with 0 in H1 by (cbn; ring). exact H1.
      * exists r0, r0'. split; [|split; assumption]. exact N0.
Qed.

(** Refining all layers at once. *)
Lemma finer_app_left pre ls ls' : finer ls ls' -> finer (pre ++ ls) (pre ++ ls').
Proof.
  induction 1 as [ls|pre' v m hs post ls' Hne Hp Hv Hm Hf IH]; [constructor|].
  rewrite app_assoc. apply finer_split; auto. rewrite <- app_assoc. exact IH.
Qed.

Lemma finer_groups : forall ls groups tail, tail <> [] ->
  Forall2 (fun l g => (exists hs, hs <> [] /\ g = map (mkWL (wl_vel l) (wl_mod l)) hs /\
                       Rsum hs = wl_thick l /\ carries l) \/ g = [l]) ls groups ->
  finer (ls ++ tail) (concat groups ++ tail).
Proof.
  intros ls groups tail Ht. induction 1 as [|l g ls groups H HF IH]; [constructor|].
  cbn [app concat]. rewrite <- app_assoc.
  destruct H as [(hs & Hne & -> & Hsum & [Hv Hm])| ->].
  - assert (El : l = mkWL (wl_vel l) (wl_mod l) (Rsum hs)) by (rewrite Hsum; now destruct l).
    rewrite El at 1.
    apply (finer_split [] (wl_vel l) (wl_mod l) hs (ls ++ tail)); auto.
    + intros E. apply app_eq_nil in E. destruct E. contradiction.
    + cbn [app]. now apply finer_app_left.
  - cbn [app]. now apply (finer_app_left [l]).
Qed.

(** Transfer functions between the ends of the profile. *)
Theorem finer_tf w ls ls' : finer ls ls' -> forall rs, calc_waves_python w ls = Ok rs ->
  exists rs', calc_waves_python w ls' = Ok rs' /\
  forall zs zb fs fb,
    calc_accel_tf rs' (mkLoc (length ls' - 1) zb fb) (mkLoc 0 zs fs) =
    calc_accel_tf rs (mkLoc (length ls - 1) zb fb) (mkLoc 0 zs fs) /\
    calc_accel_tf rs' (mkLoc 0 zs fs) (mkLoc (length ls' - 1) zb fb) =
    calc_accel_tf rs (mkLoc 0 zs fs) (mkLoc (length ls - 1) zb fb).
Proof.
  intros Hf rs H. destruct (finer_ends w ls ls' Hf rs H) as (rs' & E' & HLast & r0 & r0' & N0 & N0' & HS).
  exists rs'. split; [exact E'|].
  assert (HLen : forall l r, calc_waves_python w l = Ok r -> length r = length l).
  { intros [|l0 l] r E; [discriminate|]. apply Ok_inj in E. subst r.
    unfold rows. rewrite map_length, combine_length.
    destruct (isclose w 0); [rewrite set_last_ones_length|]; rewrite waves_from_length; lia. }
  assert (Hlast : forall (l : list wrow), l <> [] -> nth_error l (length l - 1) = last_opt l).
  { induction l as [|x [|y l] IH]; intros N; [contradiction|reflexivity|].
    cbn [length last_opt]. replace (S (S (length l)) - 1)%nat with (S (length (y :: l) - 1)) by (cbn; lia).
    cbn [nth_error]. apply IH. discriminate. }
  assert (N1 : rs <> []) by (destruct rs; discriminate).
  assert (N2 : rs' <> []) by (destruct rs'; discriminate).
  intros zs zb fs fb.
  assert (Hs : wave_at_location rs' (mkLoc 0 zs fs) = wave_at_location rs (mkLoc 0 zs fs)).
  { unfold wave_at_location. cbn [loc_index loc_within loc_field]. rewrite N0, N0'.
    rewrite (HS zs fs), Rplus_0_l. reflexivity. }
  assert (Hb : wave_at_location rs' (mkLoc (length ls' - 1) zb fb) =
               wave_at_location rs (mkLoc (length ls - 1) zb fb)).
  { unfold wave_at_location. cbn [loc_index loc_within loc_field].
    rewrite <- (HLen _ _ E'), <- (HLen _ _ H), !Hlast, HLast by assumption. reflexivity. }
  unfold calc_accel_tf. rewrite Hs, Hb. split; reflexivity.
Qed.
