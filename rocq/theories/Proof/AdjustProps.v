(** Property C18: adjustment of the minimum damping to a target attenuation. *)
From Coq Require Import String Sorted.
From Verif Require Import Common Model.Curve Model.Layer Model.Profile Model.Tools
  Spec.ProfileSpec Spec.ToolsSpec Proof.CommonFacts Proof.ProfileFacts Proof.ProfileOps Proof.HyperbolicFacts.
Local Open Scope R_scope.

Lemma kappa_cons l ls : kappa (l :: ls) = 2 * l_dmin l * (l_thick l / l_vs l) + kappa ls.
Proof. reflexivity. Qed.
Lemma thick_sum_cons l ls : thick_sum (l :: ls) = l_thick l / l_vs l ^ 2 + thick_sum ls.
Proof. reflexivity. Qed.
Lemma kappa_app a b : kappa (a ++ b) = kappa a + kappa b.
Proof. induction a as [|x a IH]; [cbn [app]; change (kappa []) with 0; lra|]. cbn [app]. rewrite !kappa_cons, IH. lra. Qed.
Lemma thick_sum_app a b : thick_sum (a ++ b) = thick_sum a + thick_sum b.
Proof. induction a as [|x a IH]; [cbn [app]; change (thick_sum []) with 0; lra|]. cbn [app]. rewrite !thick_sum_cons, IH. lra. Qed.
Lemma kappa_incr ls : Rsum (map incr_site_atten ls) = kappa ls.
Proof.
  induction ls as [|l ls IH]; [reflexivity|]. rewrite kappa_cons, <- IH.
  change (Rsum (map incr_site_atten (l :: ls))) with (incr_site_atten l + Rsum (map incr_site_atten ls)).
  unfold incr_site_atten, Rdiv. ring.
Qed.

Lemma map_opt_inv {A B} (f : A -> option B) xs ys : map_opt f xs = Some ys -> Forall2 (fun x y => f x = Some y) xs ys.
Proof.
  revert ys. induction xs as [|x xs IH]; cbn [map_opt]; intros ys H; [injection H as <-; constructor|].
  destruct (f x) as [y|] eqn:E; [|discriminate]. cbn in H. destruct (map_opt f xs) as [ys'|]; [|discriminate]. cbn in H.
  injection H as <-. constructor; auto.
Qed.
Lemma div_opt_inv x y z : div_opt x y = Some z -> y <> 0 /\ z = x / y.
Proof.
  unfold div_opt. destruct (Reqb y 0) eqn:E; [discriminate|]. apply Reqb_false in E. intros H. injection H as <-. auto.
Qed.

Lemma terms_gap sel terms :
  map_opt (fun tv => div_opt (fst tv) (snd tv ^ 2)) (combine (diff_zero (map l_depth sel)) (map l_vs sel)) = Some terms ->
  Rsum terms = gap_sum sel.
Proof.
  revert terms. induction sel as [|l sel IH]; intros terms H; [cbn in H; injection H as <-; reflexivity|].
  destruct sel as [|l' sel].
  - cbn -[div_opt pow] in H. destruct (div_opt 0 (l_vs l ^ 2)) as [z|] eqn:E; [|discriminate]. apply div_opt_inv in E as [_ ->].
    cbn -[pow] in H. injection H as <-. cbn -[pow]. unfold Rdiv. ring.
  - cbn [map diff_zero combine map_opt fst snd] in H. fold (map l_depth (l' :: sel)) in H.
    destruct (div_opt (l_depth l' - l_depth l) (l_vs l ^ 2)) as [z|] eqn:E; [|discriminate]. apply div_opt_inv in E as [_ ->].
    cbn [opt_bind] in H.
    change (match map l_depth sel with [] => [0] | d' :: _ => (d' - l_depth l') :: diff_zero (map l_depth sel) end)
      with (diff_zero (map l_depth (l' :: sel))) in H.
    destruct (map_opt _ _) as [ts|] eqn:E2 in H; [|discriminate]. cbn in H. injection H as <-.
    cbn [Rsum fold_right gap_sum]. change (fold_right Rplus 0 ts) with (Rsum ts). f_equal. apply IH. exact E2.
Qed.

Lemma new_dampings_inv sel r ds : new_dampings sel r = Some ds -> r <> 0 ->
  exists g, g * r = gap_sum sel /\ ds = map (fun l => 1 / (2 * g * l_vs l)) sel /\
    List.Forall (fun l => l_vs l <> 0) sel /\ (sel <> [] -> g <> 0).
Proof.
  intros H Hr. unfold new_dampings in H. destruct (map_opt _ (combine _ _)) as [terms|] eqn:E; [|discriminate].
  cbn [opt_bind] in H. apply terms_gap in E. destruct (div_opt (Rsum terms) r) as [g|] eqn:Eg; [|discriminate]. cbn [opt_bind] in H.
  apply div_opt_inv in Eg as [_ ->]. rewrite E in H. exists (gap_sum sel / r). split; [field; exact Hr|].
  apply map_opt_inv in H. clear E. set (g := gap_sum sel / r) in *. clearbody g. split; [|split].
  - induction H as [|l d sel' ds' Hd _ IH]; [reflexivity|]. cbn [map]. apply div_opt_inv in Hd as [_ ->]. now f_equal.
  - induction H as [|l d sel' ds' Hd _ IH]; constructor; auto.
    apply div_opt_inv in Hd as [Hd _]. intros Z. rewrite Z in Hd. apply Hd. ring.
  - intros Hn. destruct H as [|l d sel' ds' Hd _]; [congruence|].
    apply div_opt_inv in Hd as [Hd _]. intros Z. rewrite Z in Hd. apply Hd. ring.
Qed.

(** ** The heap *)

Lemma set_dampings_spec (f : layer -> R) h addrs : (forall l d, f (set_damping_min l d) = f l) ->
  forall h0, (forall a, h a = h0 a \/ h a = set_damping_min (h0 a) (f (h0 a))) ->
  forall a, set_dampings h (combine addrs (map f (map h0 addrs))) a =
    if in_dec Nat.eq_dec a addrs then set_damping_min (h0 a) (f (h0 a)) else h a.
Proof.
  intros Hf. revert h. induction addrs as [|b addrs IH]; intros h h0 Hh a; [reflexivity|].
  cbn [map combine]. unfold set_dampings. cbn [fold_left fst snd].
  fold (set_dampings (hset h b (set_damping_min (h b) (f (h0 b)))) (combine addrs (map f (map h0 addrs)))).
  assert (E : set_damping_min (h b) (f (h0 b)) = set_damping_min (h0 b) (f (h0 b))) by (destruct (Hh b) as [->| ->]; reflexivity).
  rewrite E, (IH _ h0).
  - destruct (in_dec Nat.eq_dec a (b :: addrs)) as [I|N].
    + destruct (in_dec Nat.eq_dec a addrs) as [I2|N2]; [reflexivity|]. destruct I as [<-|I]; [|contradiction]. apply hset_same.
    + destruct (in_dec Nat.eq_dec a addrs) as [I2|N2]; [exfalso; apply N; now right|]. apply hset_other. intros ->. apply N. now left.
  - intros c. destruct (Nat.eq_dec c b) as [->|Nc]; [rewrite hset_same; now right|]. rewrite hset_other by exact Nc. apply Hh.
Qed.
Lemma reset_idem l : layer_reset (layer_reset l) = layer_reset l.
Proof. reflexivity. Qed.
Lemma reset_layers_spec addrs : forall h a, reset_layers h addrs a = if in_dec Nat.eq_dec a addrs then layer_reset (h a) else h a.
Proof.
  induction addrs as [|b addrs IH]; intros h a; [reflexivity|]. unfold reset_layers. cbn [fold_left].
  fold (reset_layers (hset h b (layer_reset (h b))) addrs). rewrite IH.
  destruct (Nat.eq_dec a b) as [->|N].
  - rewrite hset_same. destruct (in_dec Nat.eq_dec b (b :: addrs)) as [_|X]; [|exfalso; apply X; now left].
    destruct (in_dec Nat.eq_dec b addrs); reflexivity.
  - rewrite hset_other by exact N. destruct (in_dec Nat.eq_dec a addrs) as [I|I], (in_dec Nat.eq_dec a (b :: addrs)) as [J|J]; try reflexivity.
    + exfalso. apply J. now right.
    + destruct J as [J|J]; [congruence|contradiction].
Qed.

(** ** The result of an adjustment *)

Lemma filter_view {A B} (P : B -> bool) (h : A -> B) xs : filter P (map h xs) = map h (filter (fun a => P (h a)) xs).
Proof. induction xs as [|a l IH]; [reflexivity|]. cbn [map filter]. destruct (P (h a)); cbn [map]; now rewrite IH. Qed.
Lemma adjust_in_place scatter w p target e w' q s : adjust_damping scatter w p target e true = (w', Ok (Some (q, s))) ->
  let sel := filter (fun l => negb (is_excluded e l)) (view w p) in
  let exc := filter (is_excluded e) (view w p) in
  q = p /\ scatter (view w p) = Ok (Some s) /\ sel <> [] /\ 0 < target - (s + kappa exc) /\
  exists g, g <> 0 /\ g * (target - (s + kappa exc)) = gap_sum sel /\ List.Forall (fun l => l_vs l <> 0) sel /\
    w_profs w' = w_profs w /\ (forall a, ~ In a (layers_of w p) -> w_heap w' a = w_heap w a) /\
    (forall a, In a (layers_of w p) -> w_heap w' a =
       if is_excluded e (w_heap w a) then layer_reset (w_heap w a)
       else set_damping_min (w_heap w a) (1 / (2 * g * l_vs (w_heap w a)))).
Proof.
  intros H. cbv zeta. unfold adjust_damping in H. destruct (scatter (view w p)) as [[sc|]|] eqn:Es; try discriminate.
  set (sa := filter (fun a => negb (is_excluded e (w_heap w a))) (layers_of w p)) in *.
  set (ea := filter (fun a => is_excluded e (w_heap w a)) (layers_of w p)) in *.
  assert (Vs : filter (fun l => negb (is_excluded e l)) (view w p) = map (w_heap w) sa) by exact (filter_view _ _ _).
  assert (Ve : filter (is_excluded e) (view w p) = map (w_heap w) ea) by exact (filter_view _ _ _).
  assert (In_sel : forall a, In a sa <-> In a (layers_of w p) /\ is_excluded e (w_heap w a) = false).
  { intros a. unfold sa. rewrite filter_In. destruct (is_excluded e (w_heap w a)); cbn; intuition congruence. }
  rewrite Vs, Ve.
  assert (K : Rsum (map (fun a => incr_site_atten (w_heap w a)) ea) = kappa (map (w_heap w) ea)) by (rewrite <- kappa_incr, map_map; reflexivity).
  rewrite K in H. destruct sa as [|a0 sa'] eqn:Esa; [discriminate|]. rewrite <- Esa in *.
  destruct (Rleb (target - (sc + kappa (map (w_heap w) ea))) 0) eqn:El; [discriminate|]. apply Rleb_false in El.
  destruct (new_dampings (map (w_heap w) sa) (target - (sc + kappa (map (w_heap w) ea)))) as [ds|] eqn:En; [|discriminate].
  injection H as <- <- <-. apply new_dampings_inv in En as (g & G1 & G2 & G3 & G4); [|lra].
  split; [reflexivity|]. split; [reflexivity|]. split; [rewrite Esa; discriminate|]. split; [lra|].
  exists g. split; [apply G4; rewrite Esa; discriminate|]. split; [exact G1|]. split; [exact G3|]. split; [reflexivity|].
  cbn [w_heap set_heap]. rewrite G2.
  set (f := fun l => 1 / (2 * g * l_vs l)).
  assert (Hs : forall a, set_dampings (w_heap w) (combine sa (map f (map (w_heap w) sa))) a =
    if in_dec Nat.eq_dec a sa then set_damping_min (w_heap w a) (f (w_heap w a)) else w_heap w a).
  { apply set_dampings_spec; [reflexivity|]. intros a. now left. }
  split.
  - intros a Ha. rewrite reset_layers_spec. destruct (in_dec Nat.eq_dec a (layers_of w p)) as [|_]; [contradiction|].
    rewrite Hs. destruct (in_dec Nat.eq_dec a sa) as [I|_]; [|reflexivity]. apply In_sel in I. tauto.
  - intros a Ha. rewrite reset_layers_spec. destruct (in_dec Nat.eq_dec a (layers_of w p)) as [_|]; [|contradiction].
    rewrite Hs. destruct (in_dec Nat.eq_dec a sa) as [I|N].
    + apply In_sel in I as [_ ->]. reflexivity.
    + destruct (is_excluded e (w_heap w a)) eqn:Ex; [reflexivity|]. exfalso. apply N, In_sel. auto.
Qed.

Definition adjusted (e : exclusion) (g : R) (l : layer) : layer :=
  if is_excluded e l then layer_reset l else set_damping_min l (1 / (2 * g * l_vs l)).
Lemma kappa_adjusted e g ls : g <> 0 -> List.Forall (fun l => l_vs l <> 0) (filter (fun l => negb (is_excluded e l)) ls) ->
  kappa (map (adjusted e g) ls) =
  kappa (filter (is_excluded e) ls) + thick_sum (filter (fun l => negb (is_excluded e l)) ls) / g.
Proof.
  intros Hg. induction ls as [|l ls IH]; cbn [map filter]; intros F.
  - change (kappa []) with 0. change (thick_sum []) with 0. unfold Rdiv. ring.
  - rewrite kappa_cons. unfold adjusted at 1 2 3. destruct (is_excluded e l); cbn [negb] in *.
    + rewrite IH by exact F. rewrite kappa_cons. cbn. lra.
    + pose proof (Forall_inv F) as V. apply Forall_inv_tail in F. cbn beta in V. rewrite IH by exact F. rewrite thick_sum_cons. cbn -[pow]. field. auto.
Qed.

Lemma adjust_in_place_view scatter w p target e w' q s : adjust_damping scatter w p target e true = (w', Ok (Some (q, s))) ->
  let sel := filter (fun l => negb (is_excluded e l)) (view w p) in
  let exc := filter (is_excluded e) (view w p) in
  q = p /\ scatter (view w p) = Ok (Some s) /\ sel <> [] /\ 0 < target - (s + kappa exc) /\
  exists g, g <> 0 /\ g * (target - (s + kappa exc)) = gap_sum sel /\ List.Forall (fun l => l_vs l <> 0) sel /\
    view w' p = map (adjusted e g) (view w p).
Proof.
  intros H. destruct (adjust_in_place _ _ _ _ _ _ _ _ H) as (A & B & C & D & g & G1 & G2 & G3 & G4 & G5 & G6).
  cbv zeta. split; [exact A|]. split; [exact B|]. split; [exact C|]. split; [exact D|]. exists g. split; [exact G1|]. split; [exact G2|]. split; [exact G3|].
  unfold view, layers_of. rewrite G4. rewrite map_map. apply map_ext_in. intros a Ha. rewrite G6 by exact Ha. reflexivity.
Qed.

(** The attenuation after the adjustment misses the target by the difference between
    thicknesses and distances to the next selected layer. *)
Lemma adjust_total scatter w p target e w' q s : adjust_damping scatter w p target e true = (w', Ok (Some (q, s))) ->
  let sel := filter (fun l => negb (is_excluded e l)) (view w p) in
  let exc := filter (is_excluded e) (view w p) in
  gap_sum sel * (s + kappa (view w' q) - target) = (target - (s + kappa exc)) * (thick_sum sel - gap_sum sel).
Proof.
  intros H. destruct (adjust_in_place_view _ _ _ _ _ _ _ _ H) as (-> & B & C & D & g & G1 & G2 & G3 & G4).
  cbv zeta. rewrite G4, kappa_adjusted by assumption. rewrite <- G2.
  set (rem := target - _) in *.
  set (sel := filter (fun l => negb _) _) in *. set (exc := filter (is_excluded e) _) in *.
  replace target with (rem + (s + kappa exc)) at 1 by (unfold rem; ring). field. exact G1.
Qed.
Lemma adjust_gap_ne scatter w p target e w' q s : adjust_damping scatter w p target e true = (w', Ok (Some (q, s))) ->
  gap_sum (filter (fun l => negb (is_excluded e l)) (view w p)) <> 0.
Proof.
  intros H. destruct (adjust_in_place_view _ _ _ _ _ _ _ _ H) as (-> & B & C & D & g & G1 & G2 & G3 & G4).
  rewrite <- G2. apply Rmult_integral_contrapositive. lra.
Qed.
Lemma adjust_total_iff scatter w p target e w' q s : adjust_damping scatter w p target e true = (w', Ok (Some (q, s))) ->
  let sel := filter (fun l => negb (is_excluded e l)) (view w p) in
  s + kappa (view w' q) = target <-> thick_sum sel = gap_sum sel.
Proof.
  intros H. pose proof (adjust_total _ _ _ _ _ _ _ _ H) as T. pose proof (adjust_gap_ne _ _ _ _ _ _ _ _ H) as N.
  destruct (adjust_in_place_view _ _ _ _ _ _ _ _ H) as (_ & _ & _ & P & _). cbv zeta in *.
  set (sel := filter (fun l => negb _) _) in *. set (rem := target - (s + kappa _)) in *. split; intros E.
  - replace (s + kappa (view w' q) - target) with 0 in T by lra. rewrite Rmult_0_r in T. symmetry in T. apply Rmult_integral in T. lra.
  - replace (thick_sum sel - gap_sum sel) with 0 in T by lra. rewrite Rmult_0_r in T. apply Rmult_integral in T. lra.
Qed.
Lemma adjust_under scatter w p target e w' q s : adjust_damping scatter w p target e true = (w', Ok (Some (q, s))) ->
  let sel := filter (fun l => negb (is_excluded e l)) (view w p) in
  0 < gap_sum sel ->
  (s + kappa (view w' q) < target <-> thick_sum sel < gap_sum sel) /\ (target < s + kappa (view w' q) <-> gap_sum sel < thick_sum sel).
Proof.
  intros H. pose proof (adjust_total _ _ _ _ _ _ _ _ H) as T.
  destruct (adjust_in_place_view _ _ _ _ _ _ _ _ H) as (_ & _ & _ & P & _). cbv zeta in *.
  set (sel := filter (fun l => negb _) _) in *. set (rem := target - (s + kappa _)) in *. intros G.
  set (x := s + kappa (view w' q)) in *. repeat split; intros E.
  - assert (gap_sum sel * (x - target) < 0) by nra. nra.
  - assert (rem * (thick_sum sel - gap_sum sel) < 0) by nra. nra.
  - assert (0 < gap_sum sel * (x - target)) by nra. nra.
  - assert (0 < rem * (thick_sum sel - gap_sum sel)) by nra. nra.
Qed.

(** ** Selected layers next to each other *)

Lemma total_thick_app a b : total_thick (a ++ b) = total_thick a + total_thick b.
Proof.
  induction a as [|x a IH]; [cbn [app]; change (total_thick []) with 0; lra|]. cbn [app].
  change (total_thick (x :: a ++ b)) with (l_thick x + total_thick (a ++ b)). change (total_thick (x :: a)) with (l_thick x + total_thick a). lra.
Qed.
Lemma depth_step ls above l l' below : depths_cumulative ls -> ls = above ++ l :: l' :: below -> l_depth l' - l_depth l = l_thick l.
Proof.
  intros D E. rewrite (D _ _ _ E). rewrite (D (above ++ [l]) l' below) by (rewrite E, <- app_assoc; reflexivity).
  rewrite total_thick_app. unfold total_thick at 2. cbn [fold_right]. ring.
Qed.
(** The sum over distances to the next layer is the sum over thicknesses, without the last layer. *)
Lemma gap_contiguous ls above sel below : depths_cumulative ls -> ls = above ++ sel ++ below ->
  gap_sum sel = thick_sum (removelast sel).
Proof.
  intros D. revert above. induction sel as [|l sel IH]; intros above E; [reflexivity|].
  destruct sel as [|l' sel]; [reflexivity|].
  change (gap_sum (l :: l' :: sel)) with ((l_depth l' - l_depth l) / l_vs l ^ 2 + gap_sum (l' :: sel)).
  change (removelast (l :: l' :: sel)) with (l :: removelast (l' :: sel)). rewrite thick_sum_cons.
  rewrite (depth_step ls above l l' (sel ++ below) D) by (rewrite E; reflexivity).
  rewrite (IH (above ++ [l])) by (rewrite E, <- app_assoc; reflexivity). reflexivity.
Qed.
Lemma thick_sum_last l ls : thick_sum (ls ++ [l]) = thick_sum ls + l_thick l / l_vs l ^ 2.
Proof. rewrite thick_sum_app, thick_sum_cons. change (thick_sum []) with 0. ring. Qed.

(** Only shallow layers are excluded and the half-space has no thickness. *)
Lemma adjust_meets_target scatter w p target e w' q s exc sel hs :
  adjust_damping scatter w p target e true = (w', Ok (Some (q, s))) ->
  depths_cumulative (view w p) -> view w p = exc ++ sel ++ [hs] ->
  List.Forall (fun l => is_excluded e l = true) exc -> List.Forall (fun l => is_excluded e l = false) (sel ++ [hs]) -> l_thick hs = 0 ->
  s + kappa (view w' q) = target.
Proof.
  intros H D E Fe Fs Z. apply (adjust_total_iff _ _ _ _ _ _ _ _ H). cbv zeta.
  assert (F : filter (fun l => negb (is_excluded e l)) (view w p) = sel ++ [hs]).
  { rewrite E, filter_app. replace (filter _ exc) with (@nil layer).
    - cbn [app]. clear -Fs. induction Fs as [|l r Hl _ IH]; [reflexivity|]. cbn [filter]. rewrite Hl. cbn. now rewrite IH.
    - clear -Fe. induction Fe as [|l r Hl _ IH]; [reflexivity|]. cbn [filter]. rewrite Hl. exact IH. }
  rewrite F. rewrite (gap_contiguous (view w p) exc (sel ++ [hs]) []) by (try assumption; rewrite E, app_nil_r; reflexivity).
  rewrite removelast_last, thick_sum_last, Z. unfold Rdiv. ring.
Qed.
(** With a half-space of positive thickness, or with the deepest layers excluded, the
    attenuation of the deepest selected layer is not counted. *)
Lemma adjust_exceeds_target scatter w p target e w' q s exc sel last deep :
  adjust_damping scatter w p target e true = (w', Ok (Some (q, s))) ->
  depths_cumulative (view w p) -> view w p = exc ++ (sel ++ [last]) ++ deep ->
  List.Forall (fun l => is_excluded e l = true) (exc ++ deep) -> List.Forall (fun l => is_excluded e l = false) (sel ++ [last]) ->
  List.Forall (fun l => 0 < l_thick l /\ 0 < l_vs l) (sel ++ [last]) ->
  target < s + kappa (view w' q).
Proof.
  intros H D E Fe Fs Fp.
  assert (F : filter (fun l => negb (is_excluded e l)) (view w p) = sel ++ [last]).
  { assert (N : forall xs, List.Forall (fun l => is_excluded e l = true) xs -> filter (fun l => negb (is_excluded e l)) xs = []).
    { intros xs G. induction G as [|l r Hl _ IH]; [reflexivity|]. cbn [filter]. rewrite Hl. exact IH. }
    apply Forall_app in Fe as [Fe1 Fe2]. rewrite E, !filter_app, (N exc), (N deep) by assumption. cbn [app]. rewrite app_nil_r.
    rewrite <- filter_app.
    clear -Fs. induction Fs as [|l r Hl _ IH]; [reflexivity|]. cbn [filter]. rewrite Hl. cbn. now rewrite IH. }
  pose proof (gap_contiguous (view w p) exc (sel ++ [last]) deep D E) as G. rewrite removelast_last in G.
  pose proof (adjust_gap_ne _ _ _ _ _ _ _ _ H) as N. rewrite F, G in N.
  apply Forall_app in Fp as [Fp1 Fp2]. apply Forall_inv in Fp2.
  assert (P : 0 <= thick_sum sel).
  { clear -Fp1. induction Fp1 as [|l r [Ht Hv] _ IH]; [apply Rle_refl|]. rewrite thick_sum_cons.
    assert (0 < l_thick l / l_vs l ^ 2) by (apply Rdiv_lt_0_compat; [lra|apply pow_lt; lra]). lra. }
  assert (Q : 0 < l_thick last / l_vs last ^ 2) by (apply Rdiv_lt_0_compat; [lra|apply pow_lt; lra]).
  destruct (adjust_under _ _ _ _ _ _ _ _ H) as [_ U]; [rewrite F, G; lra|]. apply U.
  rewrite F, G, thick_sum_last. lra.
Qed.

(** ** A layer excluded between two selected ones *)

Definition under (l l' : layer) : Prop := l_depth l + l_thick l <= l_depth l'.
Definition good_layer (l : layer) : Prop := 0 <= l_thick l /\ 0 < l_vs l.
Lemma total_thick_nonneg ls : List.Forall good_layer ls -> 0 <= total_thick ls.
Proof.
  induction 1 as [|l r [H _] _ IH]; [apply Rle_refl|]. change (total_thick (l :: r)) with (l_thick l + total_thick r). lra.
Qed.
Lemma cumulative_sorted ls : depths_cumulative ls -> List.Forall good_layer ls -> StronglySorted under ls.
Proof.
  intros D F. assert (G : forall above rest, ls = above ++ rest -> StronglySorted under rest).
  { intros above rest. revert above. induction rest as [|l rest IH]; intros above E; constructor.
    - apply (IH (above ++ [l])). rewrite E, <- app_assoc. reflexivity.
    - apply Forall_forall. intros x Hx. apply in_split in Hx as (m & b & Em). unfold under.
      rewrite (D above l rest E). rewrite (D (above ++ l :: m) x b) by (rewrite E, Em, <- app_assoc; reflexivity).
      rewrite total_thick_app. change (total_thick (l :: m)) with (l_thick l + total_thick m).
      assert (0 <= total_thick m); [|lra]. apply total_thick_nonneg.
      rewrite E, Em in F. apply Forall_app in F as [_ F]. apply Forall_inv_tail in F. now apply Forall_app in F as [F _]. }
  exact (G [] ls eq_refl).
Qed.
Lemma sorted_filter (P : layer -> bool) ls : StronglySorted under ls -> StronglySorted under (filter P ls).
Proof.
  induction 1 as [|l ls _ IH F]; cbn [filter]; [constructor|]. destruct (P l); [|exact IH]. constructor; [exact IH|].
  apply Forall_forall. intros x Hx. apply filter_In in Hx as [Hx _]. now apply (proj1 (Forall_forall _ _) F).
Qed.
Lemma gap_ge sel hs : StronglySorted under (sel ++ [hs]) -> List.Forall good_layer (sel ++ [hs]) -> l_thick hs = 0 ->
  thick_sum (sel ++ [hs]) <= gap_sum (sel ++ [hs]).
Proof.
  intros Hs F Z. induction sel as [|l sel IH].
  - cbn [app]. rewrite thick_sum_cons, Z. change (thick_sum []) with 0. cbn [gap_sum]. unfold Rdiv. lra.
  - cbn [app] in *. inversion Hs as [|? ? S1 S2]; subst. pose proof (Forall_inv F) as [_ V]. apply Forall_inv_tail in F. specialize (IH S1 F).
    rewrite thick_sum_cons. destruct (sel ++ [hs]) as [|l' r] eqn:E; [destruct sel; discriminate|].
    change (gap_sum (l :: l' :: r)) with ((l_depth l' - l_depth l) / l_vs l ^ 2 + gap_sum (l' :: r)).
    apply Forall_inv in S2. unfold under in S2.
    assert (l_thick l / l_vs l ^ 2 <= (l_depth l' - l_depth l) / l_vs l ^ 2); [|lra].
    apply Rmult_le_compat_r; [|lra]. left. apply Rinv_0_lt_compat, pow_lt, V.
Qed.
Lemma gap_gt a l x b hs r : a ++ l :: x :: b = r ++ [hs] -> StronglySorted under (r ++ [hs]) -> List.Forall good_layer (r ++ [hs]) -> l_thick hs = 0 ->
  l_depth l + l_thick l < l_depth x -> thick_sum (r ++ [hs]) < gap_sum (r ++ [hs]).
Proof.
  revert r. induction a as [|y a IH]; intros r E Hs F Z L; destruct r as [|y' r].
  - cbn [app] in E. injection E as _ E. discriminate.
  - cbn [app] in *. injection E as <- E.
    rewrite <- E in *. change (gap_sum (l :: x :: b)) with ((l_depth x - l_depth l) / l_vs l ^ 2 + gap_sum (x :: b)).
    rewrite thick_sum_cons. inversion Hs as [|? ? S1 S2]; subst. pose proof (Forall_inv F) as [_ V]. apply Forall_inv_tail in F.
    pose proof (gap_ge r hs) as G. rewrite <- E in G. specialize (G S1 F Z).
    assert (l_thick l / l_vs l ^ 2 < (l_depth x - l_depth l) / l_vs l ^ 2); [|lra].
    apply Rmult_lt_compat_r; [|lra]. apply Rinv_0_lt_compat, pow_lt, V.
  - cbn [app] in E. injection E as _ E. destruct a; discriminate.
  - cbn [app] in *. injection E as <- E. inversion Hs as [|? ? S1 S2]; subst. pose proof (Forall_inv F) as [_ V]. apply Forall_inv_tail in F.
    specialize (IH r E S1 F Z L). rewrite thick_sum_cons. destruct (r ++ [hs]) as [|l' r'] eqn:Er; [destruct r; discriminate|].
    change (gap_sum (y :: l' :: r')) with ((l_depth l' - l_depth y) / l_vs y ^ 2 + gap_sum (l' :: r')).
    apply Forall_inv in S2. unfold under in S2.
    assert (l_thick y / l_vs y ^ 2 <= (l_depth l' - l_depth y) / l_vs y ^ 2); [|lra].
    apply Rmult_le_compat_r; [|lra]. left. apply Rinv_0_lt_compat, pow_lt, V.
Qed.
Lemma adjust_below_target scatter w p target e w' q s a l m x b hs r :
  adjust_damping scatter w p target e true = (w', Ok (Some (q, s))) ->
  depths_cumulative (view w p) -> List.Forall (fun y => 0 <= l_thick y /\ 0 < l_vs y) (view w p) ->
  view w p = a ++ l :: m ++ x :: b -> view w p = r ++ [hs] ->
  is_excluded e l = false -> is_excluded e x = false -> is_excluded e hs = false -> l_thick hs = 0 ->
  List.Forall (fun y => is_excluded e y = true) m -> 0 < total_thick m ->
  s + kappa (view w' q) < target.
Proof.
  intros H D F E Er Xl Xx Xh Z Fm Tm.
  assert (N : forall xs, List.Forall (fun l => is_excluded e l = true) xs -> filter (fun l => negb (is_excluded e l)) xs = []).
  { intros xs G. induction G as [|y ys Hl _ IH]; [reflexivity|]. cbn [filter]. rewrite Hl. exact IH. }
  set (P := fun l => negb (is_excluded e l)) in *.
  assert (F1 : filter P (view w p) = filter P a ++ l :: x :: filter P b).
  { rewrite E, filter_app. cbn [filter]. rewrite filter_app, (N m Fm). cbn [filter app]. unfold P. rewrite Xl, Xx. reflexivity. }
  assert (F2 : filter P (view w p) = filter P r ++ [hs]).
  { rewrite Er, filter_app. cbn [filter]. unfold P. now rewrite Xh. }
  assert (S : StronglySorted under (filter P (view w p))) by (apply sorted_filter, cumulative_sorted; assumption).
  assert (Fg : List.Forall good_layer (filter P (view w p))).
  { apply Forall_forall. intros y Hy. apply filter_In in Hy as [Hy _]. now apply (proj1 (Forall_forall _ _) F). }
  assert (L : l_depth l + l_thick l < l_depth x).
  { rewrite (D _ _ _ E), (D (a ++ l :: m) x b) by (rewrite E, <- app_assoc; reflexivity). rewrite total_thick_app.
    change (total_thick (l :: m)) with (l_thick l + total_thick m). lra. }
  pose proof (gap_gt (filter P a) l x (filter P b) hs (filter P r)) as G. rewrite <- F1, F2 in G. rewrite F2 in S, Fg.
  specialize (G eq_refl S Fg Z L). rewrite <- F2 in G.
  apply (adjust_under _ _ _ _ _ _ _ _ H); fold P; [|exact G].
  apply Rle_lt_trans with (2 := G). rewrite F2. clear -Fg.
  induction Fg as [|y ys [Hy Hv] _ IH]; [apply Rle_refl|]. rewrite thick_sum_cons.
  assert (0 <= l_thick y / l_vs y ^ 2) by (apply Rmult_le_pos; [lra|left; apply Rinv_0_lt_compat, pow_lt, Hv]). lra.
Qed.

(** ** Which layers change, and how *)

(** Excluded layers keep their damping; the others get a damping in inverse proportion to their velocity. *)
Lemma adjust_dampings scatter w p target e w' q s : adjust_damping scatter w p target e true = (w', Ok (Some (q, s))) ->
  Forall2 (fun l l' => l_soil l' = l_soil l /\ l_thick l' = l_thick l /\ l_vs l' = l_vs l /\ l_depth l' = l_depth l /\
      (is_excluded e l = true -> l_dmin l' = l_dmin l)) (view w p) (view w' q) /\
  exists c, c <> 0 /\ Forall2 (fun l l' => is_excluded e l = false -> l_dmin l' * l_vs l' = c) (view w p) (view w' q).
Proof.
  intros H. destruct (adjust_in_place_view _ _ _ _ _ _ _ _ H) as (-> & _ & _ & _ & g & G1 & _ & G3 & ->). split.
  - generalize (view w p) as ls. intros ls. clear. induction ls as [|l ls IH]; cbn [map]; constructor; [|exact IH].
    unfold adjusted. destruct (is_excluded e l) eqn:E; repeat split; intros; try discriminate.
  - exists (1 / (2 * g)). split; [apply Rmult_integral_contrapositive; split; [lra|apply Rinv_neq_0_compat; lra]|].
    revert G3. generalize (view w p) as ls. intros ls. induction ls as [|l ls IH]; cbn [map filter]; intros F; constructor.
    + unfold adjusted. destruct (is_excluded e l) eqn:E; [discriminate|]. intros _. cbn. cbn [negb] in F. apply Forall_inv in F. field. auto.
    + apply IH. destruct (is_excluded e l); cbn [negb] in F; [exact F|]. now apply Forall_inv_tail in F.
Qed.
(** Nothing else changes. *)
Lemma adjust_frame scatter w p target e w' r : adjust_damping scatter w p target e true = (w', r) ->
  w_profs w' = w_profs w /\ forall a, ~ In a (layers_of w p) -> w_heap w' a = w_heap w a.
Proof.
  destruct r as [[[q s]|]|x]; intros H.
  - destruct (adjust_in_place _ _ _ _ _ _ _ _ H) as (A & B & C & D & g & G1 & G2 & G3 & G4 & G5 & G6). auto.
  - unfold adjust_damping in H. destruct (scatter (view w p)) as [[sc|]|]; try discriminate; [|injection H as <-; auto].
    destruct (filter _ _); [discriminate|]. destruct (Rleb _ _); [discriminate|]. destruct (new_dampings _ _); [discriminate|]. injection H as <-. auto.
  - unfold adjust_damping in H. destruct (scatter (view w p)) as [[sc|]|]; try discriminate; [|injection H as <-; auto].
    destruct (filter _ _); [injection H as <-; auto|]. destruct (Rleb _ _); [injection H as <-; auto|]. destruct (new_dampings _ _); discriminate.
Qed.
(** Without [inplace] a copy is adjusted, and everything that existed before stays as it was. *)
Lemma adjust_copy_is scatter w p target e :
  adjust_damping scatter w p target e false =
  adjust_damping scatter (fst (profile_copy w p)) (snd (profile_copy w p)) target e true.
Proof. unfold adjust_damping. destruct (profile_copy w p). reflexivity. Qed.
Lemma adjust_copy_frame scatter w p target e w' r : (forall a, In a (layers_of w p) -> (a < w_next w)%nat) ->
  adjust_damping scatter w p target e false = (w', r) ->
  (forall q, (q < w_pnext w)%nat -> w_profs w' q = w_profs w q) /\ (forall a, (a < w_next w)%nat -> w_heap w' a = w_heap w a).
Proof.
  intros Hal H. rewrite adjust_copy_is in H. apply adjust_frame in H as [A B].
  destruct (profile_copy_spec w p Hal) as (_ & _ & C & _ & D & E). cbv zeta in *. split.
  - intros q Hq. rewrite A. auto.
  - intros a Ha. rewrite B; [auto|]. intros I. apply C in I. lia.
Qed.
(** The errors. *)
Lemma adjust_errors scatter w p target e s : scatter (view w p) = Ok (Some s) ->
  let sel := filter (fun l => negb (is_excluded e l)) (view w p) in
  let exc := filter (is_excluded e) (view w p) in
  snd (adjust_damping scatter w p target e true) = Err RuntimeError <-> sel = [] \/ target <= s + kappa exc.
Proof.
  intros Es. cbv zeta. unfold adjust_damping. rewrite Es.
  assert (Vs : filter (fun l => negb (is_excluded e l)) (view w p) = map (w_heap w) (filter (fun a => negb (is_excluded e (w_heap w a))) (layers_of w p))) by exact (filter_view _ _ _).
  assert (Ve : filter (is_excluded e) (view w p) = map (w_heap w) (filter (fun a => is_excluded e (w_heap w a)) (layers_of w p))) by exact (filter_view _ _ _).
  rewrite Vs, Ve. rewrite <- kappa_incr, map_map. clear Vs Ve.
  destruct (filter (fun a => negb _) (layers_of w p)) as [|a0 sa]; [cbn; intuition|].
  destruct (Rleb _ 0) eqn:L.
  - apply Rleb_true in L. cbn [snd]. split; [intros _; right|reflexivity]. cbv beta in *. lra.
  - apply Rleb_false in L. destruct (new_dampings _ _); cbn [snd]; split; try discriminate; intros [X|X]; try discriminate; cbv beta in *; lra.
Qed.

Lemma map_opt_all {A B} (f : A -> option B) (g : A -> B) xs : List.Forall (fun x => f x = Some (g x)) xs -> map_opt f xs = Some (map g xs).
Proof. induction 1 as [|x xs E _ IH]; [reflexivity|]. cbn [map_opt map]. now rewrite E, IH. Qed.
Lemma div_opt_ne x y : y <> 0 -> div_opt x y = Some (x / y).
Proof. intros H. unfold div_opt. destruct (Reqb y 0) eqn:E; [apply Reqb_true in E; contradiction|reflexivity]. Qed.
(** In all other cases with velocities and at least two selected layers, values are found. *)
Lemma adjust_succeeds scatter w p target e s : scatter (view w p) = Ok (Some s) ->
  let sel := filter (fun l => negb (is_excluded e l)) (view w p) in
  let exc := filter (is_excluded e) (view w p) in
  s + kappa exc < target -> List.Forall (fun l => l_vs l <> 0) sel -> gap_sum sel <> 0 ->
  exists w', adjust_damping scatter w p target e true = (w', Ok (Some (p, s))).
Proof.
  intros Es. cbv zeta. unfold adjust_damping. rewrite Es.
  assert (Vs : filter (fun l => negb (is_excluded e l)) (view w p) = map (w_heap w) (filter (fun a => negb (is_excluded e (w_heap w a))) (layers_of w p))) by exact (filter_view _ _ _).
  assert (Ve : filter (is_excluded e) (view w p) = map (w_heap w) (filter (fun a => is_excluded e (w_heap w a)) (layers_of w p))) by exact (filter_view _ _ _).
  rewrite Vs, Ve. rewrite <- kappa_incr, map_map. clear Vs Ve Es.
  destruct (filter (fun a => negb _) (layers_of w p)) as [|a0 sa]; [intros _ _ G; cbn in G; congruence|].
  set (rem := target - _). intros L V G. destruct (Rleb rem 0) eqn:Q; [apply Rleb_true in Q; unfold rem in Q; cbv beta in *; lra|].
  apply Rleb_false in Q. set (sel := map (w_heap w) (a0 :: sa)) in *. clearbody sel. clearbody rem. clear L.
  assert (N : exists ds, new_dampings sel rem = Some ds).
  { unfold new_dampings.
    destruct (map_opt (fun tv => div_opt (fst tv) (snd tv ^ 2)) (combine (diff_zero (map l_depth sel)) (map l_vs sel))) as [terms|] eqn:E.
    - apply terms_gap in E. cbn [opt_bind]. rewrite div_opt_ne by lra. cbn [opt_bind]. rewrite E.
      rewrite (map_opt_all _ (fun l => 1 / (2 * (gap_sum sel / rem) * l_vs l))); [eexists; reflexivity|].
      eapply Forall_impl; [|exact V]. intros l Hl. cbv beta in *. apply div_opt_ne.
      apply Rmult_integral_contrapositive_currified; [|exact Hl]. apply Rmult_integral_contrapositive_currified; [lra|].
      apply Rmult_integral_contrapositive_currified; [exact G|apply Rinv_neq_0_compat; lra].
    - exfalso. rewrite (map_opt_all _ (fun tv => fst tv / snd tv ^ 2)) in E; [discriminate|]. apply Forall_forall. intros [t v] I. cbn [fst snd].
      apply div_opt_ne, pow_nonzero. apply in_combine_r, in_map_iff in I as (l & <- & I). now apply (proj1 (Forall_forall _ _) V). }
  destruct N as (ds & N). rewrite N. eexists. reflexivity.
Qed.

(** ** Exclusion by a list of names *)
Lemma substring_split s : forall m n, (m + n <= String.length s)%nat ->
  exists a b, s = (a ++ String.substring m n s ++ b)%string.
Proof.
  induction s as [|c s IH]; intros m n L; cbn [String.length] in L.
  - replace m with O by lia. replace n with O by lia. exists ""%string, ""%string. reflexivity.
  - destruct m as [|m]; [destruct n as [|n]|].
    + exists ""%string, (String c s). reflexivity.
    + destruct (IH 0%nat n ltac:(lia)) as (a & b & E). cbn [String.substring].
      assert (Z : forall t k, (k <= String.length t)%nat -> exists b, t = (String.substring 0 k t ++ b)%string).
      { clear. induction t as [|x t IH]; intros k L; [destruct k; exists ""%string; reflexivity|]. destruct k as [|k]; [exists (String x t); reflexivity|].
        cbn [String.length] in L. destruct (IH k ltac:(lia)) as (b & E). exists b. cbn. now rewrite <- E. }
      destruct (Z s n ltac:(lia)) as (b' & E'). exists ""%string, b'. cbn. now rewrite <- E'.
    + destruct (IH m n ltac:(lia)) as (a & b & E). cbn [String.substring]. exists (String c a), b. cbn. now rewrite <- E.
Qed.
Lemma substring_length s : forall m n, (String.length (String.substring m n s) <= String.length s - m)%nat.
Proof.
  induction s as [|c s IH]; intros m n; destruct m, n; cbn; try lia; [specialize (IH 0%nat n)|specialize (IH m 0%nat)|specialize (IH m (S n))]; lia.
Qed.
Lemma index_found e a b : String.index 0 e (a ++ e ++ b) <> None.
Proof.
  destruct e as [|c e]; [destruct (a ++ "" ++ b)%string; discriminate|].
  induction a as [|x a IH]; cbn [String.append String.index].
  - destruct (String.prefix _ _) eqn:P; [discriminate|]. exfalso. revert P. clear.
    assert (H : forall e : string, String.prefix e (e ++ b) = true).
    { induction e0 as [|y e0 IH]; [destruct b; reflexivity|]. cbn. destruct (Ascii.ascii_dec y y); [exact IH|congruence]. }
    change (String.prefix (String c e) (String c e ++ b) = false -> False). rewrite H. discriminate.
  - destruct (String.prefix _ _); [discriminate|]. cbn [String.append] in IH. destruct (String.index 0 (String c e) (a ++ String c (e ++ b))); [discriminate|congruence].
Qed.
Lemma exclude_list parts l : is_excluded (ExList parts) l = true <->
  exists e a b, In e parts /\ s_name (l_soil l) = (a ++ e ++ b)%string.
Proof.
  cbn [is_excluded]. rewrite existsb_exists. unfold str_in. split.
  - intros (e & I & H). destruct (String.index 0 e (s_name (l_soil l))) as [m|] eqn:E; [|discriminate].
    apply String.index_correct1 in E. pose proof (substring_length (s_name (l_soil l)) m (String.length e)) as L. rewrite E in L.
    destruct (Nat.le_gt_cases (m + String.length e) (String.length (s_name (l_soil l)))) as [G|G].
    + destruct (substring_split _ m (String.length e) G) as (a & b & S). rewrite E in S. now exists e, a, b.
    + assert (Z : String.length e = 0%nat) by lia. destruct e; [|discriminate]. exists ""%string, ""%string, (s_name (l_soil l)). auto.
  - intros (e & a & b & I & E). exists e. split; [exact I|]. rewrite E. destruct (String.index _ _ _) eqn:Q; [reflexivity|]. now apply index_found in Q.
Qed.
