(** Random soil types: C36, C37, C38, C63 (median) and C78. *)
From Verif Require Import Common Model.Curve Model.Layer Model.Profile Model.Gauss Model.Variation
  Spec.ProfileSpec Spec.VariationSpec Proof.CommonFacts Proof.ProfileFacts Proof.ProfileOps Proof.GaussFacts Proof.BuildFacts
  Proof.ThicknessProps.
Local Open Scope R_scope.

Lemma map_opt_all {A B} (f : A -> option B) (P : A -> Prop) (Q : A -> B -> Prop) xs :
  (forall x, P x -> exists y, f x = Some y /\ Q x y) -> List.Forall P xs ->
  exists ys, map_opt f xs = Some ys /\ Forall2 Q xs ys.
Proof.
  intros H. induction 1 as [|x xs Hx _ (ys & E & HF)]; [now exists []|].
  destruct (H x Hx) as (y & Ey & HQ). exists (y :: ys). cbn. rewrite Ey. cbn. rewrite E. split; [reflexivity|now constructor].
Qed.

Lemma std_mod_some m : 0 <= m <= 1 -> exists s, darendeli_std_mod m = Some s /\ 0 < s.
Proof.
  intros Hm. unfold darendeli_std_mod, sqrt_opt. pose proof (exp_pos 3.62) as He.
  assert (H : 0 <= 0.25 / exp 3.62 - (m - 0.5) ^ 2 / exp 3.62).
  { replace (0.25 / exp 3.62 - (m - 0.5) ^ 2 / exp 3.62) with ((0.25 - (m - 0.5) ^ 2) * / exp 3.62) by (unfold Rdiv; ring).
    apply Rmult_le_pos; [nra|left; now apply Rinv_0_lt_compat]. }
  rewrite (proj2 (Rleb_true _ _) H). cbn. eexists. split; [reflexivity|]. apply Rplus_lt_le_0_compat; [apply exp_pos|apply sqrt_pos].
Qed.
Lemma std_damp_some d : 0 <= d -> exists s, darendeli_std_damp d = Some s /\ 0 < s.
Proof.
  intros Hd. unfold darendeli_std_damp, sqrt_opt. rewrite (proj2 (Rleb_true _ _)) by lra. cbn. eexists. split; [reflexivity|].
  pose proof (exp_pos (-5)). pose proof (exp_pos (-0.25)). pose proof (sqrt_pos (100 * d)).
  assert (0 <= exp (-0.25) * sqrt (100 * d)) by (apply Rmult_le_pos; lra). lra.
Qed.
Lemma feps_pos : 0 < feps.
Proof. unfold feps. apply Rinv_0_lt_compat, pow_lt. lra. Qed.

Lemma vary_mod_some k z m : 0 <= m <= 1 -> exists x, vary_mod k z m = Some x.
Proof.
  intros Hm. destruct k as [|sm sd]; cbn [vary_mod].
  - destruct (std_mod_some m Hm) as (s & -> & _). cbn. eauto.
  - pose proof feps_pos. unfold div_opt. rewrite (proj2 (Reqb_false (1 - m + feps) 0)) by lra. cbn [opt_bind].
    set (f := exp _ * _). assert (0 <= f).
    { unfold f. apply Rmult_le_pos; [left; apply exp_pos|]. apply Rmult_le_pos; [lra|left; apply Rinv_0_lt_compat; lra]. }
    rewrite (proj2 (Reqb_false (1 + f) 0)) by lra. eauto.
Qed.
Lemma vary_damp_some k z d : 0 <= d -> exists x, vary_damp k z d = Some x.
Proof.
  intros Hd. destruct k as [|sm sd]; cbn [vary_damp]; [|eauto]. destruct (std_damp_some d Hd) as (s & -> & _). cbn. eauto.
Qed.

Lemma vary_values_spec f lim vs : fst lim <= snd lim -> List.Forall (fun v => exists x, f v = Some x) vs ->
  exists ys, vary_values f lim vs = Some ys /\ length ys = length vs /\ within lim ys /\
    Forall2 (fun v y => exists x, f v = Some x /\ y = clip x (fst lim) (snd lim)) vs ys.
Proof.
  intros Hl HF. unfold vary_values.
  destruct (map_opt_all (fun v => opt_bind (f v) (fun x => Some (clip x (fst lim) (snd lim)))) (fun v => exists x, f v = Some x)
     (fun v y => exists x, f v = Some x /\ y = clip x (fst lim) (snd lim)) vs) with (2 := HF) as (ys & E & H).
  { intros v (x & Ex). rewrite Ex. cbn. eauto. }
  exists ys. split; [exact E|]. split; [symmetry; eapply Forall2_len; eauto|]. split; [|exact H].
  unfold within. clear E HF. induction H as [|v y vs ys (x & _ & ->) _ IH]; constructor; [now apply clip_bounds|exact IH].
Qed.

(** C36 *)
Lemma soil_variation k lm ld id z s : fst lm <= snd lm -> fst ld <= snd ld ->
  List.Forall (fun m => 0 <= m <= 1) (mod_values s) -> List.Forall (fun d => 0 <= d) (damping_values (s_damp s)) ->
  exists s', vary_soil k lm ld id z s = Some s' /\
    s_class s' = s_class s /\ s_name s' = s_name s /\ s_unit_wt s' = s_unit_wt s /\
    within lm (mod_values s') /\ within ld (damping_values (s_damp s')) /\
    length (mod_values s') = length (mod_values s) /\ mod_strains s' = mod_strains s /\
    length (damping_values (s_damp s')) = length (damping_values (s_damp s)) /\
    damping_strains (s_damp s') = damping_strains (s_damp s) /\
    Forall2 (fun v y => exists x, vary_mod k (fst z) v = Some x /\ y = clip x (fst lm) (snd lm)) (mod_values s) (mod_values s') /\
    Forall2 (fun v y => exists x, vary_damp k (snd z) v = Some x /\ y = clip x (fst ld) (snd ld))
      (damping_values (s_damp s)) (damping_values (s_damp s')).
Proof.
  intros Hlm Hld Hm Hd. unfold vary_soil.
  assert (A : exists mr, match s_mod s with
     | None => Some None
     | Some c => opt_bind (vary_curve id (vary_mod k (fst z)) lm c) (fun c' => Some (Some c')) end = Some mr /\
     let vs := match mr with Some c => c_values c | None => [] end in
     let ss := match mr with Some c => c_strains c | None => [] end in
     within lm vs /\ length vs = length (mod_values s) /\ ss = mod_strains s /\
     Forall2 (fun v y => exists x, vary_mod k (fst z) v = Some x /\ y = clip x (fst lm) (snd lm)) (mod_values s) vs).
  { unfold mod_values, mod_strains in *. destruct (s_mod s) as [c|].
    - destruct (vary_values_spec (vary_mod k (fst z)) lm (c_values c) Hlm) as (ys & E & H1 & H2 & H3).
      { eapply Forall_impl; [|exact Hm]. intros v Hv. now apply vary_mod_some. }
      unfold vary_curve. rewrite E. cbn. eexists. split; [reflexivity|]. cbn. auto.
    - eexists. split; [reflexivity|]. cbn. repeat split; auto; constructor. }
  assert (B : exists dm, match s_damp s with
     | DConst d => opt_bind (vary_damp k (snd z) d) (fun x => Some (DConst (clip x (fst ld) (snd ld))))
     | DCurve c => opt_bind (vary_curve (S id) (vary_damp k (snd z)) ld c) (fun c' => Some (DCurve c')) end = Some dm /\
     within ld (damping_values dm) /\ length (damping_values dm) = length (damping_values (s_damp s)) /\
     damping_strains dm = damping_strains (s_damp s) /\
     Forall2 (fun v y => exists x, vary_damp k (snd z) v = Some x /\ y = clip x (fst ld) (snd ld))
        (damping_values (s_damp s)) (damping_values dm)).
  { destruct (s_damp s) as [d|c]; cbn [damping_values damping_strains] in *.
    - inversion Hd as [|? ? H0 _]; subst. destruct (vary_damp_some k (snd z) d H0) as (x & E). rewrite E. cbn.
      eexists. split; [reflexivity|]. cbn. repeat split; [constructor; [now apply clip_bounds|constructor]|].
      constructor; [eauto|constructor].
    - destruct (vary_values_spec (vary_damp k (snd z)) ld (c_values c) Hld) as (ys & E & H1 & H2 & H3).
      { eapply Forall_impl; [|exact Hd]. intros v Hv. now apply vary_damp_some. }
      unfold vary_curve. rewrite E. cbn. eexists. split; [reflexivity|]. cbn. auto. }
  destruct A as (mr & -> & A). destruct B as (dm & -> & B). cbn [opt_bind]. eexists. split; [reflexivity|].
  cbn zeta in A. unfold mod_values at 1 2 3, mod_strains at 1. cbn. destruct A as (A1 & A2 & A3 & A4). destruct B as (B1 & B2 & B3 & B4).
  repeat split; auto.
Qed.

(** Outside [0, 1] Darendeli's standard deviation of the modulus is not a number. *)
Lemma darendeli_nan z m : m < 0 \/ 1 < m -> vary_mod Darendeli z m = None.
Proof.
  intros Hm. cbn. unfold darendeli_std_mod, sqrt_opt. rewrite (proj2 (Rleb_false _ _)); [reflexivity|].
  replace (0.25 / exp 3.62 - (m - 0.5) ^ 2 / exp 3.62) with (- (((m - 0.5) ^ 2 - 0.25) * / exp 3.62)) by (unfold Rdiv; ring).
  assert (0 < ((m - 0.5) ^ 2 - 0.25) * / exp 3.62); [|lra].
  apply Rmult_lt_0_compat; [|apply Rinv_0_lt_compat, exp_pos]. replace 0.25 with (1 / 4) by lra. nra.
Qed.

(** C63: the median realisation. *)
Lemma darendeli_median lm ld id s : fst lm <= snd lm -> fst ld <= snd ld ->
  List.Forall (fun m => 0 <= m <= 1) (mod_values s) -> List.Forall (fun d => 0 <= d) (damping_values (s_damp s)) ->
  forall ppf v i draw, is_ppf ppf -> sv_kind v = Darendeli -> sv_lim_mod v = lm -> sv_lim_damp v = ld ->
  (exists ps n, sv_mode v = FixedPercentiles ps /\ py_index i (length ps) = Some n /\ nth_error ps n = Some (1 / 2)) ->
  exists s', soil_call ppf v (Some i) id draw s = Ok (Some s') /\
    mod_values s' = map (fun m => clip m (fst lm) (snd lm)) (mod_values s) /\
    damping_values (s_damp s') = map (fun d => clip d (fst ld) (snd ld)) (damping_values (s_damp s)).
Proof.
  intros Hlm Hld Hm Hd ppf v i draw Hp Hk El Eld (ps & n & Em & Ei & En).
  unfold soil_call, choose_pair. rewrite Em, Ei. cbn [opt_bind]. rewrite En.
  rewrite (percentile_median ppf rand_limit (sv_corr v) Hp) by (unfold rand_limit; lra). cbn [bind]. rewrite Hk, El, Eld.
  destruct (soil_variation Darendeli lm ld id (0, 0) s Hlm Hld Hm Hd) as (s' & E & _ & _ & _ & _ & _ & _ & _ & _ & _ & F1 & F2).
  exists s'. rewrite E. split; [reflexivity|].
  assert (G : forall (f : R -> option R) lim vs ys, (forall x y, f x = Some y -> y = x) ->
     Forall2 (fun v y => exists x, f v = Some x /\ y = clip x (fst lim) (snd lim)) vs ys ->
     ys = map (fun m => clip m (fst lim) (snd lim)) vs).
  { intros f lim vs ys Hf H. induction H as [|x y vs ys (x' & Ex & ->) _ IH]; [reflexivity|]. cbn. rewrite (Hf _ _ Ex), IH. reflexivity. }
  split; (eapply G; [|eassumption]); cbn [fst snd vary_mod vary_damp]; intros x y Ex.
  - destruct (darendeli_std_mod x); [|discriminate]. cbn in Ex. injection Ex as <-. ring.
  - destruct (darendeli_std_damp x); [|discriminate]. cbn in Ex. injection Ex as <-. ring.
Qed.
Lemma spid_median sm sd m : 0 <= m <= 1 ->
  exists x, vary_mod (Spid sm sd) 0 m = Some x /\ x = m / (1 + feps) /\ (0 < m -> x < m) /\ m - feps <= x.
Proof.
  intros Hm. pose proof feps_pos as He. cbn [vary_mod]. unfold div_opt. rewrite (proj2 (Reqb_false (1 - m + feps) 0)) by lra. cbn [opt_bind].
  rewrite Rmult_0_l, exp_0, Rmult_1_l.
  assert (0 <= m / (1 - m + feps)) by (apply Rmult_le_pos; [lra|left; apply Rinv_0_lt_compat; lra]).
  rewrite (proj2 (Reqb_false (1 + m / (1 - m + feps)) 0)) by lra. eexists. split; [reflexivity|].
  assert (Hx : m / (1 - m + feps) / (1 + m / (1 - m + feps)) = m / (1 + feps)) by (field; lra).
  rewrite Hx. split; [reflexivity|]. split.
  - intros Hp. apply (Rmult_lt_reg_r (1 + feps)); [lra|]. unfold Rdiv. rewrite Rmult_assoc, Rinv_l by lra. nra.
  - apply (Rmult_le_reg_r (1 + feps)); [lra|]. unfold Rdiv. rewrite Rmult_assoc, Rinv_l by lra. nra.
Qed.

(** ** Profiles *)

Lemma dict_get_last {A} (d : list (nat * A)) key v : dict_get d key = Some v ->
  exists before after, d = before ++ (key, v) :: after /\ List.Forall (fun kv => fst kv <> key) after.
Proof.
  unfold dict_get. intros H. destruct (find _ (rev d)) as [kv|] eqn:E; [|discriminate]. cbn in H. injection H as <-.
  assert (G : forall l : list (nat * A), find (fun kv0 => Nat.eqb (fst kv0) key) l = Some kv ->
     exists u x, l = u ++ kv :: x /\ fst kv = key /\ List.Forall (fun kv0 => fst kv0 <> key) u).
  { induction l as [|y l IH]; [discriminate|]. cbn. destruct (Nat.eqb_spec (fst y) key) as [Ek|Ek]; intros Hf.
    - injection Hf as ->. exists [], l. auto.
    - destruct (IH Hf) as (u & x & -> & H1 & H2). exists (y :: u), x. split; [reflexivity|]. split; [exact H1|now constructor]. }
  destruct (G _ E) as (u & x & Er & Hk & Hu). exists (rev x), (rev u).
  apply (f_equal (@rev _)) in Er. rewrite rev_involutive in Er. rewrite Er, rev_app_distr. cbn. rewrite <- app_assoc. cbn.
  split; [destruct kv; cbn in *; subst; reflexivity|]. apply Forall_rev, Hu.
Qed.

(** The realisation stored for each layer's soil type. *)
Lemma realisations_spec ppf v si items : forall id draws d, length draws = length items ->
  realisations ppf v si id items draws = Ok d ->
  length d = length items /\
  forall i key s z, nth_error items i = Some (key, s) -> nth_error draws i = Some z ->
    exists s' id', nth_error d i = Some (key, s') /\ (id <= id')%nat /\ soil_call ppf v si id' z s = Ok s'.
Proof.
  induction items as [|[key s] items IH]; intros id draws d Hl E.
  { destruct draws; [|discriminate]. injection E as <-. split; [reflexivity|]. intros i ? ? ? H. destruct i; discriminate. }
  destruct draws as [|z draws]; [discriminate|]. cbn [realisations] in E.
  destruct (soil_call ppf v si id z s) as [s'|e] eqn:Es; cbn [bind] in E; [|discriminate].
  destruct (realisations ppf v si (S (S id)) items draws) as [r|e] eqn:Er; cbn [bind] in E; [|discriminate].
  injection E as <-. injection Hl as Hl. destruct (IH _ _ _ Hl Er) as [Hlen Hn]. split; [cbn; now rewrite Hlen|].
  intros [|i] key0 s0 z0 H1 H2; cbn in H1, H2.
  - injection H1 as <- <-. injection H2 as <-. exists s', id. auto.
  - destruct (Hn _ _ _ _ H1 H2) as (s1 & id' & G1 & G2 & G3). exists s1, id'. split; [exact G1|]. split; [lia|exact G3].
Qed.

Lemma varied_layers_spec d keys : forall ls layers, varied_layers d keys ls = Ok (Some layers) -> (length ls <= length keys)%nat ->
  length layers = length ls /\
  forall i l key l', nth_error ls i = Some l -> nth_error keys i = Some key -> nth_error layers i = Some l' ->
    exists s', dict_get d key = Some (Some s') /\ l' = layer_make s' (l_thick l) (l_vs l) (l_dmin l).
Proof.
  induction keys as [|key keys IH]; intros ls layers E Hl.
  { destruct ls; [|cbn in Hl; lia]. injection E as <-. split; [reflexivity|]. intros [|?] ? ? ? H; discriminate. }
  destruct ls as [|l ls]. { injection E as <-. split; [reflexivity|]. intros [|?] ? ? ? H; discriminate. }
  cbn [varied_layers] in E. destruct (dict_get d key) as [s'|] eqn:Ed; [|discriminate].
  destruct (varied_layers d keys ls) as [r|e] eqn:Er; cbn [bind] in E; [|discriminate]. injection E as E.
  destruct s' as [s'|]; [|discriminate]. destruct r as [r|]; [|discriminate]. cbn in E. injection E as <-.
  destruct (IH _ _ Er ltac:(cbn in Hl; lia)) as [Hlen Hn]. split; [cbn; now rewrite Hlen|].
  intros [|i] l0 key0 l0' H1 H2 H3; cbn in H1, H2, H3.
  - injection H1 as <-. injection H2 as <-. injection H3 as <-. eauto.
  - eauto.
Qed.

(** C37, C78 *)
Lemma vary_profile_spec ppf v w p si keys id dr w' q :
  allocated w p -> view w p <> [] -> length keys = length (view w p) -> length dr = length (view w p) ->
  vary_profile ppf v w p si keys id dr = (w', Some (Ok q)) ->
  length (view w' q) = length (view w p) /\
  (forall i l l' key, nth_error (view w p) i = Some l -> nth_error (view w' q) i = Some l' -> nth_error keys i = Some key ->
     (S i < length (view w p))%nat \/ sv_bedrock v = true ->
     l_thick l' = l_thick l /\ l_vs l' = l_vs l /\ l_dmin l' = l_dmin l /\ damping l' = l_dmin l /\
     exists j lj z id', nth_error (view w p) j = Some lj /\ nth_error keys j = Some key /\ nth_error dr j = Some z /\
       soil_call ppf v si id' z (l_soil lj) = Ok (Some (l_soil l')) /\ (id <= id')%nat /\
       (forall j', nth_error keys j' = Some key -> (j' <= j)%nat)) /\
  (forall i j li lj key, nth_error keys i = Some key -> nth_error keys j = Some key ->
     nth_error (view w' q) i = Some li -> nth_error (view w' q) j = Some lj ->
     ((S i < length (view w p))%nat /\ (S j < length (view w p))%nat) \/ sv_bedrock v = true -> l_soil li = l_soil lj) /\
  (sv_bedrock v = false -> last_opt (layers_of w' q) = last_opt (layers_of w p)) /\
  p_wt (w_profs w' q) = p_wt (w_profs w p) /\
  (forall a, (a < w_next w)%nat -> same_core (w_heap w a) (w_heap w' a)) /\
  (forall a, (a < w_next w)%nat -> sv_bedrock v = true \/ last_opt (layers_of w p) <> Some a -> w_heap w' a = w_heap w a) /\
  (forall r, (r < w_pnext w)%nat -> w_profs w' r = w_profs w r) /\
  (w_next w <= w_next w')%nat /\ q = w_pnext w /\ w_pnext w' = S (w_pnext w) /\
  (forall a, In a (layers_of w' q) ->
     (w_next w <= a < w_next w')%nat \/ (sv_bedrock v = false /\ last_opt (layers_of w p) = Some a)).
Proof.
  intros Hal Hne Hk Hd E. unfold vary_profile in E.
  destruct (realisations ppf v si id (combine keys (iter_soil_types (view w p))) dr) as [d|e] eqn:Er; [|discriminate].
  assert (Hits : length (combine keys (iter_soil_types (view w p))) = length (view w p)).
  { rewrite combine_length. unfold iter_soil_types. rewrite map_length. lia. }
  assert (Hd2 : length dr = length (combine keys (iter_soil_types (view w p)))) by (rewrite Hits; exact Hd).
  destruct (realisations_spec _ _ _ _ _ _ _ Hd2 Er) as [Hdl Hdn].
  set (ls' := if sv_bedrock v then view w p else removelast (view w p)) in *.
  destruct (varied_layers d keys ls') as [[layers|]|e] eqn:Ev; try discriminate.
  assert (Hls' : (length ls' <= length keys)%nat) by (unfold ls'; destruct (sv_bedrock v); rewrite ?removelast_length; lia).
  destruct (varied_layers_spec _ _ _ _ Ev Hls') as [Hll Hln].
  set (tail := if sv_bedrock v then [] else match last_opt (layers_of w p) with Some b => [b] | None => [] end).
  assert (Hlast : exists b, last_opt (layers_of w p) = Some b).
  { destruct (layers_of w p) as [|a0 rest] eqn:El; [unfold view in Hne; rewrite El in Hne; contradiction|]. apply last_opt_some. }
  destruct Hlast as (b & Hb).
  assert (E' : (let (w1, addrs) := alloc_layers w layers in let (w2, q0) := new_profile w1 (addrs ++ tail) (p_wt (w_profs w p)) in
                (w2, Some (Ok q0))) = (w', Some (Ok q))).
  { unfold tail. destruct (sv_bedrock v); [exact E|]. rewrite Hb in *. exact E. }
  clear E. assert (Htail : forall a, In a tail -> (a < w_next w)%nat).
  { intros a Ha. unfold tail in Ha. destruct (sv_bedrock v); [destruct Ha|]. rewrite Hb in Ha. destruct Ha as [<-|[]].
    apply Hal, (last_opt_In _ _ Hb). }
  assert (Hnd : NoDup tail).
  { unfold tail. destruct (sv_bedrock v); [constructor|]. rewrite Hb. constructor; [intros []|constructor]. }
  pose proof (built_profile w layers tail (p_wt (w_profs w p)) Htail Hnd) as B. cbv zeta in B.
  destruct (alloc_layers w layers) as [w1 addrs]. cbn [fst snd] in B.
  destruct (new_profile w1 (addrs ++ tail) (p_wt (w_profs w p))) as [w2 q0]. cbn [fst snd] in B. injection E' as -> ->.
  destruct B as (B1 & B2 & B3 & B4 & B5 & B6 & B7 & B8 & B9 & B10 & B11).
  assert (Hlen : length (view w' q) = length (view w p)).
  { apply Forall2_len in B2. rewrite <- B2, app_length, map_length, Hll. unfold ls', tail.
    assert (length (view w p) <> 0%nat) by (destruct (view w p); [contradiction|discriminate]).
    destruct (sv_bedrock v); cbn; [lia|]. rewrite Hb. cbn. rewrite removelast_length. lia. }
  assert (Hnth : forall i l l' key, nth_error (view w p) i = Some l -> nth_error (view w' q) i = Some l' -> nth_error keys i = Some key ->
     (S i < length (view w p))%nat \/ sv_bedrock v = true ->
     exists s', dict_get d key = Some (Some s') /\ same_core (layer_make s' (l_thick l) (l_vs l) (l_dmin l)) l').
  { intros i l l' key H1 H2 H3 Hc.
    assert (Hi : nth_error ls' i = Some l).
    { unfold ls'. destruct (sv_bedrock v); [exact H1|]. clear -H1 Hc.
      destruct Hc as [Hc|]; [|discriminate]. destruct (view w p) as [|x xs _] using rev_ind; [destruct i; discriminate|].
      rewrite removelast_app by discriminate. cbn. rewrite app_nil_r. rewrite app_length in Hc. cbn in Hc.
      rewrite nth_error_app1 in H1 by lia. exact H1. }
    assert (Hx : exists x, nth_error layers i = Some x).
    { destruct (nth_error layers i) eqn:En; [eauto|]. apply nth_error_None in En. rewrite Hll in En.
      assert (i < length ls')%nat by (apply nth_error_Some; congruence). lia. }
    destruct Hx as (x & Hx). destruct (Hln _ _ _ _ Hi H3 Hx) as (s' & G1 & ->). exists s'. split; [exact G1|].
    assert (HF2 : forall (P : layer -> layer -> Prop) xs ys, Forall2 P xs ys -> forall i x y, nth_error xs i = Some x ->
       nth_error ys i = Some y -> P x y).
    { clear. induction 1; intros i a b0 Ha Hb0; [destruct i; discriminate|]. destruct i; cbn in *; [congruence|eauto]. }
    eapply HF2; [exact B2| |exact H2]. rewrite nth_error_app1; [exact Hx|]. apply nth_error_Some. congruence. }
  split; [exact Hlen|]. split; [|split; [|split; [|split; [exact B3|split; [exact B6|split; [|split; [exact B8|split; [exact B10|split; [exact B1|split; [exact B11|]]]]]]]]]].
  - intros i l l' key H1 H2 H3 Hc. destruct (Hnth _ _ _ _ H1 H2 H3 Hc) as (s' & G1 & G2).
    pose proof (same_core_make _ _ _ _ _ G2) as (C1 & C2 & C3 & C4). destruct G2 as (_ & _ & _ & _ & _ & C5 & _).
    split; [exact C2|]. split; [exact C3|]. split; [exact C4|]. split; [unfold damping; rewrite <- C5; reflexivity|].
    destruct (dict_get_last _ _ _ G1) as (before & after & Ed & Ha).
    set (j := length before).
    assert (Hdj : nth_error d j = Some (key, Some s')) by (rewrite Ed; unfold j; rewrite nth_error_app2, Nat.sub_diag; [reflexivity|lia]).
    assert (Hj : (j < length (view w p))%nat) by (rewrite <- Hits, <- Hdl; apply nth_error_Some; congruence).
    assert (Hget : forall n, (n < length (view w p))%nat -> exists k l0 z0, nth_error keys n = Some k /\ nth_error (view w p) n = Some l0 /\
       nth_error dr n = Some z0 /\ nth_error (combine keys (iter_soil_types (view w p))) n = Some (k, l_soil l0)).
    { intros n Hn. destruct (nth_error keys n) as [k|] eqn:E1; [|apply nth_error_None in E1; lia].
      destruct (nth_error (view w p) n) as [l0|] eqn:E2; [|apply nth_error_None in E2; lia].
      destruct (nth_error dr n) as [z0|] eqn:E3; [|apply nth_error_None in E3; lia].
      exists k, l0, z0. repeat split; auto. unfold iter_soil_types.
      assert (E4 : nth_error (map l_soil (view w p)) n = Some (l_soil l0)) by now apply map_nth_error.
      clear -E1 E4. revert n E1 E4. generalize (map l_soil (view w p)). induction keys as [|x xs IH]; intros [|y ys] [|n] A B; try discriminate; cbn in *; [congruence|auto]. }
    destruct (Hget j Hj) as (kj & lj & zj & K1 & K2 & K3 & K4).
    destruct (Hdn _ _ _ _ K4 K3) as (s1 & id' & D1 & D2 & D3). rewrite Hdj in D1. injection D1 as <- <-.
    exists j, lj, zj, id'. rewrite C1. repeat split; auto.
    intros j' Hj'. destruct (le_lt_dec j' j) as [|Hgt]; [assumption|exfalso].
    assert (Hj2 : (j' < length (view w p))%nat) by (rewrite <- Hk; apply nth_error_Some; congruence).
    destruct (Hget j' Hj2) as (kj' & lj' & zj' & K1' & K2' & K3' & K4'). rewrite Hj' in K1'. injection K1' as <-.
    destruct (Hdn _ _ _ _ K4' K3') as (s2 & ? & D1 & _ & _).
    rewrite Ed in D1. rewrite nth_error_app2 in D1 by (unfold j in Hgt; lia).
    destruct (j' - length before)%nat as [|n] eqn:En; [unfold j in Hgt; lia|]. cbn in D1. apply nth_error_In in D1.
    rewrite Forall_forall in Ha. now apply Ha in D1.
  - intros i j li lj key Ki Kj Vi Vj Hc.
    assert (exists l, nth_error (view w p) i = Some l) as (l & Hli).
    { destruct (nth_error (view w p) i) eqn:En; [eauto|]. apply nth_error_None in En.
      assert (i < length (view w' q))%nat by (apply nth_error_Some; congruence). lia. }
    assert (exists l, nth_error (view w p) j = Some l) as (l2 & Hlj).
    { destruct (nth_error (view w p) j) eqn:En; [eauto|]. apply nth_error_None in En.
      assert (j < length (view w' q))%nat by (apply nth_error_Some; congruence). lia. }
    destruct (Hnth _ _ _ _ Hli Vi Ki) as (s1 & G1 & S1); [tauto|]. destruct (Hnth _ _ _ _ Hlj Vj Kj) as (s2 & G2 & S2); [tauto|].
    rewrite G1 in G2. injection G2 as <-. apply same_core_make in S1, S2. destruct S1 as (-> & _). now destruct S2 as (-> & _).
  - intros Hbr. destruct B9 as (addrs' & El & _). rewrite El. unfold tail. rewrite Hbr, Hb. apply last_opt_app.
  - intros a Ha Hc. apply B7; [exact Ha|]. intros Hi. unfold tail in Hi.
    destruct (sv_bedrock v); [destruct Hi|]. rewrite Hb in Hi. destruct Hi as [<-|[]]. destruct Hc as [|Hc]; [discriminate|congruence].
  - intros a Ha. destruct B9 as (addrs' & El & _ & Hr). rewrite El in Ha. apply in_app_or in Ha. destruct Ha as [Ha|Ha]; [left; auto|].
    right. unfold tail in Ha. destruct (sv_bedrock v); [destruct Ha|]. rewrite Hb in Ha. destruct Ha as [<-|[]]. auto.
Qed.

(** C38 *)
Lemma fixed_count_rejected v ps count : sv_mode v = FixedPercentiles ps -> ps <> [] ->
  (check_count (Some v) count = Ok tt <-> exists k, count = (k * length ps)%nat) /\
  (check_count (Some v) count = Ok tt \/ check_count (Some v) count = Err ValueError).
Proof.
  intros Hm Hp. assert (Hn : length ps <> 0%nat) by (destruct ps; [contradiction|discriminate]).
  unfold check_count. rewrite Hm. destruct (Nat.eqb_spec (length ps) 0); [contradiction|].
  destruct (Nat.eqb_spec (count mod length ps) 0) as [E|E].
  - split; [|now left]. split; [|reflexivity]. intros _. exists (count / length ps)%nat.
    pose proof (Nat.div_mod count (length ps) Hn). rewrite E in H. lia.
  - split; [|now right]. split; [discriminate|]. intros (k & ->). elim E. now apply Nat.mod_mul.
Qed.

Lemma cycle_count n k j : (j < n)%nat -> 
  length (filter (fun i => Nat.eqb (i mod n) j) (seq 0 (k * n))) = k.
Proof.
  intros Hj. assert (Hn : n <> 0%nat) by lia. induction k as [|k IH]; [reflexivity|].
  replace (S k * n)%nat with (k * n + n)%nat by (cbn; lia). rewrite seq_app, filter_app, app_length, IH. cbn [plus].
  assert (E : filter (fun i => Nat.eqb (i mod n) j) (seq (k * n) n) = [k * n + j]%nat).
  { assert (Es : seq (k * n) n = seq (k * n) (j + (1 + (n - j - 1)))) by (f_equal; lia). rewrite Es, !seq_app, !filter_app. cbn [seq filter].
    assert (F : forall b len, (forall i, (b <= i < b + len)%nat -> (i mod n <> j)) -> filter (fun i => Nat.eqb (i mod n) j) (seq b len) = []).
    { intros b len. revert b. induction len as [|len IHl]; intros b Hb; [reflexivity|]. cbn [seq filter].
      destruct (Nat.eqb_spec (b mod n) j) as [E|_]; [elim (Hb b); [lia|exact E]|]. apply IHl. intros i Hi. apply Hb. lia. }
    assert (Hmod : forall r, (r < n)%nat -> ((k * n + r) mod n = r)%nat).
    { intros r Hr. rewrite Nat.add_comm, Nat.mod_add by exact Hn. now apply Nat.mod_small. }
    rewrite F. 2:{ intros i Hi. replace i with (k * n + (i - k * n))%nat by lia. rewrite Hmod by lia. lia. }
    rewrite Hmod by exact Hj. rewrite Nat.eqb_refl. rewrite F; [reflexivity|].
    intros i Hi. replace i with (k * n + (i - k * n))%nat by lia. rewrite Hmod by lia. lia. }
  rewrite E. cbn. lia.
Qed.

(** The percentile chosen for realisation [i]. *)
Lemma fixed_percentile_used ppf v ps i id draw s : sv_mode v = FixedPercentiles ps -> ps <> [] ->
  exists p, nth_error ps (i mod length ps) = Some p /\
    soil_call ppf v (sample_index v i) id draw s
    = Ok (vary_soil (sv_kind v) (sv_lim_mod v) (sv_lim_damp v) id (correlated_at_percentile ppf rand_limit (sv_corr v) p) s).
Proof.
  intros Hm Hp. assert (Hn : length ps <> 0%nat) by (destruct ps; [contradiction|discriminate]).
  pose proof (Nat.mod_upper_bound i (length ps) Hn) as Hi.
  destruct (nth_error ps (i mod length ps)) as [p|] eqn:E; [|apply nth_error_None in E; lia].
  exists p. split; [reflexivity|]. unfold soil_call, sample_index, choose_pair. rewrite Hm. cbn beta iota.
  assert (Ei : py_index (Z.of_nat (i mod length ps)) (length ps) = Some (i mod length ps)%nat).
  { unfold py_index. set (m := (i mod length ps)%nat) in *.
    destruct (Z.ltb_spec (Z.of_nat m) 0); [lia|]. destruct (Z.ltb_spec (Z.of_nat m) 0); [lia|].
    destruct (Z.ltb_spec (Z.of_nat m) (Z.of_nat (length ps))); [|lia]. now rewrite Nat2Z.id. }
  rewrite Ei. cbn [opt_bind]. rewrite E. reflexivity.
Qed.
Lemma fixed_same_index ppf v ps i id draw draw' s : sv_mode v = FixedPercentiles ps ->
  soil_call ppf v (Some i) id draw s = soil_call ppf v (Some i) id draw' s.
Proof. intros Hm. unfold soil_call, choose_pair. now rewrite Hm. Qed.

(** The class documents [percentiles[sample_index % len(percentiles)]]; a direct
    call does not cycle. *)
Lemma direct_call_no_cycle ppf v ps i id draw s : sv_mode v = FixedPercentiles ps ->
  (Z.of_nat (length ps) <= i)%Z -> soil_call ppf v (Some i) id draw s = Err IndexError.
Proof.
  intros Hm Hi. unfold soil_call, choose_pair. rewrite Hm.
  assert (Ei : py_index i (length ps) = None).
  { unfold py_index. destruct (Z.ltb_spec i 0); [lia|]. destruct (Z.ltb_spec i 0); [lia|].
    destruct (Z.ltb_spec i (Z.of_nat (length ps))); [lia|reflexivity]. }
  rewrite Ei. reflexivity.
Qed.

(** C78 *)
Lemma varied_damping_ignored ppf v w p si keys id dr w' q i l l' key :
  allocated w p -> view w p <> [] -> length keys = length (view w p) -> length dr = length (view w p) ->
  vary_profile ppf v w p si keys id dr = (w', Some (Ok q)) ->
  nth_error (view w p) i = Some l -> nth_error (view w' q) i = Some l' -> nth_error keys i = Some key ->
  (S i < length (view w p))%nat \/ sv_bedrock v = true ->
  damping l' = l_dmin l /\
  (forall d, soil_damping_min (l_soil l') = Ok d -> d <> l_dmin l -> damping l' <> d).
Proof.
  intros H1 H2 H3 H4 E Hl Hl' Hk Hc.
  destruct (vary_profile_spec _ _ _ _ _ _ _ _ _ _ H1 H2 H3 H4 E) as (_ & H & _).
  destruct (H _ _ _ _ Hl Hl' Hk Hc) as (_ & _ & _ & D & _). split; [exact D|]. intros d _ N. congruence.
Qed.
