(** The damping profile that a frequency-dependent run leaves for the output classes. *)
From Verif Require Import Common Proof.CommonFacts Model.Curve Model.Layer Model.Cplx Model.Waves Model.Eql Model.Averages Model.Motion Model.Text
  Model.Output Model.Fdm Spec.LayerSpec Spec.EqlSpec Spec.FdmSpec Proof.LayerFacts Proof.EqlFacts Proof.EqlProps Proof.EqlResults
  Proof.EqlPhysical Proof.FdmFacts Proof.FdmProps Proof.FdmResults.
From Coq Require Import List.
From Coquelicot Require Import Complex.
Local Open Scope R_scope.

Lemma tfs_len m n waves lin lout tf : calc_strain_tfs m n waves lin lout = Ok tf ->
  length tf = Nat.min (length (m_freqs m)) (length waves).
Proof.
  unfold calc_strain_tfs. destruct (loc_field lout); try discriminate.
  destruct (_ && _)%bool; [|discriminate]. intros H. apply mapM_nth in H. rewrite (proj1 H), combine_length. reflexivity.
Qed.
Lemma fwaves_len m ls wv : fcalc_waves m ls = Ok wv -> length wv = length (m_freqs m).
Proof. intros H. apply mapM_nth in H. rewrite (proj1 H), combine_length, seq_length. lia. Qed.
Lemma forall2_len {A B} (P : A -> B -> Prop) xs ys : Forall2 P xs ys -> length xs = length ys.
Proof. induction 1; cbn; congruence. Qed.
Lemma max_back_len xs : length (max_backwards xs) = length xs.
Proof.
  induction xs as [|x xs IH]; [reflexivity|]. cbn [max_backwards]. destruct (max_backwards xs); cbn in *; congruence.
Qed.
Lemma scaled_len eff xs ss : scaled_by_max eff xs = Ok (Some ss) -> length ss = length xs.
Proof.
  unfold scaled_by_max. destruct (np_max xs); [|discriminate]. cbn [bind]. intros H. injection H as H. now apply map_opt_len in H.
Qed.
Lemma ka02_len lsq freqs fas eff ss : ka02 lsq freqs fas eff = Some ss -> length ss = length freqs.
Proof.
  unfold ka02. destruct (div_opt _ _) as [fa|]; [|discriminate]. cbn [opt_bind].
  match goal with |- opt_bind ?x _ = _ -> _ => destruct x as [sa|]; [|discriminate] end. cbn [opt_bind].
  match goal with |- opt_bind ?x _ = _ -> _ => destruct x as [fs|] eqn:E1; [|discriminate] end. cbn [opt_bind].
  match goal with |- opt_bind ?x _ = _ -> _ => destruct x as [rows|]; [|discriminate] end. cbn [opt_bind].
  match goal with |- opt_bind ?x _ = _ -> _ => destruct x as [logs|]; [|discriminate] end. cbn [opt_bind].
  match goal with |- opt_bind ?x _ = _ -> _ => destruct x as [sh|] eqn:E2; [|discriminate] end. cbn [opt_bind].
  intros H. injection H as <-. rewrite map_length. apply map_opt_len in E1. apply map_opt_len in E2. congruence.
Qed.

Lemma strains_len F m n ls wv lin i th pk used : matched F m -> fcalc_waves (fm_motion m) ls = Ok wv ->
  strains_of F m n wv lin i th pk used -> length used = length (m_freqs (fm_motion m)).
Proof.
  intros (H1 & H2 & H3) Hw (tf & prod & ss & A1 & A2 & _ & A4 & A5). apply tfs_len in A1. rewrite (fwaves_len _ _ _ Hw), Nat.min_id in A1.
  assert (HP : length prod = length (m_freqs (fm_motion m))).
  { unfold np_mul in A2. rewrite A1, H2, Nat.eqb_refl in A2. injection A2 as <-. unfold map2. rewrite map_length, combine_length. lia. }
  rewrite <- (forall2_len _ _ _ A5). unfold strain_spectrum in A4. destruct (text_eqb _ _).
  - injection A4 as A4. apply ka02_len in A4. congruence.
  - destruct (starts _ _).
    + destruct (py_float _) as [bw|]; [|discriminate]. cbn [bind] in A4. destruct (scaled_by_max _ _) as [os|] eqn:Es; [|discriminate].
      cbn [bind] in A4. destruct os as [zs|]; [|discriminate]. cbn [opt_bind] in A4. injection A4 as <-. rewrite max_back_len.
      apply scaled_len in Es. rewrite H3, map_length in Es. congruence.
    + apply scaled_len in A4. rewrite map_length in A4. congruence.
Qed.

(** The shape of the damping after a run. *)
Lemma usable_values c v : curve_call c 1 = Ok v -> c_values c <> [].
Proof.
  unfold curve_call. destruct (Nat.eqb _ _); [|discriminate]. intros H E. unfold ln_table in H.
  rewrite E in H. destruct (c_strains c); cbn in H; discriminate.
Qed.
Lemma damping_shape l ss :
  match s_damp (l_soil l) with
  | DConst _ => fcompute_damping l ss = Sc (l_dmin l)
  | DCurve c => usable c -> exists ds, fcompute_damping l ss = Ar ds /\ length ds = length ss
  end.
Proof.
  unfold fcompute_damping. destruct (s_damp (l_soil l)) as [d|c] eqn:E; [now rewrite Rplus_0_l|].
  intros [v Hv]. destruct (curve_array_spec c ss) as [(vs & -> & HL & _)|(e & _ & HE)].
  - unfold soil_damping_min. rewrite E. pose proof (usable_values c v Hv) as Hne. destruct (c_values c) as [|v0 r]; [congruence|].
    eexists. split; [reflexivity|]. now rewrite map_length.
  - destruct (HE 1) as [e' E']. congruence.
Qed.
Lemma fdm_dampings F m lin reset ls stop ls' wv : ls <> [] -> stop <> NotFinite -> matched F m ->
  fr_passes (fdm_call F m lin reset ls) <> [] ->
  fr_end (fdm_call F m lin reset ls) = Ok (stop, ls', wv) ->
  length ls' = length ls /\
  forall i l0, (i < length ls - 1)%nat -> nth_error ls i = Some l0 -> exists l, nth_error ls' i = Some l /\
    match s_damp (l_soil (f_layer l0)) with
    | DConst _ => fi_value (f_D l) = Sc (l_dmin (f_layer l0))
    | DCurve c => usable c -> covers (length (m_freqs (fm_motion m))) (fi_value (f_D l))
    end.
Proof.
  intros Hne HS HM Ht H.
  destruct (fcall_end F m lin reset ls stop ls' wv Hne HS Ht H)
    as (start & lsp & st & upd & b & SL & SS & E2 & (K1 & K2 & K3) & E4 & E5 & Hb & Es & ->).
  destruct (fpass_nth _ _ _ _ _ _ _ Hb E5) as (L1 & L2 & L3).
  destruct (fset_maxs_nth _ _ _ _ _ _ _ Es) as [M1 M2].
  pose proof (length_removelast _ _ L2) as R1. pose proof (length_removelast _ _ Hb) as R2.
  assert (HL : length lsp = length ls) by congruence.
  split; [rewrite app_length; cbn; lia|].
  intros i l0 Hi Hl0. destruct (SS i l0 Hi Hl0) as (l1 & N1 & S1). destruct (K3 i l1 N1) as (lp & Np & Sp).
  rewrite <- nth_removelast_lt in Np by lia.
  destruct (L3 i lp Np) as (pk & used & A1 & A2 & A3). destruct (M2 i _ A3) as (mx & B1 & B2).
  exists (fset_max (fset_strain lp used) mx).
  split; [rewrite nth_error_app1 by (apply nth_error_Some; congruence); exact B2|].
  cbn [fset_max fset_strain f_D fi_value fiter_set].
  pose proof (damping_shape (f_layer lp) used) as D. rewrite Sp in *. destruct S1 as (T1 & _ & _ & T4). rewrite T1, T4 in *.
  destruct (s_damp (l_soil (f_layer l0))) as [d|c]; [exact D|]. intros HU. destruct (D HU) as (ds & -> & HD).
  exists ds. split; [reflexivity|]. rewrite HD. exact (strains_len _ _ _ _ _ _ _ _ _ _ HM E4 A1).
Qed.

Lemma mapM_all {A B} (f : A -> res B) (Q : B -> Prop) xs : (forall x, In x xs -> exists y, f x = Ok y /\ Q y) ->
  exists ys, mapM f xs = Ok ys /\ length ys = length xs /\ Forall Q ys.
Proof.
  induction xs as [|x xs IH]; intros H; [now exists []|]. destruct (H x (or_introl eq_refl)) as (y & E & Hy).
  destruct IH as (ys & E2 & L & Hys); [intros z Hz; apply H; now right|].
  exists (y :: ys). cbn [mapM]. rewrite E, E2. cbn. split; [reflexivity|]. split; [lia|now constructor].
Qed.
Lemma in_removelast {A} (xs : list A) x : In x (removelast xs) -> exists i, (i < length xs - 1)%nat /\ nth_error xs i = Some x.
Proof.
  intros H. apply In_nth_error in H. destruct H as [i Hi]. exists i.
  assert (HL : (i < length (removelast xs))%nat) by (apply nth_error_Some; congruence).
  destruct (last_opt xs) as [b|] eqn:E.
  - pose proof (length_removelast _ _ E). split; [lia|]. now apply nth_removelast.
  - apply last_opt_none in E. subst xs. destruct i; discriminate.
Qed.

Lemma entries_cons (f : flayer -> val) ls : (2 <= length ls)%nat -> exists v vs, map f (removelast ls) = v :: vs /\ S (length vs) = (length ls - 1)%nat.
Proof.
  destruct ls as [|a [|b r]]; cbn [length]; try lia. intros _. exists (f a), (map f (removelast (b :: r))). split; [reflexivity|].
  rewrite map_length. destruct (last_some (b :: r)) as [z Hz]; [discriminate|]. pose proof (length_removelast _ _ Hz) as Q. cbn [length] in *. lia.
Qed.

(** All dampings are arrays. *)
Lemma fdm_damping_arrays F m lin reset ls stop ls' wv o v : (2 <= length ls)%nat -> stop <> NotFinite -> matched F m ->
  fr_passes (fdm_call F m lin reset ls) <> [] ->
  fr_end (fdm_call F m lin reset ls) = Ok (stop, ls', wv) ->
  (forall l, In l (removelast ls) -> exists c, s_damp (l_soil (f_layer l)) = DCurve c /\ usable c) ->
  o_values o = Some v ->
  exists rows, damping_entries ls' = Ok (A2 (length (m_freqs (fm_motion m))) rows) /\
    length rows = length ls /\ Forall (fun r => length r = length (m_freqs (fm_motion m))) rows /\
    add_array o (A2 (length (m_freqs (fm_motion m))) rows) = Err AssertionError.
Proof.
  intros Hlen HS HM Ht H HC Ho. set (n := length (m_freqs (fm_motion m))).
  assert (Hne : ls <> []) by (destruct ls; [cbn in Hlen; lia|discriminate]).
  destruct (fdm_dampings F m lin reset ls stop ls' wv Hne HS HM Ht H) as [HL HD].
  assert (HV : forall x, In x (map (fun l => fi_value (f_D l)) (removelast ls')) -> covers n x).
  { intros x Hx. apply in_map_iff in Hx. destruct Hx as (l & <- & Hl). apply in_removelast in Hl. destruct Hl as (i & Hi & Hl).
    rewrite HL in Hi. destruct (nth_error ls i) as [l0|] eqn:E0; [|apply nth_error_None in E0; lia].
    destruct (HD i l0 Hi E0) as (l' & E & M). replace l' with l in * by congruence.
    destruct (HC l0) as (c & Ec & Uc).
    { rewrite <- nth_removelast_lt in E0 by lia. now apply nth_error_In with i. }
    rewrite Ec in M. exact (M Uc). }
  destruct (entries_cons (fun l => fi_value (f_D l)) ls') as (v0 & vs & Ev & Lv); [lia|].
  unfold damping_entries, profile_entries. rewrite Ev. rewrite Ev in HV.
  destruct (HV v0 (or_introl eq_refl)) as (xs0 & E0 & L0). subst v0. cbn [np_asarray]. rewrite L0.
  destruct (mapM_all (fun v0 => match v0 with Sc _ => Err ValueError | Ar xs => if Nat.eqb (length xs) n then Ok (map Some xs) else Err ValueError end)
     (fun r => length r = n) (Ar xs0 :: Ar xs0 :: vs)) as (rows & Er & Lr & Fr).
  { intros x Hx. assert (Hc : covers n x) by (apply HV; destruct Hx as [<-|Hx]; [now left|exact Hx]).
    destruct Hc as (xs & -> & Hx'). exists (map Some xs). rewrite Hx', Nat.eqb_refl. split; [reflexivity|]. now rewrite map_length. }
  rewrite Er. cbn [bind]. exists rows. split; [reflexivity|]. split; [rewrite Lr; cbn [length]; lia|]. split; [exact Fr|].
  unfold add_array. now rewrite Ho.
Qed.

(** Some are arrays and some numbers. *)
Lemma mapM_hits {A B} (f : A -> res B) e x xs : (forall y, In y xs -> (exists z, f y = Ok z) \/ f y = Err e) ->
  In x xs -> f x = Err e -> mapM f xs = Err e.
Proof.
  induction xs as [|y ys IH]; intros H Hx E; [contradiction|]. cbn [mapM]. destruct Hx as [->|Hx].
  - now rewrite E.
  - destruct (H y (or_introl eq_refl)) as [[z ->]| ->]; [|reflexivity]. cbn [bind].
    rewrite IH; [reflexivity| |exact Hx|exact E]. intros w Hw. apply H. now right.
Qed.
Lemma asarray_mixed v vs x xs : In (Sc x) (v :: vs) -> In (Ar xs) (v :: vs) -> np_asarray (v :: vs) = Err ValueError.
Proof.
  intros H1 H2. destruct v as [y|ys]; cbn [np_asarray].
  - rewrite (mapM_hits _ ValueError (Ar xs)); [reflexivity| |exact H2|reflexivity].
    intros [z|zs] _; [left; now eexists|now right].
  - rewrite (mapM_hits _ ValueError (Sc x)); [reflexivity| |exact H1|reflexivity].
    intros [z|zs] _; [now right|]. destruct (Nat.eqb _ _); [left; now eexists|now right].
Qed.
Lemma fdm_damping_mixed F m lin reset ls stop ls' wv l1 l2 d c : stop <> NotFinite -> matched F m ->
  fr_passes (fdm_call F m lin reset ls) <> [] ->
  fr_end (fdm_call F m lin reset ls) = Ok (stop, ls', wv) ->
  In l1 (removelast ls) -> s_damp (l_soil (f_layer l1)) = DConst d ->
  In l2 (removelast ls) -> s_damp (l_soil (f_layer l2)) = DCurve c -> usable c ->
  damping_entries ls' = Err ValueError.
Proof.
  intros HS HM Ht H I1 D1 I2 D2 U.
  assert (Hne : ls <> []) by (intros ->; contradiction).
  destruct (fdm_dampings F m lin reset ls stop ls' wv Hne HS HM Ht H) as [HL HD].
  apply in_removelast in I1. destruct I1 as (i & Hi & N1). apply in_removelast in I2. destruct I2 as (j & Hj & N2).
  destruct (HD i l1 Hi N1) as (a & Na & Ma). rewrite D1 in Ma. destruct (HD j l2 Hj N2) as (b & Nb & Mb). rewrite D2 in Mb.
  destruct (Mb U) as (xs & Eb & _).
  destruct (entries_cons (fun l => fi_value (f_D l)) ls') as (v0 & vs & Ev & _); [lia|].
  unfold damping_entries, profile_entries. rewrite Ev.
  rewrite <- nth_removelast_lt in Na by lia. rewrite <- nth_removelast_lt in Nb by lia.
  apply nth_error_In in Na. apply nth_error_In in Nb.
  apply (in_map (fun l => fi_value (f_D l))) in Na. apply (in_map (fun l => fi_value (f_D l))) in Nb.
  rewrite Ev in Na, Nb. apply asarray_mixed with (l_dmin (f_layer l1)) xs; right; [now rewrite <- Ma|now rewrite <- Eb].
Qed.

(** All are numbers: one value per depth, the first one twice. *)
Lemma asarray_numbers xs : np_asarray (map Sc xs) = Ok (A1 (map Some xs)).
Proof.
  destruct xs as [|x xs]; [reflexivity|]. cbn [map np_asarray].
  assert (HM : forall ys, mapM (fun v => match v with Sc y => Ok (Some y) | Ar _ => Err ValueError end) (map Sc ys) = Ok (map Some ys)).
  { induction ys as [|y ys IH]; [reflexivity|]. cbn [map mapM bind]. now rewrite IH. }
  specialize (HM (x :: xs)). cbn [map] in HM. rewrite HM. reflexivity.
Qed.
Lemma fdm_damping_numbers F m lin reset ls stop ls' wv : (2 <= length ls)%nat -> stop <> NotFinite -> matched F m ->
  fr_passes (fdm_call F m lin reset ls) <> [] ->
  fr_end (fdm_call F m lin reset ls) = Ok (stop, ls', wv) ->
  (forall l, In l (removelast ls) -> exists d, s_damp (l_soil (f_layer l)) = DConst d) ->
  exists l1, nth_error ls 0 = Some l1 /\
  damping_entries ls' = Ok (A1 (map Some (l_dmin (f_layer l1) :: map (fun l => l_dmin (f_layer l)) (removelast ls)))).
Proof.
  intros Hlen HS HM Ht H HC.
  assert (Hne : ls <> []) by (destruct ls; [cbn in Hlen; lia|discriminate]).
  destruct (fdm_dampings F m lin reset ls stop ls' wv Hne HS HM Ht H) as [HL HD].
  assert (HV : map (fun l => fi_value (f_D l)) (removelast ls') = map Sc (map (fun l => l_dmin (f_layer l)) (removelast ls))).
  { assert (R : forall (xs : list flayer), xs <> [] -> length (removelast xs) = (length xs - 1)%nat).
    { intros xs Hx. destruct (last_some xs Hx) as [z Hz]. pose proof (length_removelast _ _ Hz). lia. }
    assert (Hne' : ls' <> []) by (intros ->; cbn in HL; lia).
    apply nth_error_ext_len; [rewrite !map_length, !R by assumption; lia|].
    intros i x y Hx Hy. apply map_nth_inv in Hx. destruct Hx as (l & Nl & <-). apply map_nth_inv in Hy.
    destruct Hy as (z & Hz & <-). apply map_nth_inv in Hz. destruct Hz as (l0 & N0 & <-).
    assert (Hi : (i < length ls - 1)%nat) by (rewrite <- R by assumption; apply nth_error_Some; congruence).
    destruct (HC l0) as [d Ed]; [now apply nth_error_In with i|].
    rewrite nth_removelast_lt in N0 by lia. rewrite nth_removelast_lt in Nl by lia.
    destruct (HD i l0 Hi N0) as (l' & E & M). replace l' with l in * by congruence. rewrite Ed in M. exact M. }
  destruct ls as [|l1 [|l2 r]]; cbn [length] in Hlen; try lia. exists l1. split; [reflexivity|].
  unfold damping_entries, profile_entries. rewrite HV. change (removelast (l1 :: l2 :: r)) with (l1 :: removelast (l2 :: r)).
  cbn [map]. set (ys := map (fun l => l_dmin (f_layer l)) (removelast (l2 :: r))).
  exact (asarray_numbers (l_dmin (f_layer l1) :: l_dmin (f_layer l1) :: ys)).
Qed.
