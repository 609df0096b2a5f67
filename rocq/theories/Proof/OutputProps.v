(** The output state machine. *)
From Coq Require Import String.
From Verif Require Import Common Proof.CommonFacts Model.Curve Model.Layer Model.Profile Model.Averages Model.Output
  Spec.OutputSpec Proof.OutputFacts.

Lemma append_ok many single : exists a, append_arrays many single = Ok a /\
  match many with A1 _ => exists rs, a = A2 2 rs | A2 w _ => exists rs, a = A2 (S w) rs end.
Proof.
  unfold append_arrays.
  destruct (Z.of_nat (length single) - Z.of_nat (nrows many) <? 0)%Z eqn:E1;
    [|destruct (0 <? Z.of_nat (length single) - Z.of_nat (nrows many))%Z eqn:E2].
  - unfold np_c, pad1. rewrite app_length, repeat_length.
    destruct (Nat.eqb_spec (nrows many) (length single + Z.to_nat (- (Z.of_nat (length single) - Z.of_nat (nrows many))))); [|lia].
    destruct many; eexists; (split; [reflexivity|now eexists]).
  - unfold np_c.
    assert (H : nrows (pad_arr many (Z.to_nat (Z.of_nat (length single) - Z.of_nat (nrows many)))) = length single).
    { destruct many as [xs|w rs]; cbn [pad_arr nrows] in *; unfold pad1; rewrite app_length, repeat_length; lia. }
    rewrite H, Nat.eqb_refl. destruct many; eexists; (split; [reflexivity|now eexists]).
  - unfold np_c. destruct (Nat.eqb_spec (nrows many) (length single)); [|lia].
    destruct many; eexists; (split; [reflexivity|now eexists]).
Qed.

Lemma add_values_ok o vs : exists o', add_values o vs = Ok o' /\ o_refs o' = o_refs o /\ o_names o' = o_names o /\
  stored o' = S (stored o).
Proof.
  unfold add_values, stored. destruct (o_values o) as [a|].
  - destruct (append_ok a vs) as (a' & -> & H). cbn [bind]. eexists. split; [reflexivity|]. cbn.
    split; [reflexivity|]. split; [reflexivity|]. destruct a; destruct H as [rs ->]; reflexivity.
  - cbn [bind]. eexists. split; [reflexivity|]. now cbn.
Qed.
Lemma add_refs_ok o rs : exists o', add_refs o rs = Ok o' /\ o_values o' = o_values o /\ o_names o' = o_names o.
Proof.
  unfold add_refs. destruct (Nat.eqb (nrows (o_refs o)) 0); cbn [bind].
  - eexists. split; [reflexivity|]. now cbn.
  - destruct (append_ok (o_refs o) rs) as (a' & -> & _). cbn [bind]. eexists. split; [reflexivity|]. now cbn.
Qed.

(** Effect of one call on the names and the number of results. *)
Lemma call_counts k c o :
  match out_call k c o with
  | (o', Ok _) => length (o_names o') = S (length (o_names o)) /\ stored o' = S (stored o) /\
                  (k = KSeries -> ca_series c = true) /\ exists vs, ca_values c = Ok vs
  | (o', Err e) => (k = KSeries /\ ca_series c = false /\ o' = o /\ e = NotImplementedError) \/
                   ((k = KSeries -> ca_series c = true) /\ ca_values c = Err e /\
                    length (o_names o') = S (length (o_names o)) /\ o_values o' = o_values o)
  end.
Proof.
  assert (HB : length (o_names (base_call o (ca_name c))) = S (length (o_names o))).
  { unfold base_call; cbn [o_names]. rewrite app_length. cbn. lia. }
  unfold out_call. destruct k.
  - destruct (ca_series c) eqn:Es; [|left; auto]. destruct (ca_values c) as [vs|e] eqn:Ev.
    + destruct (add_values_ok (base_call o (ca_name c)) vs) as (o2 & -> & _ & N & S2). cbn [then_].
      destruct (add_refs_ok o2 (times (ca_dt c) (length vs))) as (o3 & -> & V3 & N3). cbn [then_].
      rewrite N3, N. split; [exact HB|]. unfold stored in *. rewrite V3, S2. cbn. split; [reflexivity|]. split; [auto|now exists vs].
    + right. auto.
  - destruct (ca_values c) as [vs|e] eqn:Ev.
    + destruct (add_values_ok (base_call o (ca_name c)) vs) as (o2 & -> & _ & N & S2). cbn [then_].
      rewrite N. split; [exact HB|]. split; [exact S2|]. split; [discriminate|now exists vs].
    + right. split; [discriminate|auto].
  - destruct (add_refs_ok (base_call o (ca_name c)) (ca_refs c)) as (o2 & -> & V2 & N2). cbn [then_].
    destruct (ca_values c) as [vs|e] eqn:Ev.
    + destruct (add_values_ok o2 vs) as (o3 & -> & _ & N & S2). cbn [then_].
      rewrite N, N2. split; [exact HB|]. unfold stored in *. rewrite S2, V2. cbn. split; [reflexivity|]. split; [discriminate|now exists vs].
    + right. rewrite N2, V2. split; [discriminate|auto].
  - destruct (add_refs_ok (base_call o (ca_name c)) (ca_refs c)) as (o2 & -> & V2 & N2). cbn [then_].
    destruct (ca_values c) as [vs|e] eqn:Ev.
    + destruct (add_values_ok o2 vs) as (o3 & -> & _ & N & S2). cbn [then_].
      rewrite N, N2. split; [exact HB|]. unfold stored in *. rewrite S2, V2. cbn. split; [reflexivity|]. split; [discriminate|now exists vs].
    + right. rewrite N2, V2. split; [discriminate|auto].
  - destruct (ca_values c) as [vs|e] eqn:Ev.
    + destruct (add_refs_ok (base_call o (ca_name c)) (ca_refs c)) as (o2 & -> & V2 & N2). cbn [then_].
      destruct (add_values_ok o2 vs) as (o3 & -> & _ & N & S2). cbn [then_].
      rewrite N, N2. split; [exact HB|]. unfold stored in *. rewrite S2, V2. cbn. split; [reflexivity|]. split; [discriminate|now exists vs].
    + right. split; [discriminate|auto].
Qed.

(** A call fails exactly when its computation does (or the motion is not a time
    series). *)
Theorem call_fails_iff k c o e : snd (out_call k c o) = Err e <->
  (k = KSeries /\ ca_series c = false /\ e = NotImplementedError) \/
  ((k = KSeries -> ca_series c = true) /\ ca_values c = Err e).
Proof.
  pose proof (call_counts k c o) as H. destruct (out_call k c o) as [o' [u|e']]; cbn [snd].
  - destruct H as (_ & _ & H1 & vs & H2). split; [discriminate|]. intros [(K & S & _)|[_ V]].
    + rewrite (H1 K) in S. discriminate.
    + congruence.
  - split.
    + intros E. injection E as ->. destruct H as [(A & B & _ & D)|(A & B & _)]; [left; auto|right; auto].
    + intros G. f_equal. destruct H as [(A & B & _ & D)|(A & B & _)], G as [(A' & B' & D')|(A' & B')]; try congruence.
      * rewrite (A' A) in B. discriminate.
      * rewrite (A A') in B'. discriminate.
Qed.

(** * C46: names against results, for every history *)
Lemma counts_run k ps : forall o n, length (o_names o) = (stored o + n)%nat ->
  length (o_names (out_run k o ps)) = (stored (out_run k o ps) + raised k o n ps)%nat.
Proof.
  induction ps as [|p ps IH]; intros o n H; [exact H|]. unfold out_run. cbn [fold_left].
  change (fold_left (out_step k) ps (out_step k o p)) with (out_run k (out_step k o p) ps).
  destruct p as [c|]; cbn [raised out_step].
  - pose proof (call_counts k c o) as HC. destruct (out_call k c o) as [o' r]; cbn [fst snd]. apply IH.
    destruct r as [u|e].
    + destruct HC as (N & S & _). lia.
    + destruct HC as [(-> & Es & -> & _)|(Es & _ & N & V)].
      * rewrite Es. exact H.
      * replace (match k with KSeries => ca_series c | _ => true end) with true by (destruct k; auto; symmetry; auto).
        unfold stored in *. rewrite V. lia.
  - apply IH. reflexivity.
Qed.

Theorem names_count k refs ps : let o := out_run k (out_new k refs) ps in
  length (o_names o) = (stored o + raised k (out_new k refs) 0 ps)%nat.
Proof. apply counts_run. reflexivity. Qed.

(** The default name is the number of stored results plus one. *)
Theorem default_name k c o : ca_name c = None -> (k = KSeries -> ca_series c = true) ->
  o_names (fst (out_call k c o)) = o_names o ++ [rname (S (stored o))].
Proof.
  intros Hn Hs.
  assert (HB : o_names (base_call o (ca_name c)) = o_names o ++ [rname (S (stored o))]).
  { rewrite Hn. unfold base_call, default_index, stored; cbn [o_names].
    destruct (o_values o) as [[xs|w rs]|]; [reflexivity| |reflexivity]. now rewrite Nat.add_1_r. }
  rewrite <- HB. unfold out_call. destruct k.
  - rewrite (Hs eq_refl). destruct (ca_values c) as [vs|e]; [|reflexivity].
    destruct (add_values_ok (base_call o (ca_name c)) vs) as (o2 & -> & _ & N & _). cbn [then_].
    destruct (add_refs_ok o2 (times (ca_dt c) (length vs))) as (o3 & -> & _ & N3). cbn [then_ fst]. congruence.
  - destruct (ca_values c) as [vs|e]; [|reflexivity].
    destruct (add_values_ok (base_call o (ca_name c)) vs) as (o2 & -> & _ & N & _). exact N.
  - destruct (add_refs_ok (base_call o (ca_name c)) (ca_refs c)) as (o2 & -> & _ & N2). cbn [then_].
    destruct (ca_values c) as [vs|e]; [|exact N2].
    destruct (add_values_ok o2 vs) as (o3 & -> & _ & N & _). cbn [then_ fst]. congruence.
  - destruct (add_refs_ok (base_call o (ca_name c)) (ca_refs c)) as (o2 & -> & _ & N2). cbn [then_].
    destruct (ca_values c) as [vs|e]; [|exact N2].
    destruct (add_values_ok o2 vs) as (o3 & -> & _ & N & _). cbn [then_ fst]. congruence.
  - destruct (ca_values c) as [vs|e]; [|reflexivity].
    destruct (add_refs_ok (base_call o (ca_name c)) (ca_refs c)) as (o2 & -> & _ & N2). cbn [then_].
    destruct (add_values_ok o2 vs) as (o3 & -> & _ & N & _). cbn [then_ fst]. congruence.
Qed.

(** * C45: successful calls *)
Lemma shows_longest rs a : shows rs a -> Forall (fun r => r <> []) rs -> nrows a <> 0%nat.
Proof.
  intros H HF. rewrite (shows_rows _ _ H). destruct rs as [|r rs]; [contradiction|].
  inversion HF; subst. pose proof (longest_le (r :: rs) r (or_introl eq_refl)). destruct r; [congruence|cbn in *; lia].
Qed.

Lemma add_values_holds o (olds : list (list cell)) vs :
  match olds with [] => o_values o = None | _ => exists a, o_values o = Some a /\ shows olds a end ->
  exists a, add_values o vs = Ok (mkOut (o_refs o) (Some a) (o_names o)) /\ shows (olds ++ [vs]) a.
Proof.
  intros H. unfold add_values. destruct olds as [|r rs].
  - rewrite H. exists (A1 vs). split; reflexivity.
  - destruct H as (a & -> & Hs). destruct (append_shows _ _ vs Hs) as (a' & -> & Hs'). exists a'. split; [reflexivity|exact Hs'].
Qed.
Lemma add_refs_holds o (olds : list (list cell)) rs :
  match olds with [] => o_refs o = A1 [] | _ => shows olds (o_refs o) /\ Forall (fun r => r <> []) olds end ->
  exists a, add_refs o rs = Ok (mkOut a (o_values o) (o_names o)) /\ shows (olds ++ [rs]) a.
Proof.
  intros H. unfold add_refs. destruct olds as [|r rs'].
  - rewrite H. exists (A1 rs). split; reflexivity.
  - destruct H as [Hs HF]. pose proof (shows_longest _ _ Hs HF) as N.
    destruct (Nat.eqb_spec (nrows (o_refs o)) 0); [contradiction|].
    destruct (append_shows _ _ rs Hs) as (a' & -> & Hs'). exists a'. split; [reflexivity|exact Hs'].
Qed.

Lemma shows_stored olds a : shows olds a -> match a with A1 _ => 1%nat | A2 w _ => w end = length olds.
Proof.
  intros H. rewrite (shows_canon _ _ H). destruct olds as [|r [|r' rs]]; [contradiction|reflexivity|reflexivity].
Qed.

(** One successful call, non-fixed references. *)
Lemma call_holds k c o es vs : k <> KFixed -> holds o es ->
  Forall (fun e => en_refs e <> []) es -> (k = KSeries -> ca_series c = true) -> ca_values c = Ok vs ->
  exists o' n, out_call k c o = (o', Ok tt) /\ named (length es) (ca_name c) n /\
    holds o' (es ++ [mkEntry n (call_refs k c vs) vs]).
Proof.
  intros Hk [HN HH] HF Hs Hv.
  set (o1 := base_call o (ca_name c)).
  assert (HS : stored o = length es).
  { unfold stored. destruct es as [|e es]; [destruct HH as [-> _]; reflexivity|].
    destruct HH as [(a & -> & Hsh) _]. rewrite (shows_stored _ _ Hsh). now rewrite map_length. }
  assert (HB : exists n, o_names o1 = map en_name es ++ [n] /\ named (length es) (ca_name c) n).
  { unfold o1, base_call; cbn [o_names]. rewrite HN. eexists. split; [reflexivity|]. unfold named.
    destruct (ca_name c); [reflexivity|]. f_equal. rewrite <- HS. unfold default_index, stored.
    destruct (o_values o) as [[xs|w rows]|]; [reflexivity|lia|reflexivity]. }
  destruct HB as (n & HB & Hn). 
  assert (HV1 : match map en_vals es with [] => o_values o1 = None | _ => exists a, o_values o1 = Some a /\ shows (map en_vals es) a end).
  { change (o_values o1) with (o_values o). destruct es as [|e es]; [exact (proj1 HH)|exact (proj1 HH)]. }
  assert (HR1 : match map en_refs es with [] => o_refs o1 = A1 [] | _ => shows (map en_refs es) (o_refs o1) /\ Forall (fun r => r <> []) (map en_refs es) end).
  { change (o_refs o1) with (o_refs o). destruct es as [|e es]; [exact (proj2 HH)|]. split; [exact (proj2 HH)|].
    apply Forall_forall. intros r Hr. apply in_map_iff in Hr. destruct Hr as (e' & <- & He'). rewrite Forall_forall in HF. now apply HF. }
  assert (Hend : forall a b, shows (map en_vals es ++ [vs]) a -> shows (map en_refs es ++ [call_refs k c vs]) b ->
     holds (mkOut b (Some a) (o_names o1)) (es ++ [mkEntry n (call_refs k c vs) vs])).
  { intros a b Ha Hb. unfold holds; cbn [o_names o_values o_refs]. rewrite !map_app. cbn [map en_name en_refs en_vals].
    split; [exact HB|]. destruct (es ++ [mkEntry n (call_refs k c vs) vs]) eqn:E; [now destruct es|].
    split; [now exists a|exact Hb]. }
  unfold out_call. fold o1. destruct k; [|congruence| | |].
  - rewrite (Hs eq_refl), Hv.
    destruct (add_values_holds o1 (map en_vals es) vs HV1) as (a & -> & Ha). cbn [then_].
    destruct (add_refs_holds (mkOut (o_refs o1) (Some a) (o_names o1)) (map en_refs es) (times (ca_dt c) (length vs)) HR1) as (b & -> & Hb).
    cbn [then_]. eexists. exists n. split; [reflexivity|]. split; [exact Hn|]. apply Hend; assumption.
  - destruct (add_refs_holds o1 (map en_refs es) (ca_refs c) HR1) as (b & -> & Hb). cbn [then_]. rewrite Hv.
    destruct (add_values_holds (mkOut b (o_values o1) (o_names o1)) (map en_vals es) vs HV1) as (a & -> & Ha).
    cbn [then_]. eexists. exists n. split; [reflexivity|]. split; [exact Hn|]. apply Hend; assumption.
  - destruct (add_refs_holds o1 (map en_refs es) (ca_refs c) HR1) as (b & -> & Hb). cbn [then_]. rewrite Hv.
    destruct (add_values_holds (mkOut b (o_values o1) (o_names o1)) (map en_vals es) vs HV1) as (a & -> & Ha).
    cbn [then_]. eexists. exists n. split; [reflexivity|]. split; [exact Hn|]. apply Hend; assumption.
  - rewrite Hv. destruct (add_refs_holds o1 (map en_refs es) (ca_refs c) HR1) as (b & -> & Hb). cbn [then_].
    destruct (add_values_holds (mkOut b (o_values o1) (o_names o1)) (map en_vals es) vs HV1) as (a & -> & Ha).
    cbn [then_]. eexists. exists n. split; [reflexivity|]. split; [exact Hn|]. apply Hend; assumption.
Qed.

Lemma call_holds_fixed fixed c o es vs : holds_fixed fixed o es -> ca_values c = Ok vs ->
  exists o' n, out_call KFixed c o = (o', Ok tt) /\ named (length es) (ca_name c) n /\
    holds_fixed fixed o' (es ++ [mkEntry n (ca_refs c) vs]).
Proof.
  intros (HN & HR & HH) Hv. set (o1 := base_call o (ca_name c)).
  assert (HS : stored o = length es).
  { unfold stored. destruct es as [|e es]; [rewrite HH; reflexivity|].
    destruct HH as (a & -> & Hsh). rewrite (shows_stored _ _ Hsh). now rewrite map_length. }
  assert (HB : exists n, o_names o1 = map en_name es ++ [n] /\ named (length es) (ca_name c) n).
  { unfold o1, base_call; cbn [o_names]. rewrite HN. eexists. split; [reflexivity|]. unfold named.
    destruct (ca_name c); [reflexivity|]. f_equal. rewrite <- HS. unfold default_index, stored.
    destruct (o_values o) as [[xs|w rows]|]; [reflexivity|lia|reflexivity]. }
  destruct HB as (n & HB & Hn).
  assert (HV1 : match map en_vals es with [] => o_values o1 = None | _ => exists a, o_values o1 = Some a /\ shows (map en_vals es) a end).
  { change (o_values o1) with (o_values o). destruct es as [|e es]; exact HH. }
  unfold out_call. fold o1. rewrite Hv.
  destruct (add_values_holds o1 (map en_vals es) vs HV1) as (a & -> & Ha). cbn [then_].
  eexists. exists n. split; [reflexivity|]. split; [exact Hn|].
  unfold holds_fixed; cbn [o_names o_values o_refs]. split; [|split; [exact HR|]].
  - rewrite map_app. exact HB.
  - destruct (es ++ [mkEntry n (ca_refs c) vs]) eqn:E; [now destruct es|]. rewrite <- E, map_app. exists a. split; [reflexivity|exact Ha].
Qed.

Lemma results_snoc k cs es c e : results_of k cs es -> ca_values c = Ok (en_vals e) ->
  en_refs e = call_refs k c (en_vals e) -> named (length es) (ca_name c) (en_name e) ->
  results_of k (cs ++ [c]) (es ++ [e]).
Proof.
  intros [HL H] H1 H2 H3. split; [rewrite !app_length; cbn; lia|]. intros i c' e' Hc He.
  destruct (Nat.lt_ge_cases i (length cs)) as [L|L].
  - rewrite nth_error_app1 in Hc by lia. rewrite nth_error_app1 in He by lia. now apply H.
  - rewrite nth_error_app2 in Hc by lia. rewrite nth_error_app2 in He by lia. rewrite HL in He.
    assert (Hi : i = length cs).
    { assert (i - length cs < length [c])%nat by (apply nth_error_Some; congruence). cbn in *; lia. }
    subst i. rewrite Nat.sub_diag in *. injection Hc as <-. injection He as <-. rewrite <- HL. auto.
Qed.

Lemma run_snoc k o ps p : out_run k o (ps ++ [p]) = out_step k (out_run k o ps) p.
Proof. unfold out_run. now rewrite fold_left_app. Qed.

Lemma all_ok_snoc k o cs c : all_ok k o cs -> snd (out_call k c (out_run k o (map OCall cs))) = Ok tt -> all_ok k o (cs ++ [c]).
Proof.
  revert o; induction cs as [|c0 cs IH]; intros o; cbn [app all_ok map].
  - intros _ H. split; [exact H|exact I].
  - intros [H1 H2] H. split; [exact H1|]. apply IH; [exact H2|exact H].
Qed.

Theorem accumulates k refs cs : k <> KFixed -> Forall (answered k) cs ->
  all_ok k (out_new k refs) cs /\
  exists es, results_of k cs es /\ holds (out_run k (out_new k refs) (map OCall cs)) es.
Proof.
  intros Hk. induction cs as [|c cs IH] using rev_ind; intros HA.
  - split; [exact I|]. exists []. split; [split; [reflexivity|intros [|i] c' e' G; discriminate]|].
    split; [reflexivity|]. split; [reflexivity|]. destruct k; try reflexivity. congruence.
  - apply Forall_app in HA. destruct HA as [HA Hc]. inversion Hc as [|? ? [Hs (vs & Hv & Hne)] _]; subst.
    destruct (IH HA) as [HO (es & HR & HH)].
    assert (HF : Forall (fun e => en_refs e <> []) es).
    { apply Forall_forall. intros e He. apply In_nth_error in He. destruct He as [i Hi].
      destruct HR as [HL HR]. destruct (nth_error cs i) as [c'|] eqn:Ec.
      2:{ apply nth_error_None in Ec. assert (i < length es)%nat by (apply nth_error_Some; congruence). lia. }
      destruct (HR i c' e Ec Hi) as (V & R & _). rewrite R.
      rewrite Forall_forall in HA. destruct (HA c' (nth_error_In _ _ Ec)) as [_ (vs' & V' & N)].
      rewrite V in V'. injection V' as ->. now apply N. }
    destruct (call_holds k c _ es vs Hk HH HF Hs Hv) as (o' & n & E & Hn & Hh).
    split; [apply all_ok_snoc; [exact HO|]; now rewrite E|].
    exists (es ++ [mkEntry n (call_refs k c vs) vs]). split.
    + apply results_snoc; auto.
    + rewrite map_app. cbn [map]. rewrite run_snoc. cbn [out_step]. rewrite E. exact Hh.
Qed.

Theorem accumulates_fixed refs cs : Forall (answered KFixed) cs ->
  all_ok KFixed (out_new KFixed refs) cs /\
  exists es, results_of KFixed cs es /\ holds_fixed refs (out_run KFixed (out_new KFixed refs) (map OCall cs)) es.
Proof.
  induction cs as [|c cs IH] using rev_ind; intros HA.
  - split; [exact I|]. exists []. split; [split; [reflexivity|intros [|i] c' e' G; discriminate]|]. now repeat split.
  - apply Forall_app in HA. destruct HA as [HA Hc]. inversion Hc as [|? ? [_ (vs & Hv & _)] _]; subst.
    destruct (IH HA) as [HO (es & HR & HH)].
    destruct (call_holds_fixed refs c _ es vs HH Hv) as (o' & n & E & Hn & Hh).
    split; [apply all_ok_snoc; [exact HO|]; now rewrite E|].
    exists (es ++ [mkEntry n (ca_refs c) vs]). split.
    + apply results_snoc; auto.
    + rewrite map_app. cbn [map]. rewrite run_snoc. cbn [out_step]. rewrite E. exact Hh.
Qed.

(** An empty first result: [_add_refs] takes the next references for the first,
    and the references of the two results are no longer told apart. *)
Theorem empty_refs_forgotten refs c1 c2 vs : ca_series c1 = true -> ca_series c2 = true ->
  ca_values c1 = Ok [] -> ca_values c2 = Ok vs ->
  let o := out_run KSeries (out_new KSeries refs) [OCall c1; OCall c2] in
  o_refs o = A1 (times (ca_dt c2) (length vs)) /\ stored o = 2%nat.
Proof.
  intros S1 S2 V1 V2. cbn zeta. unfold out_run. cbn [fold_left out_step].
  assert (E1 : exists n, fst (out_call KSeries c1 (out_new KSeries refs)) = mkOut (A1 []) (Some (A1 [])) n).
  { unfold out_call. rewrite S1, V1. now eexists. }
  destruct E1 as [n ->]. unfold out_call. rewrite S2, V2.
  destruct (add_values_ok (base_call (mkOut (A1 []) (Some (A1 [])) n) (ca_name c2)) vs) as (o2 & -> & R & _ & N).
  cbn [then_]. unfold add_refs. rewrite R. cbn [o_refs base_call nrows length Nat.eqb bind then_ fst].
  split; [reflexivity|]. change (stored o2 = 2%nat). rewrite N. reflexivity.
Qed.

(** * C47 *)
Lemma fixed_refs_kept o ps : o_refs (out_run KFixed o ps) = o_refs o.
Proof.
  revert o; induction ps as [|p ps IH]; intros o; [reflexivity|]. unfold out_run; cbn [fold_left].
  change (o_refs (out_run KFixed (out_step KFixed o p) ps) = o_refs o). rewrite IH.
  destruct p as [c|]; [|reflexivity]. cbn [out_step out_call]. destruct (ca_values c) as [vs|e]; [|reflexivity].
  destruct (add_values_ok (base_call o (ca_name c)) vs) as (o2 & -> & R & _). cbn [then_ fst]. rewrite R. reflexivity.
Qed.

Theorem reset_fresh k refs ps : out_reset k (out_run k (out_new k refs) ps) = out_new k refs.
Proof.
  unfold out_reset, out_new. destruct (const_ref k) eqn:E; [|reflexivity].
  destruct k; try discriminate. rewrite fixed_refs_kept. reflexivity.
Qed.

(** Nothing before a reset can be observed after it. *)
Theorem out_reset_forgets k refs ps qs : out_run k (out_new k refs) (ps ++ OReset :: qs) = out_run k (out_new k refs) qs.
Proof.
  unfold out_run at 1. rewrite fold_left_app. cbn [fold_left out_step].
  change (fold_left (out_step k) ps (out_new k refs)) with (out_run k (out_new k refs) ps). now rewrite reset_fresh.
Qed.

(** * C72: iter_results *)
Lemma iter_holds o es : forall pre suf, es = pre ++ suf ->
  (forall j e, nth_error es j = Some e -> column (o_refs o) j = Ok (padded (longest (map en_refs es)) (en_refs e))) ->
  (exists a, o_values o = Some a /\ forall j e, nth_error es j = Some e ->
     column a j = Ok (padded (longest (map en_vals es)) (en_vals e))) ->
  iter_from o (length pre) (map en_name suf) =
  (map (fun e => (en_name e, padded (longest (map en_refs es)) (en_refs e), padded (longest (map en_vals es)) (en_vals e))) suf, Ok tt).
Proof.
  intros pre suf. revert pre. induction suf as [|e suf IH]; intros pre E HR HV; [reflexivity|]. cbn [map iter_from].
  assert (He : nth_error es (length pre) = Some e) by (rewrite E, nth_error_app2, Nat.sub_diag by lia; reflexivity).
  rewrite (HR _ _ He). destruct HV as (a & Ea & HV). rewrite Ea, (HV _ _ He).
  specialize (IH (pre ++ [e])). rewrite app_length in IH. cbn [length] in IH. rewrite Nat.add_1_r in IH.
  rewrite IH; [reflexivity|now rewrite <- app_assoc|exact HR|now exists a].
Qed.

Lemma column_shows {E} (f : E -> list cell) es a : shows (map f es) a -> forall j e, nth_error es j = Some e ->
  column a j = Ok (padded (longest (map f es)) (f e)).
Proof.
  intros H j e He. apply (shows_column (map f es) a j (f e) H).
  - now apply map_nth_error.
  - destruct es as [|e0 [|e1 es]]; [contradiction| |left; cbn; lia]. right. destruct j as [|[|j]]; [reflexivity|discriminate|discriminate].
Qed.

Theorem iter_results_spec o es : holds o es ->
  iter_results o =
  (map (fun e => (en_name e, padded (longest (map en_refs es)) (en_refs e), padded (longest (map en_vals es)) (en_vals e))) es, Ok tt).
Proof.
  intros [HN HH]. unfold iter_results. rewrite HN. destruct es as [|e0 es]; [reflexivity|].
  destruct HH as [(a & Ea & Ha) Hr].
  apply (iter_holds o (e0 :: es) [] (e0 :: es) eq_refl).
  - now apply column_shows.
  - exists a. split; [exact Ea|]. now apply column_shows.
Qed.

Theorem iter_results_fixed refs o es : holds_fixed refs o es ->
  iter_results o =
  (map (fun e => (en_name e, map Some refs, padded (longest (map en_vals es)) (en_vals e))) es, Ok tt).
Proof.
  intros (HN & HR & HH). unfold iter_results. rewrite HN. destruct es as [|e0 es]; [reflexivity|].
  destruct HH as (a & Ea & Ha). pose proof (column_shows en_vals (e0 :: es) a Ha) as HC.
  assert (G : forall pre suf, e0 :: es = pre ++ suf -> iter_from o (length pre) (map en_name suf) =
    (map (fun e => (en_name e, map Some refs, padded (longest (map en_vals (e0 :: es))) (en_vals e))) suf, Ok tt)).
  { intros pre suf. revert pre. induction suf as [|e suf IH]; intros pre E; [reflexivity|]. cbn [map iter_from].
    assert (He : nth_error (e0 :: es) (length pre) = Some e) by (rewrite E, nth_error_app2, Nat.sub_diag by lia; reflexivity).
    rewrite HR. cbn [column]. rewrite Ea, (HC _ _ He).
    specialize (IH (pre ++ [e])). rewrite app_length in IH. cbn [length] in IH. rewrite Nat.add_1_r in IH.
    rewrite IH; [reflexivity|now rewrite <- app_assoc]. }
  exact (G [] (e0 :: es) eq_refl).
Qed.

(** After a failed call the next result is yielded under both names. *)
Theorem failure_misattributes : exists c1 c2 : call,
  snd (out_call KFixed c1 (out_new KFixed [1%R])) = Err ValueError /\
  ca_name c1 = Some "failed"%string /\ ca_name c2 = Some "good"%string /\
  let o := out_run KFixed (out_new KFixed [1%R]) [OCall c1; OCall c2] in
  length (o_names o) = 2%nat /\ stored o = 1%nat /\
  iter_results o = ([("failed"%string, [Some 1%R], [Some 5%R]); ("good"%string, [Some 1%R], [Some 5%R])], Ok tt).
Proof.
  exists (mkCall (Some "failed"%string) true 0.01 [] (Err ValueError)),
         (mkCall (Some "good"%string) true 0.01 [] (Ok [Some 5%R])).
  repeat split.
Qed.

(** Default names repeat after a failure. *)
Theorem failure_repeats_name k refs c1 c2 e : ca_name c1 = None -> ca_name c2 = None ->
  (k = KSeries -> ca_series c1 = true /\ ca_series c2 = true) -> ca_values c1 = Err e ->
  o_names (out_run k (out_new k refs) [OCall c1; OCall c2]) = [rname 1; rname 1].
Proof.
  intros N1 N2 Hs V. unfold out_run. cbn [fold_left out_step].
  rewrite (default_name k c2); [|exact N2|intros K; apply Hs, K].
  rewrite (default_name k c1); [|exact N1|intros K; apply Hs, K].
  pose proof (call_counts k c1 (out_new k refs)) as HC. destruct (out_call k c1 (out_new k refs)) as [o' r].
  cbn [fst]. assert (S0 : stored o' = 0%nat).
  { destruct r as [u|e'].
    - destruct HC as (_ & _ & _ & vs & Hv). congruence.
    - destruct HC as [(_ & _ & -> & _)|(_ & _ & _ & Hv)]; [reflexivity|]. unfold stored. rewrite Hv. reflexivity. }
  now rewrite S0.
Qed.

(** A profile that is only a half-space: references without values. *)
Theorem half_space_desync l : exists o e,
  out_call KTop (mkCall None true 0.01 (map Some (top_refs [l])) (top_values damping [l])) (out_new KTop []) = (o, Err e) /\
  o_values o = None /\ o_names o = [rname 1] /\ o_refs o = A1 [Some (l_depth l)].
Proof. do 2 eexists. split; [reflexivity|]. now repeat split. Qed.

(** Outputs of a collection stay in step if no call fails; otherwise the outputs
    after the failing one miss the result. *)
Theorem collection_ok os os' : coll_call os = (os', Ok tt) ->
  length os' = length os /\
  forall i k o c, nth_error os i = Some (k, o, c) ->
    nth_error os' i = Some (k, fst (out_call k c o)) /\ snd (out_call k c o) = Ok tt.
Proof.
  revert os'; induction os as [|[[k o] c] os IH]; intros os' H; cbn [coll_call] in H.
  - injection H as <-. split; [reflexivity|]. intros [|i]; discriminate.
  - destruct (out_call k c o) as [o1 [[]|e]] eqn:E; [|discriminate].
    destruct (coll_call os) as [r x] eqn:Er. injection H as <- Hx. subst x. destruct (IH r eq_refl) as [L G].
    split; [cbn; lia|]. intros [|i] k' o' c' Hi.
    + injection Hi as <- <- <-. rewrite E. split; reflexivity.
    + exact (G i k' o' c' Hi).
Qed.

Theorem collection_failure os os' e : coll_call os = (os', Err e) ->
  exists pre k o c post pre', os = pre ++ (k, o, c) :: post /\
    snd (out_call k c o) = Err e /\ length pre' = length pre /\
    os' = pre' ++ (k, fst (out_call k c o)) :: map fst post.
Proof.
  revert os'; induction os as [|[[k o] c] os IH]; intros os' H; cbn [coll_call] in H; [discriminate|].
  destruct (out_call k c o) as [o1 [u|e1]] eqn:E.
  - destruct (coll_call os) as [r x] eqn:Er. injection H as <- Hx. subst x.
    destruct (IH r eq_refl) as (pre & k' & o' & c' & post & pre' & -> & F & L & ->).
    exists ((k, o, c) :: pre), k', o', c', post, ((k, o1) :: pre'). split; [reflexivity|]. split; [exact F|].
    split; [cbn; lia|reflexivity].
  - injection H as <- ->. exists [], k, o, c, os, []. rewrite E. now repeat split.
Qed.
