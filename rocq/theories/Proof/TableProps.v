(** Tables made of stored results. *)
From Coq Require Import String.
From Verif Require Import Common Proof.CommonFacts Model.Curve Model.Layer Model.Profile Model.Averages Model.Output Model.Cplx Model.Waves Model.Eql
  Model.Tables Spec.ProfileSpec Spec.OutputSpec Proof.OutputFacts Proof.OutputProps Proof.OutputValues.
Local Open Scope R_scope.

(** * Series and fixed references *)
Lemma table_one (r : list cell) : map (fun x => [x]) r = table [r] (length r).
Proof. unfold table. cbn [map]. rewrite (pad_same r) at 1. now rewrite map_map. Qed.

Theorem fixed_table refs o es : holds_fixed refs o es -> es <> [] ->
  to_dataframe o = if Nat.eqb (longest (map en_vals es)) (length refs)
    then Ok (mkFrame (map Some refs) (map en_name es)
               (map (fun i => map (fun e => nth i (en_vals e) None) es) (seq 0 (length refs))))
    else Err ValueError.
Proof.
  intros (HN & HR & HV) Hne. unfold to_dataframe. rewrite HN. destruct es as [|e0 es]; [congruence|]. cbn [map].
  destruct HV as (a & Ea & HS). rewrite Ea, HR. unfold pd_frame. rewrite map_length.
  rewrite (shows_canon _ _ HS). destruct es as [|e1 es].
  - cbn [map canon]. rewrite map_length, Nat.eqb_refl, andb_true_r. cbn [longest fold_right]. rewrite Nat.max_0_r.
    destruct (Nat.eqb_spec (length (en_vals e0)) (length refs)) as [E|]; [|reflexivity].
    rewrite table_one, E. reflexivity.
  - change (longest (en_vals e0 :: map en_vals (e1 :: es))) with (longest (map en_vals (e0 :: e1 :: es))).
    rewrite canon_many by (cbn; lia). rewrite table_length.
    assert (EW : Nat.eqb (length (map en_vals (e0 :: e1 :: es))) (length (en_name e0 :: map en_name (e1 :: es))) = true)
      by (apply Nat.eqb_eq; cbn; now rewrite !map_length).
    rewrite EW, andb_true_r.
    destruct (Nat.eqb_spec (longest (map en_vals (e0 :: e1 :: es))) (length refs)) as [E|]; [|reflexivity].
    rewrite E. unfold table. cbn [map]. f_equal. f_equal. apply map_ext. intros i. cbn [map]. now rewrite map_map.
Qed.

Theorem series_table o es : holds o es ->
  to_dataframe o = match es with
                   | [] => Err IndexError
                   | [e] => if Nat.eqb (length (en_vals e)) (length (en_refs e))
                            then Ok (mkFrame (en_refs e) [en_name e] (map (fun v => [v]) (en_vals e))) else Err ValueError
                   | _ => Err ValueError
                   end.
Proof.
  intros [HN HV]. unfold to_dataframe. rewrite HN. destruct es as [|e0 [|e1 es]]; [reflexivity| |].
  - destruct HV as ((a & Ea & HS) & HR). cbn in HS, HR. rewrite Ea, HR, HS. cbn [map pd_frame]. rewrite map_length. cbn [length].
    rewrite Nat.eqb_refl, andb_true_r. reflexivity.
  - destruct HV as (_ & HR). rewrite (shows_canon _ _ HR), canon_many by (cbn; lia). reflexivity.
Qed.

(** * Profiles *)
Lemma finite_pairs_pad refs : forall vals n, length refs = length vals ->
  finite_pairs (padded n refs) (padded n vals) = finite_pairs refs vals.
Proof.
  assert (P : forall refs vals k, length refs = length vals ->
    finite_pairs (refs ++ repeat None k) (vals ++ repeat None k) = finite_pairs refs vals).
  { clear. induction refs as [|r refs IH]; intros [|v vals] k H; try discriminate.
    - cbn [app]. induction k as [|k IH]; [reflexivity|]. cbn [repeat finite_pairs]. exact IH.
    - injection H as H. cbn [app]. destruct r as [r|], v as [v|]; cbn [finite_pairs]; rewrite ?(IH vals k H); reflexivity. }
  intros vals n H. unfold padded. rewrite H. now apply P.
Qed.
Lemma ln_interp_pad refs vals n z : length refs = length vals ->
  ln_interp (padded n refs) (padded n vals) z = ln_interp refs vals z.
Proof. intros H. unfold ln_interp. now rewrite finite_pairs_pad. Qed.

Lemma mapM_all {A B} (f : A -> res B) (g : A -> B) xs : (forall x, In x xs -> f x = Ok (g x)) -> mapM f xs = Ok (map g xs).
Proof.
  induction xs as [|x xs IH]; intros H; [reflexivity|]. cbn [mapM map]. rewrite (H x (or_introl eq_refl)). cbn [bind].
  rewrite IH by (intros y Hy; apply H; now right). reflexivity.
Qed.

Lemma map_nth_seq {A B} (F : A -> B) xs d : map (fun i => F (nth i xs d)) (seq 0 (length xs)) = map F xs.
Proof.
  induction xs as [|x xs IH]; [reflexivity|]. cbn [length seq map nth]. f_equal. rewrite <- seq_shift, map_map. exact IH.
Qed.
Definition dummy : entry := mkEntry EmptyString [] [].
Lemma ln_table_spec o es zs : holds o es -> (2 <= length es)%nat ->
  Forall (fun e => length (en_refs e) = length (en_vals e)) es ->
  ln_table o zs = Ok (map (fun z => map (fun e => opt_bind z (ln_interp (en_refs e) (en_vals e))) es) zs).
Proof.
  intros [HN HV] H2 HF. destruct es as [|e0 es0] eqn:Ees; [cbn in H2; lia|]. rewrite <- Ees in *.
  assert (HV' : (exists a, o_values o = Some a /\ shows (map en_vals es) a) /\ shows (map en_refs es) (o_refs o)) by (now rewrite Ees in *).
  clear HV Ees e0 es0. destruct HV' as ((a & Ea & HS) & HR).
  assert (LL : longest (map en_refs es) = longest (map en_vals es)).
  { clear -HF. unfold longest. induction HF as [|e es E HF IH]; [reflexivity|]. cbn [map fold_right]. rewrite E, IH. reflexivity. }
  unfold ln_table. rewrite Ea. pose proof (shows_canon _ _ HS) as CA. pose proof (shows_canon _ _ HR) as CR.
  rewrite canon_many in CA, CR by (now rewrite map_length). rewrite !map_length in CA, CR.
  rewrite CA. rewrite (mapM_all _ (fun i => let e := nth i es dummy in map (fun x => opt_bind x (ln_interp (en_refs e) (en_vals e))) zs)).
  2:{ intros i Hi. apply in_seq in Hi. assert (Ei : nth_error es i = Some (nth i es dummy)) by (apply nth_error_nth'; lia).
      set (e := nth i es dummy) in *. unfold ln_column. 
      pose proof (column_shows en_refs es (o_refs o) HR i e Ei) as C1. pose proof (column_shows en_vals es a HS i e Ei) as C2.
      rewrite CR in C1 |- *. rewrite CA in C2. cbn [column] in C1. assert (Hlt : (i <? length es) = true) by (apply Nat.ltb_lt; lia).
      rewrite Hlt in C1 |- *. cbn [nrows]. rewrite !table_length, LL, Nat.eqb_refl. rewrite C2. cbn [bind]. injection C1 as C1. rewrite LL in C1. rewrite C1.
      f_equal. apply map_ext. intros [x|]; [|reflexivity]. cbn [opt_bind]. apply ln_interp_pad.
      rewrite Forall_forall in HF. apply HF. now apply nth_error_In in Ei. }
  cbn [bind]. f_equal. cbv zeta.
  rewrite (map_nth_seq (fun e => map (fun x => opt_bind x (ln_interp (en_refs e) (en_vals e))) zs) es dummy).
  rewrite <- (map_nth_seq (fun z => map (fun e => opt_bind z (ln_interp (en_refs e) (en_vals e))) es) zs None).
  apply map_ext_in. intros j Hj. apply in_seq in Hj. rewrite map_map. apply map_ext. intros e.
  apply nth_error_nth, (map_nth_error (fun x => opt_bind x (ln_interp (en_refs e) (en_vals e)))). apply nth_error_nth'. lia.
Qed.

Theorem profiles_table o es zs : holds o es -> (2 <= length es)%nat ->
  Forall (fun e => length (en_refs e) = length (en_vals e)) es ->
  profile_dataframe o (Some (map Some zs)) =
  Ok (mkFrame (map Some zs) (map en_name es) (map (fun z => map (fun e => profile_at (en_refs e) (en_vals e) z) es) zs)).
Proof.
  intros H H2 HF. unfold profile_dataframe. cbn [bind]. rewrite (ln_table_spec o es _ H H2 HF).
  destruct H as [HN HV]. rewrite HN. destruct es as [|e0 [|e1 es]]; [cbn in H2; lia|cbn in H2; lia|].
  destruct HV as ((a & Ea & HS) & _). rewrite Ea, (shows_canon _ _ HS), canon_many by (cbn; lia).
  cbn [bind]. cbn [map]. unfold pd_frame. rewrite !map_length, Nat.eqb_refl.
  assert (EW : Nat.eqb (length (en_vals e0 :: en_vals e1 :: map en_vals es)) (length (en_name e0 :: en_name e1 :: map en_name es)) = true)
    by (apply Nat.eqb_eq; cbn; now rewrite !map_length).
  rewrite EW. cbn [andb]. f_equal. f_equal. rewrite !map_map. apply map_ext. intros z. cbn [map opt_bind]. rewrite map_map. reflexivity.
Qed.

Theorem profile_table_short o es zs : holds o es -> (length es < 2)%nat ->
  profile_dataframe o (Some zs) = Err IndexError /\ (es <> [] -> profile_stats o (Some zs) = Err IndexError).
Proof.
  intros [HN HV] H2. destruct es as [|e0 [|e1 es]]; [| |cbn in H2; lia].
  - split; [|congruence]. unfold profile_dataframe. cbn [bind]. now rewrite HN.
  - destruct HV as ((a & Ea & HS) & _). cbn in HS. subst a. unfold profile_dataframe, profile_stats, ln_table. cbn [bind]. rewrite HN, Ea. now split.
Qed.

(** ** Statistics *)
Lemma present_exp row : map ln (present (map (option_map exp) row)) = present row.
Proof. induction row as [|[x|] row IH]; cbn; [reflexivity|rewrite ln_exp, IH; reflexivity|exact IH]. Qed.
Theorem profile_statistics o es zs : holds o es -> (2 <= length es)%nat ->
  Forall (fun e => length (en_refs e) = length (en_vals e)) es ->
  profile_stats o (Some (map Some zs)) =
  Ok (map Some zs, map (fun z => row_stats (map (fun e => profile_at (en_refs e) (en_vals e) z) es)) zs).
Proof.
  intros H H2 HF. unfold profile_stats. cbn [bind]. rewrite (ln_table_spec o es _ H H2 HF). cbn [bind]. f_equal. f_equal.
  rewrite !map_map. apply map_ext. intros z. unfold row_stats, ln_stats. cbn [opt_bind].
  replace (map (fun e => profile_at (en_refs e) (en_vals e) z) es) with (map (option_map exp) (map (fun e => ln_interp (en_refs e) (en_vals e) z) es))
    by (rewrite map_map; reflexivity).
  rewrite present_exp. reflexivity.
Qed.

(** ** The default depths *)
Lemma fold_max xs : forall x, let m := fold_left Rmax xs x in (m = x \/ In m xs) /\ x <= m /\ forall y, In y xs -> y <= m.
Proof.
  induction xs as [|a xs IH]; intros x m; unfold m.
  - cbn. split; [now left|]. split; [lra|]. intros y [].
  - cbn [fold_left]. destruct (IH (Rmax x a)) as (A & B & D). pose proof (Rmax_l x a). pose proof (Rmax_r x a).
    split; [|split; [lra|]].
    + destruct A as [A|A]; [|now right; right]. rewrite A. unfold Rmax. destruct (Rle_dec x a); [right; now left|now left].
    + intros y [<-|Hy]; [lra|now apply D].
Qed.
Lemma nth_error_Some_lt {A} (l : list A) i x : nth_error l i = Some x -> (i < length l)%nat.
Proof. intros H. apply nth_error_Some. congruence. Qed.
Theorem depths_default factor num o ds : (2 <= num)%nat -> present (entries (o_refs o)) <> [] ->
  default_depths factor num o = Ok ds ->
  exists deepest, In (Some deepest) (entries (o_refs o)) /\ (forall d, In (Some d) (entries (o_refs o)) -> d <= deepest) /\
    length ds = num /\ forall i d, nth_error ds i = Some d -> d = Some (deepest * factor * (INR i / INR (num - 1))).
Proof.
  intros Hn Hp. unfold default_depths, nanmax.
  assert (PI : forall xs x, In x (present xs) <-> In (Some x) xs).
  { induction xs as [|[a|] xs IH]; intros x; cbn; [tauto| |].
    - rewrite IH. split; (intros [E|E]; [left; congruence|now right]).
    - rewrite IH. split; [now right|]. intros [E|E]; [discriminate|exact E]. }
  destruct (entries (o_refs o)) as [|c cs] eqn:Ee; [cbn in Hp; congruence|].
  destruct (present (c :: cs)) as [|x r] eqn:Ep; [congruence|]. cbn [bind]. intros E. injection E as <-.
  destruct (fold_max r x) as (A & B & D). exists (fold_left Rmax r x). split; [|split; [|split]].
  - apply PI. rewrite Ep. destruct A as [A|A]; [left; now rewrite A|now right].
  - intros d Hd. apply PI in Hd. rewrite Ep in Hd. destruct Hd as [<-|Hd]; [exact B|now apply D].
  - unfold linspace0. now rewrite map_length, seq_length.
  - intros i d Hi. unfold linspace0 in Hi. assert (Hlt : (i < num)%nat).
    { apply nth_error_Some_lt in Hi. now rewrite map_length, seq_length in Hi. }
    rewrite (map_nth_error _ _ _ (d := i)) in Hi.
    + injection Hi as <-. cbn [option_map]. f_equal. unfold Rdiv. ring.
    + rewrite (nth_error_nth' _ 0%nat) by (now rewrite seq_length). now rewrite seq_nth.
Qed.

(** ** Velocity, modulus and damping profiles read back from a table *)
Theorem layer_table f o sites es names zs : holds o es -> (2 <= length sites)%nat -> length names = length sites ->
  (forall i ls n, nth_error sites i = Some ls -> nth_error names i = Some n -> exists vs, top_values f ls = Ok vs /\
     nth_error es i = Some (mkEntry n (map Some (top_refs ls)) vs)) -> length es = length sites ->
  Forall (fun ls => depths_cumulative ls /\ Forall (fun l => 0 < l_thick l /\ 0 < f l) (removelast ls)) sites ->
  exists fr, profile_dataframe o (Some (map Some zs)) = Ok fr /\ fr_columns fr = names /\ fr_index fr = map Some zs /\
    forall j z i ls l, nth_error zs j = Some z -> nth_error sites i = Some ls -> inside ls z l ->
      exists row, nth_error (fr_rows fr) j = Some row /\ nth_error row i = Some (Some (f l)).
Proof.
  intros H H2 LN HE LE HF.
  assert (GE : forall i e, nth_error es i = Some e -> exists ls n vs, nth_error sites i = Some ls /\ nth_error names i = Some n /\
     top_values f ls = Ok vs /\ e = mkEntry n (map Some (top_refs ls)) vs).
  { intros i e Hi. assert (i < length es)%nat by (apply nth_error_Some; congruence).
    destruct (nth_error sites i) as [ls|] eqn:Es; [|apply nth_error_None in Es; lia].
    destruct (nth_error names i) as [n|] eqn:En; [|apply nth_error_None in En; lia].
    destruct (HE i ls n Es En) as (vs & Hv & E). exists ls, n, vs. repeat split; try assumption. congruence. }
  assert (HL : Forall (fun e => length (en_refs e) = length (en_vals e)) es).
  { apply Forall_forall. intros e He. apply In_nth_error in He. destruct He as [i Hi]. destruct (GE i e Hi) as (ls & n & vs & Es & En & Hv & ->).
    cbn [en_refs en_vals]. rewrite map_length. unfold top_values in Hv. unfold top_refs. rewrite map_length.
    destruct (map f (removelast ls)) as [|v vs'] eqn:Em; [discriminate|]. injection Hv as <-. cbn [length]. rewrite map_length.
    apply (f_equal (@length R)) in Em. rewrite map_length, removelast_length in Em. cbn in Em. lia. }
  eexists. split; [apply (profiles_table o es zs H ltac:(lia) HL)|]. cbn [fr_columns fr_index fr_rows]. split; [|split; [reflexivity|]].
  - apply nth_error_ext. intros i. destruct (nth_error es i) as [e|] eqn:Ei.
    + rewrite (map_nth_error _ _ _ Ei). destruct (GE i e Ei) as (ls & n & vs & _ & En & _ & ->). now rewrite En.
    + pose proof (proj1 (nth_error_None _ _) Ei). transitivity (@None string).
      * apply nth_error_None. rewrite map_length. lia.
      * symmetry. apply nth_error_None. lia.
  - intros j z i ls l Hz Hs Hin. eexists. split; [apply map_nth_error; exact Hz|].
    assert (i < length sites)%nat by (apply nth_error_Some; congruence).
    destruct (nth_error es i) as [e|] eqn:Ei; [|apply nth_error_None in Ei; lia].
    rewrite (map_nth_error _ _ _ Ei). destruct (GE i e Ei) as (ls' & n & vs & Es & _ & Hv & ->). assert (ls' = ls) by congruence. subst ls'.
    cbn [en_refs en_vals]. rewrite Forall_forall in HF. destruct (HF ls (nth_error_In _ _ Hs)) as [D T].
    destruct (profile_read_back f ls z l 0 D T Hin) as (vs' & Hv' & E). assert (vs' = vs) by congruence. subst vs'.
    unfold padded in E. cbn [Nat.sub repeat] in E. rewrite !app_nil_r in E. now rewrite E.
Qed.
