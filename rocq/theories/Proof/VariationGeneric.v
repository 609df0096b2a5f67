(** Keyword arguments of the generic velocity variations. *)
From Coq Require Import String.
From Verif Require Import Common Proof.CommonFacts Model.Curve Model.Layer Model.Averages Model.Variation Model.VariationGeneric Spec.VariationGenericSpec.
Local Open Scope R_scope.

Lemma ok_same {A} (a b : A) : Ok a = Ok b -> a = b.
Proof. congruence. Qed.
Lemma get_cons n v d k : kw_get ((n, v) :: d) k = if String.eqb n k then Some v else kw_get d k.
Proof. unfold kw_get. cbn [find fst]. now destruct (String.eqb n k). Qed.
Lemma get_in d n v : once d -> (kw_get d n = Some v <-> In (n, v) d).
Proof.
  unfold once. induction d as [|[k x] d IH]; intros O; [split; [discriminate|intros []]|]. cbn [map] in O. inversion O as [|? ? N O']; subst.
  rewrite get_cons. destruct (String.eqb_spec k n) as [->|NE].
  - split; [intros H; left; congruence|]. intros [H|H]; [congruence|]. exfalso. apply N. change n with (fst (n, v)). now apply in_map.
  - rewrite (IH O'). split; [now right|]. intros [H|H]; [congruence|exact H].
Qed.
Lemma kwget_none d n : kw_get d n = None <-> ~ given d n.
Proof.
  induction d as [|[k x] d IH]; [split; [intros _ [v []]|reflexivity]|]. rewrite get_cons. destruct (String.eqb_spec k n) as [->|NE].
  - split; [discriminate|]. intros H. destruct H. exists x. now left.
  - rewrite IH. split; intros H [v Hv]; apply H; [|exists v; now right]. destruct Hv as [Hv|Hv]; [congruence|now exists v].
Qed.
Lemma get_app d e n : kw_get (d ++ e) n = match kw_get d n with Some v => Some v | None => kw_get e n end.
Proof. induction d as [|[k x] d IH]; [reflexivity|]. cbn [app]. rewrite !get_cons. now destruct (String.eqb k n). Qed.
Lemma class_get m n x : class_value m n x -> kw_get (class_kwargs m) n = Some (VNum x).
Proof. now intros []. Qed.
Lemma class_some m n : In n toro_needed -> exists x, class_value m n x.
Proof. intros H. repeat (destruct H as [<-|H]; [eexists; constructor|]). destruct H. Qed.

Lemma needed_ok d m : forallb (fun n => match kw_get (d ++ class_kwargs m) n with Some _ => true | None => false end) toro_needed = true.
Proof.
  apply forallb_forall. intros n Hn. rewrite get_app. destruct (kw_get d n); [reflexivity|].
  destruct (class_some m n Hn) as [x Hx]. now rewrite (class_get _ _ _ Hx).
Qed.
Lemma known_iff names d : forallb (fun kv : string * kval => existsb (String.eqb (fst kv)) names) d = true <-> forall n, given d n -> In n names.
Proof.
  rewrite forallb_forall. split.
  - intros H n [v Hv]. specialize (H _ Hv). apply existsb_exists in H. destruct H as (k & Hk & E). apply String.eqb_eq in E. cbn [fst] in E. now subst k.
  - intros H [n v] Hv. apply existsb_exists. exists n. split; [apply H; now exists v|apply String.eqb_refl].
Qed.
Lemma name_iff n : toro_name n <-> In n toro_known.
Proof.
  split.
  - intros [k (m & x & C)|]; [|now left]. right. destruct C; cbn; tauto.
  - intros [<-|H]; [exact TN_bedrock|]. apply TN_class. exists (mkToroVel 0 0 0 0 0 0). now apply class_some.
Qed.
Lemma class_known m names : (forall n, In n toro_needed -> In n names) ->
  forallb (fun kv : string * kval => existsb (String.eqb (fst kv)) names) (class_kwargs m) = true.
Proof.
  intros H. apply known_iff. intros n [v Hv]. apply H. cbn in Hv. cbn.
  repeat (destruct Hv as [Hv|Hv]; [injection Hv as <- _; tauto|]). destruct Hv.
Qed.

Lemma toro_generic_known cls kwds : (exists m, toro_lookup cls = Ok m) ->
  ((forall n, given kwds n -> toro_name n) -> exists o, toro_generic cls kwds = Ok o) /\
  (forall n, given kwds n -> ~ toro_name n -> toro_generic cls kwds = Err TypeError).
Proof.
  intros [m E]. unfold toro_generic. rewrite E. cbn [bind]. unfold make. rewrite needed_ok, Bool.andb_true_r, forallb_app.
  rewrite (class_known m toro_known), Bool.andb_true_r by (intros; now right). split.
  - intros H. rewrite (proj2 (known_iff _ _)); [now eexists|]. intros n Hn. now apply name_iff, H.
  - intros n G N. destruct (forallb _ kwds) eqn:F; [|reflexivity]. exfalso. apply N, name_iff. now apply (proj1 (known_iff _ _) F).
Qed.
Lemma toro_generic_values cls m kwds o : toro_lookup cls = Ok m -> once kwds -> toro_generic cls kwds = Ok o ->
  (forall n v, In (n, v) kwds -> kw_get o n = Some v) /\
  (forall n x, ~ given kwds n -> class_value m n x -> kw_get o n = Some (VNum x)).
Proof.
  intros E O H. unfold toro_generic in H. rewrite E in H. cbn [bind] in H. unfold make in H.
  destruct (_ && _)%bool; [|discriminate]. apply ok_same in H. subst o. split.
  - intros n v Hv. rewrite get_app. apply (get_in _ _ _ O) in Hv. now rewrite Hv.
  - intros n x G C. rewrite get_app, (proj2 (kwget_none _ _) G). now apply class_get.
Qed.
Lemma generic_unknown_class cls mp kwds e : toro_lookup cls = Err e -> toro_generic cls kwds = Err KeyError /\ depth_generic cls mp kwds = Err KeyError.
Proof.
  intros H. assert (e = KeyError) by (unfold toro_lookup in H; destruct (find _ _); congruence). subst e.
  unfold toro_generic, depth_generic. rewrite H. now split.
Qed.

Lemma depth_generic_values cls m mp kwds o : toro_lookup cls = Ok m -> once kwds ->
  ~ given kwds "ln_std_map"%string -> depth_generic cls mp kwds = Ok o ->
  kw_get o "ln_std_map"%string = Some (VMap (match mp with Some d => d | None => nil end)) /\
  (forall n v, In (n, v) kwds -> n <> "ln_std"%string -> kw_get o n = Some v) /\
  (forall n x, ~ given kwds n -> n <> "ln_std"%string -> class_value m n x -> kw_get o n = Some (VNum x)) /\
  (given kwds "depth"%string ->
     (forall v, In ("ln_std"%string, v) kwds -> kw_get o "ln_std"%string = Some v) /\
     (~ given kwds "ln_std"%string -> kw_get o "ln_std"%string = Some (VNum (tv_ln_std m)) /\ depth_end_values o = Err TypeError)) /\
  (~ given kwds "depth"%string ->
     kw_get o "depth"%string = Some (VArr (cons 0 (cons 15 nil))) /\
     kw_get o "ln_std"%string = Some (VArr (cons 0.25 (cons 0.15 nil))) /\ depth_end_values o = Ok (0.25, 0.15)).
Proof.
  intros E O NM H. unfold depth_generic in H. rewrite E in H. cbn [bind] in H. cbv zeta in H. unfold make in H.
  destruct (_ && _)%bool; [|discriminate]. apply ok_same in H.
  assert (B : forall n, n <> "ln_std_map"%string -> n <> "ln_std"%string -> n <> "depth"%string -> kw_get o n = kw_get (kwds ++ class_kwargs m) n).
  { intros n N1 N2 N3. subst o. rewrite get_cons. rewrite (proj2 (String.eqb_neq _ _)) by congruence.
    destruct (kw_get kwds "depth"); [reflexivity|]. rewrite !get_cons. now rewrite !(proj2 (String.eqb_neq _ _)) by congruence. }
  split; [now subst o|]. split; [|split; [|split]].
  - intros n v Hv N2. assert (N1 : n <> "ln_std_map"%string) by (intros ->; apply NM; now exists v).
    apply (get_in _ _ _ O) in Hv. destruct (string_dec n "depth") as [->|N3].
    + subst o. rewrite get_cons. cbn [String.eqb Ascii.eqb Bool.eqb]. rewrite Hv, get_app, Hv. reflexivity.
    + rewrite (B n N1 N2 N3), get_app, Hv. reflexivity.
  - intros n x G N2 C. rewrite B; [|destruct C; discriminate|exact N2|destruct C; discriminate].
    rewrite get_app, (proj2 (kwget_none _ _) G). now apply class_get.
  - intros G. destruct (kw_get kwds "depth") as [w|] eqn:Ed; [|apply kwget_none in Ed; contradiction]. split.
    + intros v Hv. apply (get_in _ _ _ O) in Hv. subst o. rewrite get_cons, get_app, Hv. reflexivity.
    + intros N. apply kwget_none in N. assert (Q : kw_get o "ln_std" = Some (VNum (tv_ln_std m))) by (subst o; rewrite get_cons, get_app, N; reflexivity).
      split; [exact Q|]. unfold depth_end_values. now rewrite Q.
  - intros G. apply kwget_none in G. rewrite G in H. subst o. now repeat split.
Qed.

Lemma depth_generic_known cls mp kwds : (exists m, toro_lookup cls = Ok m) ->
  (forall n, given kwds n -> toro_name n \/ n = "depth"%string) -> exists o, depth_generic cls mp kwds = Ok o.
Proof.
  intros [m E] H. unfold depth_generic. rewrite E. cbn [bind]. cbv zeta. unfold make.
  set (d := match kw_get kwds "depth" with Some _ => _ | None => _ end).
  assert (K : forall n, given d n -> In n depth_known).
  { assert (B : forall n, given (kwds ++ class_kwargs m) n -> In n depth_known).
    { intros n [v Hv]. apply in_app_or in Hv. destruct Hv as [Hv|Hv].
      - destruct (H n (ex_intro _ v Hv)) as [T| ->]; [|cbn; tauto]. apply name_iff in T. cbn in *. tauto.
      - cbn in Hv. repeat (destruct Hv as [Hv|Hv]; [injection Hv as <- _; cbn; tauto|]). destruct Hv. }
    unfold d. destruct (kw_get kwds "depth"); [exact B|]. intros n [v [Hv|[Hv|Hv]]]; [injection Hv as <- _; cbn; tauto..|].
    apply B. now exists v. }
  rewrite (proj2 (known_iff _ _)).
  2:{ intros n [v [Hv|Hv]]; [injection Hv as <- _; now left|]. apply K. now exists v. }
  cbn [andb]. replace (forallb _ depth_needed) with true; [now eexists|]. symmetry. apply forallb_forall. intros n Hn.
  rewrite get_cons. destruct (String.eqb _ n); [reflexivity|]. unfold d.
  destruct (kw_get kwds "depth") as [w|] eqn:Ed.
  - rewrite get_app. destruct (kw_get kwds n) eqn:En; [reflexivity|]. destruct Hn as [<-|Hn]; [congruence|].
    destruct (class_some m n Hn) as [x Hx]. now rewrite (class_get _ _ _ Hx).
  - rewrite !get_cons. destruct (String.eqb "ln_std" n); [reflexivity|]. destruct (String.eqb_spec "depth" n) as [|N]; [reflexivity|].
    destruct Hn as [<-|Hn]; [congruence|]. rewrite get_app. destruct (kw_get kwds n); [reflexivity|].
    destruct (class_some m n Hn) as [x Hx]. now rewrite (class_get _ _ _ Hx).
Qed.

Lemma depth_generic_unknown cls mp kwds n : (exists m, toro_lookup cls = Ok m) -> given kwds n ->
  ~ toro_name n -> n <> "depth"%string -> n <> "ln_std_map"%string -> depth_generic cls mp kwds = Err TypeError.
Proof.
  intros [m E] [v Hv] N1 N2 N3. unfold depth_generic. rewrite E. cbn [bind]. cbv zeta. unfold make.
  destruct (_ && _)%bool eqn:F; [|reflexivity]. exfalso. apply andb_prop in F. destruct F as [F _].
  assert (I : In n depth_known).
  { apply (proj1 (known_iff _ _) F). exists v. right. destruct (kw_get kwds "depth"); [|right; right]; apply in_or_app; now left. }
  apply N1, name_iff. cbn in I. cbn. destruct I as [I|[I|[I|I]]]; [congruence|tauto|congruence|tauto].
Qed.
