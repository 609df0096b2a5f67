(** The smoothed strain spectrum: which bandwidth, which values. *)
From Coq Require Import Ascii List.
From Verif Require Import Common Model.Text Model.Fdm Spec.TextSpec Spec.NumberSpec Spec.FdmSpec Proof.CommonFacts Proof.NumberText Proof.AdjustProps Proof.FdmFacts.
Local Open Scope R_scope.

Theorem ko_values F a n b freqs fas eff mx : x_method F = (KO ++ (a ++ number_text n ++ b))%list ->
  List.Forall white a -> List.Forall white b -> number_ok n ->
  let sm := x_smooth F (number_value n) freqs fas in
  In mx sm -> List.Forall (fun x => x <= mx) sm -> mx <> 0 ->
  exists ss, strain_spectrum F freqs fas eff = Ok (Some ss) /\ length ss = length sm /\
  forall i s, nth_error ss i = Some s ->
    (exists j x, (i <= j)%nat /\ nth_error sm j = Some x /\ s = eff * x / mx) /\
    (forall j x, (i <= j)%nat -> nth_error sm j = Some x -> eff * x / mx <= s).
Proof.
  intros HM Wa Wb Hn sm Hin Hmax N. unfold strain_spectrum. rewrite HM, not_ka02_ko.
  replace (starts KO _) with true by (symmetry; apply starts_spec; now eexists).
  replace (skipn 3 (KO ++ (a ++ number_text n ++ b))) with (a ++ number_text n ++ b)%list by reflexivity.
  rewrite (float_read a b n Wa Wb Hn). cbn [bind]. fold sm.
  destruct (np_max_ok sm) as [m Em]; [intros E; rewrite E in Hin; exact Hin|].
  destruct (np_max_spec _ _ Em) as [Im Mm].
  assert (m = mx).
  { rewrite Forall_forall in Mm, Hmax. pose proof (Mm mx Hin). pose proof (Hmax m Im). lra. }
  subst m. unfold scaled_by_max. rewrite Em. cbn [bind].
  rewrite (map_opt_all _ (fun x => eff * x / mx)) by (apply Forall_forall; intros x _; now apply div_opt_ne). cbn [bind opt_bind].
  eexists. split; [reflexivity|]. rewrite max_backwards_len, map_length. split; [reflexivity|]. intros i s Hs.
  destruct (max_backwards_spec _ _ _ Hs) as [(j & Hj & Ej) M]. split.
  - rewrite nth_error_map in Ej. destruct (nth_error sm j) as [x|] eqn:Ex; [|discriminate]. cbn in Ej. injection Ej as <-. now exists j, x.
  - intros k x Hk Ex. apply (M k _ Hk). rewrite nth_error_map, Ex. reflexivity.
Qed.
Theorem ko_unread F b freqs fas eff e : x_method F = (KO ++ b)%list -> py_float b = Err e -> strain_spectrum F freqs fas eff = Err ValueError.
Proof.
  intros HM He. unfold strain_spectrum. rewrite HM, not_ka02_ko.
  replace (starts KO _) with true by (symmetry; apply starts_spec; now eexists).
  replace (skipn 3 (KO ++ b)) with b by reflexivity. rewrite He. now rewrite (float_error _ _ He).
Qed.
