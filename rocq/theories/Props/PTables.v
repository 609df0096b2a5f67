(** Properties C148 and C149: tables of stored results. *)
From Verif Require Import Common Model.Curve Model.Layer Model.Profile Model.Averages Model.Output Model.Tables Spec.ProfileSpec Spec.OutputSpec Spec.ReadSpec Proof.OutputFacts Proof.OutputProps Proof.TableProps Proof.ProfileReads.
From Coq Require Import String List Sorted.
Local Open Scope R_scope.

(** Two calls with different numbers of results. *)
Definition tb_calls : list call :=
  [mkCall None true 1 [Some 0; Some 2] (Ok [Some 5; Some 6]);
   mkCall (Some "b"%string) true 1 [Some 0] (Ok [Some 7])].

(** C148: an output with fixed references becomes a table with one row per reference and
    one column per result, each under its name, if no result is longer or all are
    shorter than the references; otherwise a ValueError is raised. *)
Theorem C148_fixed : forall refs o es,
  holds_fixed refs o es -> es <> [] ->
  to_dataframe o = if Nat.eqb (longest (map en_vals es)) (length refs)
    then Ok (mkFrame (map Some refs) (map en_name es)
               (map (fun i => map (fun e => nth i (en_vals e) None) es) (seq 0 (length refs))))
    else Err ValueError.
Proof. exact fixed_table. Qed.
Print Assumptions C148_fixed.
Example C148_fixed_ex : exists es, length es = 2%nat /\ holds_fixed [1; 2] (out_run KFixed (out_new KFixed [1; 2]) (map OCall tb_calls)) es.
Proof.
  destruct (accumulates_fixed [1; 2] tb_calls) as (_ & es & [HL _] & H).
  - repeat (apply Forall_cons; [split; [discriminate|]; eexists; split; [reflexivity|congruence]|]); apply Forall_nil.
  - exists es. split; [exact HL|exact H].
Qed.

(** C148: an output whose references come with each result becomes a table only if it
    holds exactly one result of matching length; with two or more results to_dataframe
    always raises a ValueError, because the stored references form a two-dimensional
    array. *)
Theorem C148_series : forall o es,
  holds o es ->
  to_dataframe o = match es with
                   | [] => Err IndexError
                   | [e] => if Nat.eqb (length (en_vals e)) (length (en_refs e))
                            then Ok (mkFrame (en_refs e) [en_name e] (map (fun v => [v]) (en_vals e))) else Err ValueError
                   | _ => Err ValueError
                   end.
Proof. exact series_table. Qed.
Print Assumptions C148_series.
Example C148_series_ex : exists es, length es = 2%nat /\ holds (out_run KSeries (out_new KSeries []) (map OCall tb_calls)) es.
Proof.
  destruct (accumulates KSeries [] tb_calls ltac:(discriminate)) as (_ & es & [HL _] & H).
  - repeat (apply Forall_cons; [split; [reflexivity|]; eexists; split; [reflexivity|discriminate]|]); apply Forall_nil.
  - exists es. split; [exact HL|exact H].
Qed.

(** C149: two or more profiles become a table with one row per requested depth and one
    column per profile, the cell being the profile read at that depth. *)
Theorem C149_table : forall o es zs,
  holds o es -> (2 <= length es)%nat ->
  Forall (fun e => length (en_refs e) = length (en_vals e)) es ->
  profile_dataframe o (Some (map Some zs)) =
  Ok (mkFrame (map Some zs) (map en_name es) (map (fun z => map (fun e => profile_at (en_refs e) (en_vals e) z) es) zs)).
Proof. exact profiles_table. Qed.
Print Assumptions C149_table.
Example C149_table_ex : exists es, (2 <= length es)%nat /\ Forall (fun e => length (en_refs e) = length (en_vals e)) es /\
  holds (out_run KTop (out_new KTop []) (map OCall tb_calls)) es.
Proof.
  destruct (accumulates KTop [] tb_calls ltac:(discriminate)) as (_ & es & HH & H).
  - repeat (apply Forall_cons; [split; [reflexivity|]; eexists; split; [reflexivity|discriminate]|]); apply Forall_nil.
  - exists es. destruct HH as [HL HE]. rewrite HL. split; [cbn; lia|]. split; [|exact H].
    destruct es as [|e0 [|e1 [|e2 es]]]; try discriminate HL.
    destruct (HE 0%nat _ e0 eq_refl eq_refl) as (V0 & R0 & _). destruct (HE 1%nat _ e1 eq_refl eq_refl) as (V1 & R1 & _).
    injection V0 as V0. injection V1 as V1.
    repeat apply Forall_cons; try apply Forall_nil; [rewrite R0, <- V0|rewrite R1, <- V1]; reflexivity.
Qed.

(** C73,C149: a profile with increasing depths and positive values, however padded,
    gives at any depth the value stored with the first depth at or below it, and beyond
    the deepest the last value. *)
Theorem C149_read : forall rs vs n z,
  rs <> [] -> length rs = length vs -> StronglySorted Rlt rs -> Forall (fun x => 0 < x) vs ->
  exists v, reads rs vs z v /\ profile_at (padded n (map Some rs)) (padded n (map Some vs)) z = Some v.
Proof. exact profile_reads. Qed.
Print Assumptions C149_read.
Example C149_read_ex : Sorted.StronglySorted Rlt [0; 2; 5] /\ Forall (fun x => 0 < x) [1; 1; 3] /\ reads [0; 2; 5] [1; 1; 3] 3 3 /\ reads [0; 2; 5] [1; 1; 3] 9 3.
Proof.
  split; [repeat constructor; lra|]. split; [repeat constructor; lra|]. split.
  - repeat (apply reads_below; [lra|]). apply reads_here. lra.
  - do 2 (apply reads_below; [lra|]). apply reads_last. lra.
Qed.

(** C149: for velocity, modulus and damping profiles the cell at a depth inside a layer
    is the value of that layer of that profile. *)
Theorem C149_layers : forall f o sites es names zs,
  holds o es -> (2 <= length sites)%nat -> length names = length sites ->
  (forall i ls n, nth_error sites i = Some ls -> nth_error names i = Some n -> exists vs, top_values f ls = Ok vs /\
     nth_error es i = Some (mkEntry n (map Some (top_refs ls)) vs)) -> length es = length sites ->
  Forall (fun ls => depths_cumulative ls /\ Forall (fun l => 0 < l_thick l /\ 0 < f l) (removelast ls)) sites ->
  exists fr, profile_dataframe o (Some (map Some zs)) = Ok fr /\ fr_columns fr = names /\ fr_index fr = map Some zs /\
    forall j z i ls l, nth_error zs j = Some z -> nth_error sites i = Some ls -> inside ls z l ->
      exists row, nth_error (fr_rows fr) j = Some row /\ nth_error row i = Some (Some (f l)).
Proof. exact layer_table. Qed.
Print Assumptions C149_layers.

(** C149: the statistics at a depth are the exponential of the mean and the standard
    deviation of the logarithms of the profiles present at that depth. *)
Theorem C149_statistics : forall o es zs,
  holds o es -> (2 <= length es)%nat ->
  Forall (fun e => length (en_refs e) = length (en_vals e)) es ->
  profile_stats o (Some (map Some zs)) =
  Ok (map Some zs, map (fun z => row_stats (map (fun e => profile_at (en_refs e) (en_vals e) z) es)) zs).
Proof. exact profile_statistics. Qed.
Print Assumptions C149_statistics.

(** C149: the depths chosen by default are evenly spaced from zero to the deepest stored
    depth times the factor. *)
Theorem C149_depths : forall factor num o ds,
  (2 <= num)%nat -> present (entries (o_refs o)) <> [] ->
  default_depths factor num o = Ok ds ->
  exists deepest, In (Some deepest) (entries (o_refs o)) /\ (forall d, In (Some d) (entries (o_refs o)) -> d <= deepest) /\
    length ds = num /\ forall i d, nth_error ds i = Some d -> d = Some (deepest * factor * (INR i / INR (num - 1))).
Proof. exact depths_default. Qed.
Print Assumptions C149_depths.
Example C149_depths_ex : exists o ds, o_refs o = A1 [Some 0; Some 2; None] /\ default_depths 1 50 o = Ok ds /\ present (entries (o_refs o)) <> [].
Proof. exists (mkOut (A1 [Some 0; Some 2; None]) None []). eexists. split; [reflexivity|]. split; [reflexivity|discriminate]. Qed.

(** C149: an output holding fewer than two profiles cannot be made into a table, and one
    with a single profile has no statistics: an IndexError is raised. *)
Theorem C149_refuted : forall o es zs,
  holds o es -> (length es < 2)%nat ->
  profile_dataframe o (Some zs) = Err IndexError /\ (es <> [] -> profile_stats o (Some zs) = Err IndexError).
Proof. exact profile_table_short. Qed.
Print Assumptions C149_refuted.
