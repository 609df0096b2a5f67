(** Profiles given as tables of depths, and what merging similar layers means. *)
From Coq Require Import Sorted.
From Verif Require Import Common Model.Generic.
Local Open Scope R_scope.

(** A table that can be used: depths strictly increasing, velocities positive. *)
Definition good_rows (rows : list nrow) : Prop :=
  rows <> [] /\ StronglySorted Rlt (map n_depth rows) /\ Forall (fun r => 0 < n_vs r) rows.

(** Travel time and weight between the first and the last depth: every row holds down to the
    next one, and the last one is the half-space. *)
Fixpoint travel (rows : list nrow) : R :=
  match rows with
  | [] => 0
  | r :: rest => match rest with [] => 0 | r' :: _ => (n_depth r' - n_depth r) / n_vs r + travel rest end
  end.
Fixpoint weight (rows : list nrow) : R :=
  match rows with
  | [] => 0
  | r :: rest => match rest with [] => 0 | r' :: _ => n_wt r * (n_depth r' - n_depth r) + weight rest end
  end.
(** Depth of the half-space below the first row. *)
Definition extent (rows : list nrow) : R :=
  match rows, last_opt rows with r :: _, Some r' => n_depth r' - n_depth r | _, _ => 0 end.
(** No row is thinner than [t]. *)
Fixpoint no_thinner (t : R) (rows : list nrow) : Prop :=
  match rows with
  | [] => True
  | r :: rest => match rest with [] => True | r' :: _ => t <= n_depth r' - n_depth r /\ no_thinner t rest end
  end.

Definition within (tol v0 v : R) : Prop := Rabs (v - v0) <= tol * v0.
(** Consecutive groups: all velocities of a group are within the tolerance of its first one,
    and the first one of the next group is not. *)
Inductive grouped (tol : R) : list (list nrow) -> Prop :=
| grouped_last r g : Forall (fun x => within tol (n_vs r) (n_vs x)) g -> grouped tol [r :: g]
| grouped_next r g r' g' gs : Forall (fun x => within tol (n_vs r) (n_vs x)) g -> ~ within tol (n_vs r) (n_vs r') ->
    grouped tol ((r' :: g') :: gs) -> grouped tol ((r :: g) :: (r' :: g') :: gs).

(** A row standing for the rows [r :: g], which reach down to the depth of the last of [span]:
    it starts where they do and takes the same time. *)
Definition stands_for (r : nrow) (span : list nrow) (m : nrow) : Prop :=
  n_depth m = n_depth r /\ 0 < n_vs m /\ extent span / n_vs m = travel span.
Inductive merged : list (list nrow) -> list nrow -> Prop :=
| merged_halfspace r m : n_depth m = n_depth r -> n_vs m = n_vs r -> n_wt m = n_wt r -> merged [[r]] [m]
| merged_last r x g m : stands_for r (r :: x :: g) m -> merged [r :: x :: g] [m]
| merged_next r g r' g' gs m ms : stands_for r ((r :: g) ++ [r']) m -> merged ((r' :: g') :: gs) ms ->
    merged ((r :: g) :: (r' :: g') :: gs) (m :: ms).
(** Bounds of a group. *)
Definition between (f : nrow -> R) (g : list nrow) (m : nrow) : Prop :=
  forall lo hi, Forall (fun r => lo <= f r <= hi) g -> lo <= f m <= hi.
