(** Attenuation of a list of layers. *)
From Coq Require Import String.
From Verif Require Import Common Model.Curve Model.Layer Model.Tools.
Local Open Scope R_scope.

(** Twice the damping times the travel time, added up (kappa). *)
Definition kappa (ls : list layer) : R :=
  fold_right (fun l acc => 2 * l_dmin l * (l_thick l / l_vs l) + acc) 0 ls.

(** Thickness over squared velocity, added up. *)
Definition thick_sum (ls : list layer) : R :=
  fold_right (fun l acc => l_thick l / l_vs l ^ 2 + acc) 0 ls.
(** The same with the distance to the top of the next layer of the list in place of the
    thickness, and nothing for the last layer. *)
Fixpoint gap_sum (ls : list layer) : R :=
  match ls with
  | [] => 0
  | l :: rest => match rest with [] => 0 | l' :: _ => (l_depth l' - l_depth l) / l_vs l ^ 2 + gap_sum rest end
  end.

(** A layer of the given unit weight, velocity and damping. *)
Definition of_material (uw v D : R) (l : layer) : Prop := s_unit_wt (l_soil l) = uw /\ shear_vel l = v /\ l_dmin l = D.

(** A row of a table with one column renamed. *)
Definition rename_col (old new : string) (r : row) : row :=
  map (fun kc => (if String.eqb (fst kc) old then new else fst kc, snd kc)) r.
