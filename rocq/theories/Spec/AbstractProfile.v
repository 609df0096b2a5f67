(** The simplest description of a program using profiles: every layer has a
    thickness and a unit weight, every profile is a list of layers. *)
From Verif Require Import Common Model.Layer Model.Profile.
Local Open Scope R_scope.

Record amodel := mkA {
  a_thick : nat -> R;          (* layer -> thickness *)
  a_uwt : nat -> R;            (* layer -> unit weight *)
  a_next : nat;                (* layers created *)
  a_layers : nat -> list nat;  (* profile -> layers, top to bottom *)
  a_wt : nat -> R;             (* profile -> water-table depth *)
  a_pnext : nat                (* profiles created *)
}.

Definition upd {A} (f : nat -> A) (k : nat) (v : A) : nat -> A :=
  fun j => if Nat.eqb j k then v else f j.

(** New layers get consecutive numbers. *)
Definition acreate (m : amodel) (t u : R) : amodel :=
  mkA (upd (a_thick m) (a_next m) t) (upd (a_uwt m) (a_next m) u) (S (a_next m))
    (a_layers m) (a_wt m) (a_pnext m).

(** Effect of each operation on that description. *)
Definition astep (m : amodel) (o : op) : amodel :=
  match o with
  | ONewLayer s t _ _ => acreate m t (s_unit_wt s)
  | ONewProfile ls wt =>
      mkA (a_thick m) (a_uwt m) (a_next m) (upd (a_layers m) (a_pnext m) ls)
        (upd (a_wt m) (a_pnext m) wt) (S (a_pnext m))
  | OAppend p a =>
      mkA (a_thick m) (a_uwt m) (a_next m) (upd (a_layers m) p (a_layers m p ++ [a]))
        (a_wt m) (a_pnext m)
  | OInsert p i a =>
      let k := Z.to_nat i in
      mkA (a_thick m) (a_uwt m) (a_next m)
        (upd (a_layers m) p (firstn k (a_layers m p) ++ [a] ++ skipn k (a_layers m p)))
        (a_wt m) (a_pnext m)
  | OSetThickness a t =>
      mkA (upd (a_thick m) a t) (a_uwt m) (a_next m) (a_layers m) (a_wt m) (a_pnext m)
  | OCopy p =>
      let src := a_layers m p in
      let m1 := fold_left (fun x b => acreate x (a_thick m b) (a_uwt m b)) src m in
      mkA (a_thick m1) (a_uwt m1) (a_next m1)
        (upd (a_layers m) (a_pnext m) (seq (a_next m) (length src)))
        (upd (a_wt m) (a_pnext m) (a_wt m p)) (S (a_pnext m))
  | OUpdateLayers _ _ | OLayer _ _ | OLookup _ _ | OAutoDisc _ _ _ _ => m
  end.
Definition arun (m : amodel) (os : list op) : amodel := fold_left astep os m.
Definition ainit : amodel := mkA (fun _ => 0) (fun _ => 0) 0 (fun _ => []) (fun _ => 0) 0.

(** Depth of the [i]-th layer of a profile. *)
Definition adepth (m : amodel) (p i : nat) : R :=
  Rsum (map (a_thick m) (firstn i (a_layers m p))).
Definition aweight (m : amodel) (p i : nat) : R :=
  Rsum (map (fun a => a_uwt m a * a_thick m a) (firstn i (a_layers m p))).
