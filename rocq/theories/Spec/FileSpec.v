(** Written files and what is to be read from them. *)
From Coq Require Import Ascii.
From Verif Require Import Common Model.Text Model.Shake Spec.TextSpec Spec.NumberSpec.
Local Open Scope R_scope.

(** Width and reader of a field. *)
Definition to_type {A} (f : wfield A) : nat * (text -> res A) := (f_width f, f_read f).
(** Lines ended by a newline. *)
Definition lined (ls : list text) : Prop := Forall (fun l => exists s, no_nl s /\ l = s ++ [nl]) ls.

(** ** nrattle control files *)

Definition space : ascii -> bool := Ascii.eqb " "%char.
(** Words that start with the numbers of a record. *)
Definition record_words (ws : list text) (r : R * R * R * R * R) : Prop :=
  match r with (n, t, v, d, q) =>
    exists k w1 w2 w3 w4 w5 more, ws = w1 :: w2 :: w3 :: w4 :: w5 :: more /\ py_int w1 = Ok k /\ n = IZR k /\
      py_float w2 = Ok t /\ py_float w3 = Ok v /\ py_float w4 = Ok d /\ py_float w5 = Ok q
  end.
Definition line_words (l : text) (ws : list text) : Prop :=
  exists sws, words_ok space true sws /\ l = spaced sws [] /\ ws = map snd sws.

(** ** Curves of a SHAKE file *)

Definition curve_of (dmp : bool) (c : wcurve) : shake_curve := mkSC dmp (wc_title c) (wc_strain_values c) (wc_data_values c).
Definition pair_lines (p : wcurve * wcurve) : list text := wcurve_lines (fst p) ++ wcurve_lines (snd p).
Definition pair_curves (p : wcurve * wcurve) : list shake_curve := [curve_of false (fst p); curve_of true (snd p)].
Definition pair_entries (tp : Z * (wcurve * wcurve)) : list (Z * bool * shake_curve) :=
  [(fst tp, false, curve_of false (fst (snd tp))); (fst tp, true, curve_of true (snd (snd tp)))].

(** ** The profile of a SHAKE file *)

(** A cell that is blank or has a number. *)
Definition cell (w : text) (x : option R) : Prop :=
  (x = None /\ blanks w) \/ exists a t b v, x = Some v /\ blanks a /\ blanks b /\ writes t v /\ w = a ++ t ++ b.
(** A layer as written on one line: number of the layer and of the soil type (five characters
    each), thickness (fifteen), modulus, damping, unit weight and velocity (ten each). *)
Record wlayer_line := mkWL0 {
  wl_index : text; wl_type : text; wl_thick : text; wl_mod : text; wl_damp : text; wl_weight : text; wl_vs : text }.
Definition wlayer_text (w : wlayer_line) : text :=
  wl_index w ++ wl_type w ++ wl_thick w ++ wl_mod w ++ wl_damp w ++ wl_weight w ++ wl_vs w ++ [nl].
(** The line [w] states soil type [n], thickness [t], unit weight [u] and velocity [v]. *)
Definition states (w : wlayer_line) (n : Z) (t u v : option R) : Prop :=
  (length (wl_index w) = 5 /\ length (wl_type w) = 5 /\ length (wl_thick w) = 15 /\ length (wl_mod w) = 10 /\
   length (wl_damp w) = 10 /\ length (wl_weight w) = 10 /\ 0 < length (wl_vs w) <= 10)%nat /\
  (exists i, right_number (wl_index w) i) /\ right_number (wl_type w) n /\ cell (wl_thick w) t /\
  (exists g, cell (wl_mod w) g) /\ (exists d, cell (wl_damp w) d) /\ cell (wl_weight w) u /\ cell (wl_vs w) v.
(** The layer read from a line: it has the two curves assigned to its soil type. *)
Definition layer_from (types : list (Z * (wcurve * wcurve))) (w : wlayer_line) (l : shake_layer) : Prop :=
  exists p, In (sl_soil l, p) types /\ states w (sl_soil l) (sl_thick l) (sl_unit_wt l) (sl_vs l) /\
    sl_mod l = curve_of false (fst p) /\ sl_damp l = curve_of true (snd p).
(** The first line: layer of the water table, number of layers, another number, and a name. *)
Definition profile_head (h : text) (wt n : Z) : Prop :=
  exists a b c nm title k, h = a ++ b ++ c ++ nm ++ [nl] /\ (length a = 5 /\ length b = 5 /\ length c = 5 /\ length nm <= 55)%nat /\
    right_number a wt /\ right_number b n /\ right_number c k /\ no_nl nm /\ padded_name nm title.
(** The depth of the top of layer [k] if the thicknesses above it are known. *)
Fixpoint top_depth (k : nat) (ls : list shake_layer) (d : R) : Prop :=
  match k, ls with
  | O, _ :: _ => d = 0
  | S k', l :: rest => exists t d', sl_thick l = Some t /\ top_depth k' rest d' /\ d = t + d'
  | _, [] => False
  end.
