(** Model of the reader of SHAKE input files (src/pystrata/tools.py:69-255). *)
From Coq Require Import Ascii String.
From Verif Require Import Common Model.Tools Model.Text.
Local Open Scope R_scope.

(** ** Option blocks (tools.py:215-233) *)

(** tools.py:219, [re.match(r"^\s+(\d+)$", line)]: the number of an option line. *)
Definition chomp (s : text) : text :=
  match rev s with
  | c :: r => if Ascii.eqb c newline then rev r else s
  | [] => s
  end.
Definition option_line (line : text) : option Z :=
  match line with
  | c :: _ => if is_space c then nat_text (lstrip (chomp line)) else None
  | [] => None
  end.

(** [option] and [block] of the loop, and the blocks saved so far. *)
Record bstate := mkB { b_option : option Z; b_block : list text; b_saved : list (Z * list text) }.
(** [if option]: neither [None] nor 0. *)
Definition truthy (o : option Z) : option Z :=
  match o with Some n => if (n =? 0)%Z then None else Some n | None => None end.
(** tools.py:218-233 *)
Definition block_step (st : bstate) (line : text) : bstate :=
  match option_line line with
  | Some n =>
      match truthy (b_option st), b_block st with
      | Some _, [] => mkB (b_option st) [line] (b_saved st)
      | Some o, (_ :: _) as blk => mkB (Some n) [] (b_saved st ++ [(o, blk)])
      | None, _ => mkB (Some n) [] (b_saved st)
      end
  | None => mkB (b_option st) (b_block st ++ [line]) (b_saved st)
  end.
(** tools.py:216-233: the list [options]. *)
Definition split_options (lines : list text) : list (Z * list text) :=
  b_saved (fold_left block_step lines (mkB None [] [])).

(** ** [_parse_curves] (tools.py:69-89) *)

(** What a field is read as. *)
Inductive field := FInt (n : Z) | FText (s : text) | FNum (x : R) | FOpt (x : option R).
Definition p_int (s : text) : res field := bind (py_int s) (fun n => Ok (FInt n)).
Definition p_str (s : text) : res field := Ok (FText (strip s)).
Definition p_num (s : text) : res field := bind (py_float s) (fun x => Ok (FNum x)).
Definition p_opt (s : text) : res field := Ok (FOpt (to_float s)).

(** A curve as read; the construction of the curve object is not part of this model. *)
Record shake_curve := mkSC { sc_damping : bool; sc_name : text; sc_strains : list R; sc_values : list R }.
(** tools.py:75-82 *)
Definition read_curve (damping : bool) (block : list text) : res (shake_curve * list text) :=
  bind (parse_fixed_width [(5%nat, p_int); (65%nat, p_str)] block) (fun h =>
  match fst h with
  | [FInt n; FText name] =>
      bind (parse_fixed_width (repeat (10%nat, py_float) (Z.to_nat n)) (snd h)) (fun ss =>
      bind (parse_fixed_width (repeat (10%nat, py_float) (Z.to_nat n)) (snd ss)) (fun vs =>
      Ok (mkSC damping name (fst ss) (fst vs), snd vs)))
  | _ => Err ValueError
  end).
(** tools.py:73-82 *)
Fixpoint read_curves (count : nat) (block : list text) : res (list shake_curve * list text) :=
  match count with
  | O => Ok ([], block)
  | S k =>
      bind (read_curve false block) (fun g =>
      bind (read_curve true (snd g)) (fun d =>
      bind (read_curves k (snd d)) (fun r =>
      Ok (fst g :: fst d :: fst r, snd r))))
  end.
(** tools.py:89: the entries of the dictionary, in order; a later entry replaces an earlier
    one with the same key. *)
Fixpoint label_curves (i : nat) (cs : list shake_curve) (types : list Z) : res (list (Z * bool * shake_curve)) :=
  match cs with
  | [] => Ok []
  | c :: rest =>
      match nth_error types (i / 2) with
      | None => Err IndexError
      | Some t => bind (label_curves (S i) rest types) (fun r => Ok ((t, sc_damping c, c) :: r))
      end
  end.
Definition parse_curves (block : list text) : res (list (Z * bool * shake_curve)) :=
  match block with
  | [] => Err IndexError
  | first :: rest =>
      bind (py_int first) (fun count =>
      bind (read_curves (Z.to_nat count) rest) (fun cr =>
      match snd cr with
      | [] => Err IndexError
      | l :: _ =>
          bind (py_int (firstn 5 l)) (fun n =>
          bind (parse_fixed_width (repeat (5%nat, py_int) (Z.to_nat (n + 1))) (snd cr)) (fun ts =>
          label_curves 0 (fst cr) (tl (fst ts))))
      end))
  end.
(** [curves[(idx, param)]] *)
Definition curve_get (curves : list (Z * bool * shake_curve)) (idx : Z) (damping : bool) : res shake_curve :=
  match find (fun e => (fst (fst e) =? idx)%Z && Bool.eqb (snd (fst e)) damping) (rev curves) with
  | Some e => Ok (snd e)
  | None => Err KeyError
  end.

(** ** [_parse_soil_profile] (tools.py:92-139) *)

(** A layer as read: soil type number, unit weight, the two curves, thickness, velocity;
    [None] is nan.  Two layers with equal soil types share one object, which is not
    modelled. *)
Record shake_layer := mkSL {
  sl_soil : Z; sl_unit_wt : option R; sl_mod : shake_curve; sl_damp : shake_curve;
  sl_thick : option R; sl_vs : option R }.
Definition read_layer (curves : list (Z * bool * shake_curve)) (block : list text) : res (shake_layer * list text) :=
  bind (parse_fixed_width [(5%nat, p_int); (5%nat, p_int); (15%nat, p_opt);
                           (10%nat, p_opt); (10%nat, p_opt); (10%nat, p_opt); (10%nat, p_opt)] block) (fun h =>
  match fst h with
  | [FInt _; FInt idx; FOpt thick; FOpt _; FOpt _; FOpt uw; FOpt vs] =>
      bind (curve_get curves idx false) (fun m =>
      bind (curve_get curves idx true) (fun d =>
      Ok (mkSL idx uw m d thick vs, snd h)))
  | _ => Err ValueError
  end).
Fixpoint read_layers (count : nat) (curves : list (Z * bool * shake_curve)) (block : list text)
    : res (list shake_layer * list text) :=
  match count with
  | O => Ok ([], block)
  | S k =>
      bind (read_layer curves block) (fun l =>
      bind (read_layers k curves (snd l)) (fun r => Ok (fst l :: fst r, snd r)))
  end.
(** Depths of the tops of the layers (site.py:2125-2140); nan spreads downward. *)
Fixpoint tops (d : option R) (ls : list shake_layer) : list (option R) :=
  match ls with
  | [] => []
  | l :: rest => d :: tops (opt_bind d (fun x => opt_bind (sl_thick l) (fun t => Some (x + t)))) rest
  end.
Record shake_profile := mkSP { sp_layers : list shake_layer; sp_wt : option R }.
(** [xs[i]] *)
Definition py_get {A} (xs : list A) (i : Z) : res A :=
  match opt_bind (py_index i (length xs)) (nth_error xs) with Some x => Ok x | None => Err IndexError end.
(** ["english"] *)
Definition english : text := ["e"; "n"; "g"; "l"; "i"; "s"; "h"]%char.
(** tools.py:125-132: the unit weight of a soil type and the velocity of a layer are
    properties without setters, so the conversion fails. *)
Definition parse_profile (units : text) (curves : list (Z * bool * shake_curve)) (block : list text) : res shake_profile :=
  bind (parse_fixed_width [(5%nat, p_int); (5%nat, p_int); (5%nat, p_int); (55%nat, p_str)] block) (fun h =>
  match fst h with
  | [FInt wt_layer; FInt n; FInt _; FText _] =>
      bind (read_layers (Z.to_nat n) curves (snd h)) (fun lr =>
      let ls := fst lr in
      if text_eqb units english && negb (Nat.eqb (length ls) 0) then Err AttributeError
      else bind (py_get (tops (Some 0) ls) (wt_layer - 1)) (fun wt => Ok (mkSP ls wt)))
  | _ => Err ValueError
  end).

(** ** Dispatch (tools.py:235-255) *)

(** What has been read so far; the motion is not described further. *)
Record shake_input := mkIn {
  in_curves : option (list (Z * bool * shake_curve)); in_profile : option shake_profile; in_motion : option unit }.
(** tools.py:251-253.  [read_motion] is [_parse_motion] (142-173), which reads another
    file.  The parsers of options 5, 6, 7 and 9 take the block only, so the call with
    keywords fails; those of options 2 and 4 require [curves] and [profile].  In the
    parser of option 4 the enumeration is indexed with an integer (180). *)
Definition parse_option (read_motion : list text -> res unit) (units : text) (i : shake_input) (ob : Z * list text)
    : res shake_input :=
  let block := snd ob in
  match fst ob with
  | 1%Z => bind (parse_curves block) (fun c => Ok (mkIn (Some c) (in_profile i) (in_motion i)))
  | 2%Z =>
      match in_curves i with
      | None => Err TypeError
      | Some c => bind (parse_profile units c block) (fun p => Ok (mkIn (in_curves i) (Some p) (in_motion i)))
      end
  | 3%Z => bind (read_motion block) (fun m => Ok (mkIn (in_curves i) (in_profile i) (Some m)))
  | 4%Z =>
      match in_profile i with
      | None => Err TypeError
      | Some _ => bind (parse_fixed_width [(5%nat, py_int); (5%nat, py_int)] block) (fun _ => Err KeyError)
      end
  | 5%Z | 6%Z | 7%Z | 9%Z => Err TypeError
  | _ => Err KeyError
  end.
Fixpoint parse_options (read_motion : list text -> res unit) (units : text) (i : shake_input) (obs : list (Z * list text))
    : res shake_input :=
  match obs with
  | [] => Ok i
  | ob :: rest => bind (parse_option read_motion units i ob) (fun i' => parse_options read_motion units i' rest)
  end.
(** tools.py:209-255 *)
Definition load_shake_inp (read_motion : list text -> res unit) (content : text) : res shake_input :=
  match readlines content with
  | _ :: units :: lines => parse_options read_motion units (mkIn None None None) (split_options lines)
  | _ => Err IndexError
  end.
