(** Initial values and the INITIALIZE statement:
    cobc/typeck.c 4185-4202 (cb_emit_initialize), cobc/codegen.c 1530-2110
    (initialize_type, initialize_uniform_char, output_initialize and its parts) and 4020-4035
    (output_initial_values).
    Not modelled: CHAINING, EXTERNAL, reference modification of the operand,
    OCCURS DEPENDING in front of an item (addresses are fixed).  The generated C
    text is modelled as the list of memory writes it performs; the loop
    variables of nested loops (cb_i[f->indexes]) are distinct, so a loop is the
    list of its rounds.  A MOVE generated by output_move is one write of the
    image of its result. *)
From Verif Require Import Base Layout.

Local Open Scope nat_scope.

(** Data categories (cb_tree_category, tree.c 493-567).  [CPointer]: data and
    program pointers. *)
Inductive cat := CAlphabetic | CAlnum | CAlnumEd | CNational | CNationalEd | CNumeric | CNumEd | CPointer.
Scheme Equality for cat.

(** VALUE clauses.  [VNum]: a numeric literal or another constant, stored by
    MOVE; [VText]: an alphanumeric literal; [VAll]: ALL literal. *)
Inductive value := VSpace | VLow | VHigh | VQuote | VZero | VNull | VAll (l : list Z) | VNum (n : nat) | VText (l : list Z).

(** A data description: the clauses that determine storage, and
    [a_filler]: no data name (the names made up for FILLER have '$' in position
    4, field.c/tree.c cb_build_filler); [a_occurs]: has an OCCURS clause. *)
Record attr := mkAttr { a_decl : decl; a_filler : bool; a_occurs : bool; a_cat : cat; a_value : option value }.
(** An item with its offset and size (struct cb_field). *)
Inductive fld := Fld (a : attr) (off size : nat) (ch : list fld).
Definition f_attr f := match f with Fld a _ _ _ => a end.
Definition f_off f := match f with Fld _ o _ _ => o end.
Definition f_size f := match f with Fld _ _ s _ => s end.
Definition f_ch f := match f with Fld _ _ _ c => c end.
Definition f_redef f := d_redef (a_decl (f_attr f)).
Definition f_occ f := d_occ (a_decl (f_attr f)).
Definition f_usage f := d_usage (a_decl (f_attr f)).
(** CB_TREE_CATEGORY: a group is alphanumeric. *)
Definition f_cat f := match f_ch f with [] => a_cat (f_attr f) | _ => CAlnum end.
(** The storage alone. *)
Fixpoint erase (f : fld) : placed :=
  match f with Fld a o s ch => Placed (a_decl a) o s (map erase ch) end.

(** cb_tree_type, tree.c 572-626 (groups have no type of their own here). *)
Inductive ftype := TDisplay | TBinary | TPacked | TFloat | TText | TNational | TEdited.
Definition leaf_type (f : fld) : ftype :=
  match a_cat (f_attr f) with
  | CAlphabetic | CAlnum => TText
  | CNational => TNational
  | CAlnumEd | CNationalEd | CNumEd => TEdited
  | CNumeric => match f_usage f with
                | UDisplay => TDisplay | UPacked => TPacked | UFloat | UDouble => TFloat
                | UBinary | UComp5 | UCompX | UIndex | UPointer => TBinary end
  | CPointer => TBinary
  end.

(** What is moved: ZERO, spaces (cb_blank), a VALUE, or an operand of
    REPLACING. *)
Inductive src := SZero | SBlank | SVal (v : value) | SUser (n : nat).

(** struct cb_initialize: [ph_val] = (p->val != NULL). *)
Record phrases := mkPh { ph_val : bool; ph_rep : list (cat * src); ph_def : bool; ph_stmt : bool }.

Section Init.
(** cb_display_sign == COB_DISPLAY_SIGN_EBCDIC. *)
Variable ebcdic : bool.
Variable p : phrases.

Inductive ity := NONE | ONE | DEFAULT | COMPOUND.
Definition ity_eqb (a b : ity) : bool :=
  match a, b with NONE, NONE | ONE, ONE | DEFAULT, DEFAULT | COMPOUND, COMPOUND => true | _, _ => false end.

Definition has_value (f : fld) : bool := match a_value (f_attr f) with Some _ => true | None => false end.
Definition rep_of (c : cat) : option src :=
  match find (fun e => cat_beq (fst e) c) (ph_rep p) with Some e => Some (snd e) | None => None end.

(** The end of initialize_type, codegen.c 1575-1609. *)
Definition leaf_init_type (f : fld) : ity :=
  match rep_of (f_cat f) with
  | Some _ => ONE
  | None =>
    if ph_def p then
      match f_usage f with
      | UFloat | UDouble => ONE
      | _ =>
        match f_cat f with
        | CNumEd | CAlnumEd | CNationalEd | CNational => ONE
        | _ => match leaf_type f with
               | TPacked => ONE
               | TDisplay => if d_signsep (a_decl (f_attr f)) then ONE
                             else if ebcdic && d_psign (a_decl (f_attr f)) then ONE else DEFAULT
               | _ => DEFAULT
               end
        end
      end
    else NONE
  end.

(** initialize_type, codegen.c 1530-1613. *)
Fixpoint init_type (topfield : bool) (f : fld) {struct f} : ity :=
  match f with Fld a o s ch =>
    if d_redef (a_decl a) && (negb topfield || negb (ph_stmt p)) then NONE
    else if ph_val p && has_value f then
      if topfield && a_occurs a && negb (ph_stmt p) then COMPOUND else ONE
    else
      match ch with
      | [] => if ph_stmt p && a_filler a then NONE else leaf_init_type f
      | c :: r =>
        let t := init_type false c in
        if ity_eqb t ONE then COMPOUND
        else if forallb (fun g => ity_eqb t (init_type false g)) r then t else COMPOUND
      end
  end.

(** initialize_uniform_char, codegen.c 1615-1644; None for -1. *)
Definition opt_eqb (a b : option Z) : bool :=
  match a, b with Some x, Some y => Z.eqb x y | None, None => true | _, _ => false end.
Fixpoint uniform_char (f : fld) {struct f} : option Z :=
  match f with Fld a o s ch =>
    match ch with
    | [] => match leaf_type f with
            | TBinary => Some 0%Z | TDisplay => Some 48%Z | TText => Some 32%Z | TNational => Some 32%Z
            | TPacked | TFloat | TEdited => None end
    | c :: r =>
      let x := uniform_char c in
      if forallb (fun g => f_redef g || opt_eqb x (uniform_char g)) r then x else None
    end
  end.

(** ** Writes *)
Inductive wr := WFill (a n : nat) (c : Z) | WData (a : nat) (bs : list Z) | WMove (s : src) (f : fld) (a : nat).

(** output_initialize_literal, codegen.c 1670-1716. *)
Definition all_writes (l : list Z) (size a : nat) : list wr :=
  let n := length l in
  if n =? 1 then [WFill a size (nth 0 l 0%Z)]
  else if size <=? n then [WData a (firstn size l)]
  else map (fun i => WData (a + i * n) l) (seq 0 (size / n)) ++
       (if size mod n =? 0 then [] else [WData (a + (size / n) * n) (firstn (size mod n) l)]).

(** The number of bytes equal to [c] at the end, codegen.c 1906-1913. *)
Fixpoint run_length (c : Z) (l : list Z) : nat :=
  match l with x :: r => if Z.eqb x c then S (run_length c r) else 0 | [] => 0 end.
(** The alphanumeric literal, codegen.c 1863-1935. *)
Definition text_writes (l : list Z) (size a : nat) : list wr :=
  let buff := if size <=? length l then firstn size l else l ++ repeat 32%Z (size - length l) in
  if size =? 1 then [WFill a 1 (nth 0 buff 0%Z)]
  else if forallb (Z.eqb (nth 0 buff 0%Z)) buff then [WFill a size (nth 0 buff 0%Z)]
  else
    let c := nth (size - 1) buff 0%Z in
    let n := run_length c (rev buff) in
    if (8 <=? size) && (2 <? n)
    then [WData a (firstn (size - n) buff); WFill (a + (size - n)) n c]
    else [WData a buff].

(** output_initialize_one, the VALUE part, codegen.c 1816-1938.  (For a group
    f->pic is not examined here: [d_psign] is false.) *)
Definition value_writes (v : value) (f : fld) (a : nat) : list wr :=
  match f_cat f with
  | CNational | CNationalEd => [WMove (SVal v) f a]
  | _ =>
    match v with
    | VSpace => [WFill a (f_size f) 32%Z]
    | VLow => [WFill a (f_size f) 0%Z]
    | VHigh => [WFill a (f_size f) 255%Z]
    | VQuote => [WFill a (f_size f) 34%Z]
    | VZero => match f_usage f with
               | UDisplay => if d_signsep (a_decl (f_attr f)) then [WMove SZero f a]
                             else if ebcdic && d_psign (a_decl (f_attr f)) then [WMove SZero f a]
                             else [WFill a (f_size f) 48%Z]
               | _ => [WMove (SVal v) f a]
               end
    | VNull => match f_usage f with UDisplay => [WFill a (f_size f) 0%Z] | _ => [WMove (SVal v) f a] end
    | VAll l => all_writes l (f_size f) a
    | VNum _ => [WMove (SVal v) f a]
    | VText l => text_writes l (f_size f) a
    end
  end.

(** output_initialize_one, codegen.c 1788-1982; [a] the address of the item. *)
Definition one (f : fld) (a : nat) : list wr :=
  match (if ph_val p then a_value (f_attr f) else None) with
  | Some v => value_writes v f a
  | None =>
    match (match f_ch f with [] => rep_of (f_cat f) | _ => None end) with
    | Some s => [WMove s f a]
    | None =>
      if ph_def p then
        match f_usage f with
        | UFloat => [WData a (repeat 0%Z 4)]
        | UDouble => [WData a (repeat 0%Z 8)]
        | _ => match f_cat f with
               | CNumeric | CNumEd => [WMove SZero f a]
               | CAlnumEd | CNationalEd | CNational => [WMove SBlank f a]
               | _ => []   (* ABORT in the compiler *)
               end
        end
      else []
    end
  end.

(** The loop of a table, codegen.c 2049-2072. *)
Definition each (body : nat -> list wr) (f : fld) (d : nat) : list wr :=
  if a_occurs (f_attr f) then flat_map (fun k => body (d + k * f_size f)) (seq 0 (f_occ f)) else body d.

(** May a sister be joined to a run of items filled with [c], codegen.c
    2023-2031. *)
Definition joins (c : Z) (k : cat) (g : fld) : bool :=
  f_redef g ||
  (ity_eqb (init_type false g) DEFAULT && opt_eqb (uniform_char g) (Some c) && cat_beq (f_cat g) k).
(** The offset at which the run ends, codegen.c 2034-2038. *)
Fixpoint run_end (c : Z) (k : cat) (fin : nat) (r : list fld) : nat :=
  match r with
  | [] => fin
  | g :: r => if joins c k g then run_end c k fin r else f_off g
  end.

Section Kids.
  Variable comp : fld -> nat -> list wr.
  Variable fin : nat.                        (* ff->offset + ff->size *)
  Variable d : nat.
  (** The loop of output_initialize_compound, codegen.c 2005-2079; [m]: the
      run whose items are being skipped. *)
  Fixpoint kids (m : option (Z * cat)) (cs : list fld) : list wr :=
    match cs with
    | [] => []
    | f :: r =>
      let here :=
        match init_type false f with
        | NONE => kids None r
        | DEFAULT =>
          match uniform_char f with
          | Some c => WFill (f_off f + d) (run_end c (f_cat f) fin r - f_off f) c :: kids (Some (c, f_cat f)) r
          | None => each (fun d => comp f d) f d ++ kids None r
          end
        | ONE => each (fun d => one f (f_off f + d)) f d ++ kids None r
        | COMPOUND => each (fun d => comp f d) f d ++ kids None r
        end in
      match m with
      | Some (c, k) => if joins c k f then kids m r else here
      | None => here
      end
    end.
End Kids.

(** output_initialize_compound on the children of an item; [d]: the
    displacement given by the subscripts. *)
Fixpoint compound (f : fld) (d : nat) {struct f} : list wr :=
  match f with Fld a o s ch => kids (fun g e => compound g e) (o + s) d None ch end.

(** output_initialize_compound called from output_initialize, codegen.c
    2001-2005: a level 01 table at program start is the item itself in a loop.
    (The DEFAULT case does not arise there: output_initialize fills.) *)
Definition compound_top (has_parent : bool) (f : fld) (d : nat) : list wr :=
  if negb (ph_stmt p) && negb has_parent && a_occurs (f_attr f) then
    match init_type false f with
    | NONE => []
    | ONE => each (fun d => one f (f_off f + d)) f d
    | DEFAULT | COMPOUND => each (fun d => compound f d) f d
    end
  else compound f d.

(** output_initialize, codegen.c 2081-2110. *)
Definition initialize (has_parent : bool) (f : fld) (d : nat) : list wr :=
  match init_type true f with
  | NONE => []
  | ONE => one f (f_off f + d)
  | DEFAULT => match uniform_char f with
               | Some c => [WFill (f_off f + d) (f_size f) c]
               | None => compound_top has_parent f d
               end
  | COMPOUND => compound_top has_parent f d
  end.
End Init.

(** The INITIALIZE statement as written: WITH FILLER; the VALUE phrase with
    ALL (None) or a category; REPLACING; DEFAULT (parser.y 5151-5200). *)
Record init_stmt := mkInit {
  i_filler : bool; i_value : option (option cat); i_rep : list (cat * src); i_def : bool }.
(** cb_emit_initialize, typeck.c 4185-4202. *)
Definition emit_initialize (s : init_stmt) : phrases :=
  let val := match i_value s with Some _ => true | None => false end in
  let def := if negb val && match i_rep s with [] => true | _ => false end then true else i_def s in
  mkPh val (i_rep s) def (negb (i_filler s)).
(** output_initial_values, codegen.c 4020-4035. *)
Definition initial_phrases (auto_init : bool) : phrases := mkPh true [] auto_init false.

(** ** Memory *)
Definition mem := nat -> Z.
Definition put (m : mem) (a : nat) (bs : list Z) : mem :=
  fun x => if (a <=? x) && (x <? a + length bs) then nth (x - a) bs 0%Z else m x.
(** [mv s f]: the bytes that MOVE s TO f leaves in f. *)
Definition run_wr (mv : src -> fld -> list Z) (m : mem) (w : wr) : mem :=
  match w with
  | WFill a n c => put m a (repeat c n)
  | WData a bs => put m a bs
  | WMove s f a => put m a (mv s f)
  end.
Definition run_all (mv : src -> fld -> list Z) (ws : list wr) (m : mem) : mem := fold_left (run_wr mv) ws m.
