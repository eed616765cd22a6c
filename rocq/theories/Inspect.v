(** INSPECT: libcob/strings.c 90-540 (Shift-JIS build, non-national subjects).
    The static variables of strings.c form the record [insp].  Positions are
    offsets from inspect_data.  Not modelled: NULL operands (never generated),
    the substitution of national figurative constants. *)
From Verif Require Import Base Field Sign Numeric MoveAll DispInt.

(** strings.c 47-57: subject with its sign taken off, sign, inspect_mark,
    inspect_start, inspect_end. *)
Record insp := mkInsp {
  i_f : field; i_sign : Z; i_marks : list Z; i_s : nat; i_e : nat }.
Definition i_data (st : insp) : list Z := data_digits (i_f st).
Definition set_region (st : insp) (s e : nat) : insp :=
  mkInsp (i_f st) (i_sign st) (i_marks st) s e.
Definition set_imarks (st : insp) (mk : list Z) : insp :=
  mkInsp (i_f st) (i_sign st) mk (i_s st) (i_e st).

(** cob_inspect_init, strings.c 217-241. *)
Definition inspect_init (m : cfg) (var : field) : insp :=
  let '(sign, g) := get_sign m var in
  mkInsp g sign (repeat (-1) (data_size g)) 0 0.

(** cob_inspect_start, strings.c 243-248. *)
Definition inspect_start (st : insp) : insp := set_region st 0 (length (i_data st)).

(** memcmp (data + p, pat, |pat|) == 0, the bytes being inside the item. *)
Fixpoint list_eqb (a b : list Z) : bool :=
  match a, b with
  | [], [] => true
  | x :: r, y :: s => (x =? y) && list_eqb r s
  | _, _ => false
  end.
Definition match_at (data : list Z) (p : nat) (pat : list Z) : bool :=
  list_eqb (firstn (length pat) (skipn p data)) pat.

(** The search loops of strings.c 284-290 and 303-309: the first position p in
    [p, e - |pat|] where the pattern occurs.  [fuel] bounds the positions. *)
Fixpoint find_from (fuel : nat) (data pat : list Z) (p e : nat) : option nat :=
  match fuel with
  | O => None
  | S g => if (p + length pat <=? e)%nat then
             if match_at data p pat then Some p else find_from g data pat (S p) e
           else None
  end.

(** cob_inspect_before, strings.c 250-296.  For a numeric DISPLAY operand the
    digits are formatted with sprintf into a buffer that has no room for the
    terminating NUL: UB. *)
Definition inspect_before (st : insp) (str : field) : outcome insp :=
  match a_type (fa str) with
  | TDisplay => UB
  | _ => Ok (match find_from (S (i_e st)) (i_data st) (fd str) (i_s st) (i_e st) with
             | Some p => set_region st (i_s st) p
             | None => st
             end)
  end.

(** cob_inspect_after, strings.c 298-310. *)
Definition inspect_after (st : insp) (str : field) : insp :=
  match find_from (S (i_e st)) (i_data st) (fd str) (i_s st) (i_e st) with
  | Some p => set_region st (p + length (fd str)) (i_e st)
  | None => set_region st (i_e st) (i_e st)
  end.

(** strings.c 36-39. *)
Inductive insp_type := IAll | ILeading | IFirst | ITrailing.

(** "check if it is already marked", strings.c 164-168. *)
Definition free_at (marks : list Z) (p n : nat) : bool :=
  forallb (fun x => x =? -1) (firstn n (skipn p marks)).
(** "if not, mark ... it", strings.c 171-173. *)
Definition write_at (marks : list Z) (p : nat) (vals : list Z) : list Z :=
  firstn p marks ++ vals ++ skipn (p + length vals) marks.

(** The forward loop, strings.c 178-203.  [i] is the position, [vals] the marks
    to set (the replacing characters, or 1s when tallying). *)
Fixpoint scan_fwd (fuel : nat) (ty : insp_type) (data pat vals : list Z) (e i : nat)
    (marks : list Z) (n : nat) : nat * list Z :=
  match fuel with
  | O => (n, marks)
  | S g =>
    if (i + length pat <=? e)%nat then
      if match_at data i pat then
        if free_at marks i (length pat) then
          let marks' := write_at marks i vals in
          match ty with
          | IFirst => (S n, marks')
          | _ => scan_fwd g ty data pat vals e (i + length pat) marks' (S n)
          end
        else scan_fwd g ty data pat vals e (S i) marks n
      else match ty with
           | ILeading => (n, marks)
           | _ => scan_fwd g ty data pat vals e (S i) marks n
           end
    else (n, marks)
  end.

(** The backward loop for TRAILING, strings.c 157-177; [i1] is i + 1. *)
Fixpoint scan_bwd (fuel : nat) (data pat vals : list Z) (s i1 : nat)
    (marks : list Z) (n : nat) : nat * list Z :=
  match fuel with
  | O => (n, marks)
  | S g =>
    if (s <? i1)%nat then
      let i := pred i1 in
      if match_at data i pat then
        if free_at marks i (length pat) then
          scan_bwd g data pat vals s (i1 - length pat) (write_at marks i vals) (S n)
        else scan_bwd g data pat vals s i marks n
      else (n, marks)
    else (n, marks)
  end.

(** inspect_common, strings.c 117-209, the loops.  An empty pattern makes the
    forward loop endless (UB). *)
Definition scan (ty : insp_type) (st : insp) (pat vals : list Z) : outcome (nat * list Z) :=
  let data := i_data st in
  let len := (i_e st - i_s st)%nat in
  if (length pat =? 0)%nat then UB else
  Ok (match ty with
      | ITrailing =>
          if (length pat <=? len)%nat
          then scan_bwd (S len) data pat vals (i_s st) (S (i_e st - length pat)) (i_marks st) 0
          else (0%nat, i_marks st)
      | _ => scan_fwd (S len) ty data pat vals (i_e st) (i_s st) (i_marks st) 0
      end).

(** inspect_common when tallying: the counter afterwards. *)
Definition inspect_tally (m : cfg) (ty : insp_type) (st : insp) (counter pat : field)
  : outcome (insp * field) :=
  do r <- scan ty st (fd pat) (repeat 1 (f_size pat));
  let '(n, marks) := r in
  if (0 <? n)%nat then
    do c <- add_int m counter (Z.of_nat n); Ok (set_imarks st marks, snd c)
  else Ok (set_imarks st marks, counter).

(** inspect_common when replacing: the second component tells whether
    COB_EC_RANGE_INSPECT_SIZE was raised.  alloc_figurative, strings.c 88-115. *)
Definition inspect_replace (ty : insp_type) (st : insp) (by_ pat : field) : outcome (insp * bool) :=
  let go vals := do r <- scan ty st (fd pat) vals; Ok (set_imarks st (snd r), false) in
  if (f_size by_ =? f_size pat)%nat then go (fd by_)
  else match a_type (fa by_) with
       | TAlnumAll => if (f_size by_ =? 0)%nat then UB else go (fill_all (fd by_) (f_size pat))
       | _ => Ok (st, true)
       end.

(** cob_inspect_characters when tallying, strings.c 334-353. *)
Fixpoint mark_chars (l : list Z) : nat * list Z :=
  match l with
  | [] => (0%nat, [])
  | x :: r => let '(n, r') := mark_chars r in if x =? -1 then (S n, 1 :: r') else (n, x :: r')
  end.
Definition tally_characters (m : cfg) (st : insp) (counter : field) : outcome (insp * field) :=
  let region := firstn (i_e st - i_s st) (skipn (i_s st) (i_marks st)) in
  let '(n, region') := mark_chars region in
  let st' := set_imarks st (write_at (i_marks st) (i_s st) region') in
  if (0 <? n)%nat then do c <- add_int m counter (Z.of_nat n); Ok (st', snd c)
  else Ok (st', counter).

(** cob_inspect_characters when replacing, strings.c 324-333, for a replacing
    value of one character (the only size the compiler accepts). *)
Definition replace_characters (st : insp) (by_ : field) : outcome insp :=
  match fd by_ with
  | [c] =>
    let region := firstn (i_e st - i_s st) (skipn (i_s st) (i_marks st)) in
    Ok (set_imarks st (write_at (i_marks st) (i_s st)
                         (map (fun x => if x =? -1 then c else x) region)))
  | _ => NotModelled
  end.

(** One entry [j] of the conversion, strings.c 506-517: [cell] is a byte of the
    region with its mark; [to_] the replacing character. *)
Definition conv_cell (from to_ : Z) (cell : Z * Z) : Z * Z :=
  if (snd cell =? -1) && (fst cell =? from) then (to_, 1) else cell.
Fixpoint conv_loop (tbl : list (Z * Z)) (cells : list (Z * Z)) : list (Z * Z) :=
  match tbl with
  | [] => cells
  | (a, b) :: r => conv_loop r (map (conv_cell a b) cells)
  end.

(** cob_inspect_converting, strings.c 479-518 (single byte).  [fig]: f2 is the
    figurative constant QUOTE, SPACE or ZERO.  The marks are those from the
    start of inspect_mark, whatever the region.  UB: the TO operand is shorter
    than the FROM operand. *)
Definition inspect_converting (st : insp) (f1 f2 : field) (fig : bool) : outcome insp :=
  let len := (i_e st - i_s st)%nat in
  if (if fig then f_size f2 =? 0 else f_size f2 <? f_size f1)%nat && (0 <? f_size f1)%nat then UB
  else
    let tos := if fig then repeat (nth 0 (fd f2) 0) (f_size f1) else fd f2 in
    let region := firstn len (skipn (i_s st) (i_data st)) in
    let cells := conv_loop (combine (fd f1) tos) (combine region (firstn len (i_marks st))) in
    Ok (mkInsp (put_digits (i_f st) (write_at (i_data st) (i_s st) (map fst cells)))
               (i_sign st) (write_at (i_marks st) 0 (map snd cells)) (i_s st) (i_e st)).

(** cob_inspect_finish, strings.c 521-534. *)
Definition inspect_finish (m : cfg) (replacing : bool) (st : insp) : field :=
  let d := if replacing
           then map (fun xc => if snd xc =? -1 then fst xc else u8 (snd xc))
                    (combine (i_data st) (i_marks st))
           else i_data st in
  put_sign m (put_digits (i_f st) d) (i_sign st).

(** ** Whole statements: the sequence of calls the compiler generates
    (cobc/typeck.c 4209-4240, 4256-4300, 4560-4632; parser.y 5255-5337). *)
Inductive region := RBefore (x : field) | RAfter (x : field).
Fixpoint regions (rs : list region) (st : insp) : outcome insp :=
  match rs with
  | [] => Ok st
  | RBefore x :: r => do st' <- inspect_before st x; regions r st'
  | RAfter x :: r => regions r (inspect_after st x)
  end.

(** A tallying phrase: counter number (index into the list of counters), what
    to count, region. *)
Inductive tally_kind := KChars | KPat (ty : insp_type) (pat : field).
Record tphrase := mkTp { tp_counter : nat; tp_kind : tally_kind; tp_reg : list region }.
Fixpoint upd_f (i : nat) (v : field) (l : list field) : list field :=
  match l with
  | [] => []
  | x :: r => match i with O => v :: r | S j => x :: upd_f j v r end
  end.
Fixpoint tally_run (m : cfg) (ps : list tphrase) (st : insp) (cs : list field)
  : outcome (insp * list field) :=
  match ps with
  | [] => Ok (st, cs)
  | p :: r =>
    do st1 <- regions (tp_reg p) (inspect_start st);
    match nth_error cs (tp_counter p) with
    | None => NotModelled
    | Some c =>
      do x <- (match tp_kind p with
               | KChars => tally_characters m st1 c
               | KPat ty pat => inspect_tally m ty st1 c pat
               end);
      tally_run m r (fst x) (upd_f (tp_counter p) (snd x) cs)
    end
  end.
(** INSPECT var TALLYING phrases: the subject and the counters afterwards. *)
Definition inspect_tallying (m : cfg) (var : field) (ps : list tphrase) (cs : list field)
  : outcome (field * list field) :=
  do r <- tally_run m ps (inspect_init m var) cs;
  Ok (inspect_finish m false (fst r), snd r).

(** A replacing phrase. *)
Inductive rep_kind := RChars (by_ : field) | RPat (ty : insp_type) (pat by_ : field).
Record rphrase := mkRp { rp_kind : rep_kind; rp_reg : list region }.
Fixpoint replace_run (ps : list rphrase) (st : insp) : outcome insp :=
  match ps with
  | [] => Ok st
  | p :: r =>
    do st1 <- regions (rp_reg p) (inspect_start st);
    do st2 <- (match rp_kind p with
               | RChars by_ => replace_characters st1 by_
               | RPat ty pat by_ => do x <- inspect_replace ty st1 by_ pat; Ok (fst x)
               end);
    replace_run r st2
  end.
(** INSPECT var REPLACING phrases. *)
Definition inspect_replacing (m : cfg) (var : field) (ps : list rphrase) : outcome field :=
  do st <- replace_run ps (inspect_init m var); Ok (inspect_finish m true st).

(** INSPECT var CONVERTING f1 TO f2 region. *)
Definition inspect_convert (m : cfg) (var f1 f2 : field) (fig : bool) (rs : list region) : outcome field :=
  do st <- regions rs (inspect_start (inspect_init m var));
  do st' <- inspect_converting st f1 f2 fig;
  Ok (inspect_finish m false st').
