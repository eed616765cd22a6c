(** A report on pages, as the COBOL programmer sees a LINAGE file.  Rows are
    numbered from 0 over the whole output; a page has p_top rows of top margin,
    p_lines rows of body and p_bot rows of bottom margin. *)
From Verif Require Import Base Field SpecNum FileIO Linage.

Record page := mkPage { p_lines : Z; p_foot : option Z (* FOOTING *); p_top : Z; p_bot : Z }.
(** What the LINAGE items must hold when a page begins. *)
Definition page_ok (p : page) : Prop :=
  1 <= p_lines p /\ (forall x, p_foot p = Some x -> 1 <= x <= p_lines p) /\ 0 <= p_top p /\ 0 <= p_bot p.
Definition page_okb (p : page) : bool :=
  (1 <=? p_lines p) && match p_foot p with Some x => (1 <=? x) && (x <=? p_lines p) | None => true end && (0 <=? p_top p) && (0 <=? p_bot p).

Record report := mkRep {
  r_page : page;                        (* the current page *)
  r_ctr : Z;                            (* LINAGE-COUNTER; 0: the clause is in error *)
  r_start : Z;                          (* first row of the current page *)
  r_printed : list (Z * list Z) }.      (* rows printed and their texts *)
(** The row of body line [c] of the page. *)
Definition row_of (start : Z) (p : page) (c : Z) : Z := start + p_top p + (c - 1).

(** WRITE of a line [t]; [next] is what the LINAGE items hold at that moment.
    Returns the file status and the report.
    Deviation from the standard: AFTER ADVANCING prints the line one row above
    the one LINAGE-COUNTER then designates. *)
Definition rep_write (r : report) (t : list Z) (pos : position) (a : advance) (eop : bool) (next : page) : Z * report :=
  let p := r_page r in
  if r_ctr r =? 0 then (57, r) else
  let turn := match a with Lines n => p_lines p <? r_ctr r + n | Page => true end in
  if turn && negb (page_okb next) then (57, mkRep p 0 (r_start r) (r_printed r)) else
  let ctr' := match a with Lines n => if turn then 1 else r_ctr r + n | Page => 1 end in
  let page' := if turn then next else p in
  let start' := if turn then r_start r + p_top p + p_lines p + p_bot p else r_start r in
  let row := match pos with Before => row_of (r_start r) p (r_ctr r) | After => row_of start' page' ctr' - 1 end in
  let end_of_page := match a with
                     | Lines n => eop && (match p_foot p with Some x => x <=? r_ctr r + n | None => false end || turn)
                     | Page => false
                     end in
  (if end_of_page then 52 else 0, mkRep page' ctr' start' (r_printed r ++ [(row, t)])).

(** A whole session; the second component is what the items hold. *)
Inductive rop := RWrite (t : list Z) (pos : position) (a : advance) (eop : bool) | RSet (p : page).
Fixpoint rep_run (r : report) (now : page) (os : list rop) : list Z * report :=
  match os with
  | [] => ([], r)
  | RSet p :: rest => rep_run r p rest
  | RWrite t pos a eop :: rest =>
    let x := rep_write r t pos a eop now in
    let y := rep_run (snd x) now rest in (fst x :: fst y, snd y)
  end.
Definition rep_open (p : page) : report := mkRep p 1 0 [].

(** A line as it is printed: without trailing spaces. *)
Definition plain_io : iocfg := mkIO 0 false false false false.

(** The LINAGE items hold these numbers (integer items of any usage). *)
Definition holds (m : cfg) (f : field) (v : Z) : Prop :=
  denotes (c_ebcdic m) f v /\ a_scale (fa f) = 0 /\ Z.abs v <= INT_MAX.
Definition holds_opt (m : cfg) (f : option field) (v : Z) : Prop :=
  match f with Some f => holds m f v | None => v = 0 end.
Definition items_hold (m : cfg) (i : lin_items) (p : page) : Prop :=
  holds m (li_lines i) (p_lines p) /\ match li_foot i, p_foot p with Some f, Some v => holds m f v | None, None => True | _, _ => False end /\
  holds_opt m (li_top i) (p_top p) /\ holds_opt m (li_bot i) (p_bot p) /\
  p_lines p <= INT_MAX - 65535.

(** The statement of the program and its meaning. *)
Inductive means (m : cfg) (c : iocfg) : lop -> rop -> Prop :=
| me_write : forall rec pos a eop, (forall n, a = Lines n -> 1 <= n <= 65535) ->
    means m c (LWrite rec pos a eop) (RWrite (line_bytes c rec) pos a eop)
| me_set : forall i p, items_hold m i p -> means m c (LSet i) (RSet p).

(** The output as rows: each ended by a line feed; the rows printed carry their
    texts, all others are empty. *)
Definition rows_bytes (rows : list (list Z)) : list Z := concat (map (fun r => r ++ [10]) rows).
Definition laid_out (out : list Z) (total : Z) (printed : list (Z * list Z)) : Prop :=
  exists rows, out = rows_bytes rows /\ Z.of_nat (length rows) = total /\
    (forall k t, In (k, t) printed -> 0 <= k < total /\ nth (Z.to_nat k) rows [] = t) /\
    (forall k, 0 <= k < total -> ~ In k (map fst printed) -> nth (Z.to_nat k) rows [] = []) /\
    NoDup (map fst printed).

(** The LINAGE-COUNTER item, PIC 9(9) COMP-5 (tree.c 1977-1988). *)
Definition counter_item (f : field) : Prop :=
  a_type (fa f) = TBinary /\ a_digits (fa f) = 9 /\ a_scale (fa f) = 0 /\ a_sign (fa f) = false /\
  a_realbin (fa f) = true /\ a_swap (fa f) = false /\ length (fd f) = 4%nat /\ bytes_ok (fd f).
