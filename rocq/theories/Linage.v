(** Files with a LINAGE clause: libcob/fileio.c 757-796 (file_linage_check),
    902-911 (OPEN), 953-1015 (cob_linage_write_opt), 1259-1355 (lineseq_write),
    cobc/typeck.c 7711-7745 (the option word of a WRITE).  cobc makes every
    LINAGE file LINE SEQUENTIAL (parser.y 2476).  One OPEN OUTPUT session: the
    bytes written since OPEN.  cob_get_int puts back what it changes in an item
    (C19), so the items are not part of its result here. *)
From Verif Require Import Base Field Numeric Move MoveAll DispInt FileIO.

(** Bits of the option word, fileio.h 105-113. *)
Definition W_MASK : Z := 65535.
Definition W_LINES : Z := 65536.
Definition W_PAGE : Z := 131072.
Definition W_AFTER : Z := 1048576.
Definition W_BEFORE : Z := 2097152.
Definition W_EOP : Z := 4194304.
Definition has (opt bit : Z) : bool := negb (Z.land opt bit =? 0).

(** The data items (or literals) of the LINAGE clause. *)
Record lin_items := mkItems { li_lines : field; li_foot : option field; li_top : option field; li_bot : option field }.
(** struct linage_struct, fileio.h 180-191, the output, flag_needs_top,
    flag_needs_nl and the global eop_status. *)
Record lfile := mkL {
  l_items : lin_items; l_ctr : field;
  l_lines : Z; l_foot : Z; l_top : Z; l_bot : Z;
  l_out : list Z; l_needs_top : bool; l_needs_nl : bool; l_eop : bool }.

Definition set_ctr (c : field) (f : lfile) := mkL (l_items f) c (l_lines f) (l_foot f) (l_top f) (l_bot f) (l_out f) (l_needs_top f) (l_needs_nl f) (l_eop f).
Definition set_lpage (a b c d : Z) (f : lfile) := mkL (l_items f) (l_ctr f) a b c d (l_out f) (l_needs_top f) (l_needs_nl f) (l_eop f).
Definition put (bs : list Z) (f : lfile) := mkL (l_items f) (l_ctr f) (l_lines f) (l_foot f) (l_top f) (l_bot f) (l_out f ++ bs) (l_needs_top f) (l_needs_nl f) (l_eop f).
Definition set_needs_top (b : bool) (f : lfile) := mkL (l_items f) (l_ctr f) (l_lines f) (l_foot f) (l_top f) (l_bot f) (l_out f) b (l_needs_nl f) (l_eop f).
Definition set_needs_nl (b : bool) (f : lfile) := mkL (l_items f) (l_ctr f) (l_lines f) (l_foot f) (l_top f) (l_bot f) (l_out f) (l_needs_top f) b (l_eop f).
Definition set_eop (b : bool) (f : lfile) := mkL (l_items f) (l_ctr f) (l_lines f) (l_foot f) (l_top f) (l_bot f) (l_out f) (l_needs_top f) (l_needs_nl f) b.
Definition set_items (i : lin_items) (f : lfile) := mkL i (l_ctr f) (l_lines f) (l_foot f) (l_top f) (l_bot f) (l_out f) (l_needs_top f) (l_needs_nl f) (l_eop f).

Definition value (m : cfg) (f : field) : outcome Z := do r <- get_int m f; Ok (fst r).
(** for (; i < n; i++) putc ('\n') *)
Definition newlines (i n : Z) : list Z := repeat 10 (Z.to_nat (n - i)).

(** file_linage_check, fileio.c 758-796: true = error. *)
Definition lin_error (m : cfg) (f : lfile) : outcome (bool * lfile) :=
  do c <- set_int m (l_ctr f) 0; Ok (true, set_ctr c f).
Definition linage_check (m : cfg) (f : lfile) : outcome (bool * lfile) :=
  do n <- value m (li_lines (l_items f));
  let f := set_lpage n (l_foot f) (l_top f) (l_bot f) f in
  if n <? 1 then lin_error m f else
  do ft <- (match li_foot (l_items f) with Some x => value m x | None => Ok 0 end);
  let f := set_lpage n ft (l_top f) (l_bot f) f in
  if (match li_foot (l_items f) with Some _ => (ft <? 1) || (n <? ft) | None => false end) then lin_error m f else
  do tp <- (match li_top (l_items f) with Some x => value m x | None => Ok 0 end);
  let f := set_lpage n ft tp (l_bot f) f in
  if tp <? 0 then lin_error m f else
  do bt <- (match li_bot (l_items f) with Some x => value m x | None => Ok 0 end);
  let f := set_lpage n ft tp bt f in
  if bt <? 0 then lin_error m f else Ok (false, f).

(** The LINAGE part of cob_file_open, fileio.c 903-910: status 0 or 57. *)
Definition linage_open (m : cfg) (f : lfile) : outcome (Z * lfile) :=
  do r <- linage_check m f;
  let '(bad, f) := r in
  if bad then Ok (57, f)
  else do c <- set_int m (l_ctr f) 1; Ok (0, set_ctr c (set_needs_top true f)).

(** cob_linage_write_opt, fileio.c 953-1015. *)
Definition linage_write_opt (m : cfg) (f : lfile) (opt : Z) : outcome (Z * lfile) :=
  if has opt W_PAGE then
    do i <- value m (l_ctr f);
    if i =? 0 then Ok (57, f) else
    let f := put (newlines i (l_lines f)) f in
    let f := put (newlines 0 (l_bot f)) f in
    do r <- linage_check m f;
    let '(bad, f) := r in
    if bad then Ok (57, f) else
    let f := put (newlines 0 (l_top f)) f in
    do c <- set_int m (l_ctr f) 1; Ok (0, set_ctr c f)
  else if has opt W_LINES then
    do n <- value m (l_ctr f);
    if n =? 0 then Ok (57, f) else
    do a <- add_int m (l_ctr f) (Z.land opt W_MASK);
    let f := set_ctr (snd a) f in
    do i <- value m (l_ctr f);
    let f := if has opt W_EOP && negb (l_foot f =? 0) && (l_foot f <=? i) then set_eop true f else f in
    if l_lines f <? i then
      let f := if has opt W_EOP then set_eop true f else f in
      let f := put (newlines n (l_lines f)) f in
      let f := put (newlines 0 (l_bot f)) f in
      do r <- linage_check m f;
      let '(bad, f) := r in
      if bad then Ok (57, f) else
      do c <- set_int m (l_ctr f) 1;
      Ok (0, put (newlines 0 (l_top f)) (set_ctr c f))
    else Ok (0, put (newlines 0 (Z.land opt W_MASK - 1)) f)
  else Ok (0, f).

(** lineseq_write, fileio.c 1259-1355, for a file with LINAGE; [rec] is the
    record. *)
Definition line_bytes (c : iocfg) (rec : list Z) : list Z :=
  let out := if io_fixed c then rec else trimmed rec in
  if io_nulls c then escape out else out.
Definition linage_write (m : cfg) (c : iocfg) (f : lfile) (rec : list Z) (opt : Z) : outcome (Z * lfile) :=
  let f := if l_needs_top f then put (newlines 0 (l_top f)) (set_needs_top false f) else f in
  do r <- (if has opt W_AFTER then
             do x <- linage_write_opt m f opt;
             let '(st, f) := x in
             Ok (st, if st =? 0 then set_needs_nl true f else f)
           else Ok (0, f));
  let '(st, f) := r in
  if negb (st =? 0) then Ok (st, f) else
  let f := put (line_bytes c rec) f in
  let f := put [10] f in
  do r <- (if has opt W_BEFORE then
             do x <- linage_write_opt m f opt;
             let '(st, f) := x in
             Ok (st, if st =? 0 then set_needs_nl false f else f)
           else Ok (0, f));
  let '(st, f) := r in
  if negb (st =? 0) then Ok (st, f) else
  if l_eop f then Ok (52, set_eop false f) else Ok (0, f).

(** The option word the compiler builds, typeck.c 7711-7745: for ADVANCING
    lines an addition, so that the number is not masked; a plain WRITE is
    BEFORE ADVANCING 1 LINE. *)
Inductive position := Before | After.
Inductive advance := Lines (n : Z) | Page.
Definition write_option (p : position) (a : advance) (eop : bool) : Z :=
  Z.lor (match p with Before => W_BEFORE | After => W_AFTER end)
        (Z.lor (if eop then W_EOP else 0) (match a with Lines _ => W_LINES | Page => W_PAGE end))
  + match a with Lines n => n | Page => 0 end.

(** Statements of a session. *)
Inductive lop :=
| LWrite (rec : list Z) (p : position) (a : advance) (eop : bool)
| LSet (i : lin_items).          (* the program changes the LINAGE items *)
Definition run_lop (m : cfg) (c : iocfg) (f : lfile) (o : lop) : outcome (option Z * lfile) :=
  match o with
  | LWrite rec p a eop => do r <- linage_write m c f rec (write_option p a eop); Ok (Some (fst r), snd r)
  | LSet i => Ok (None, set_items i f)
  end.
Fixpoint run_lops (m : cfg) (c : iocfg) (f : lfile) (os : list lop) : outcome (list Z * lfile) :=
  match os with
  | [] => Ok ([], f)
  | o :: r =>
    do x <- run_lop m c f o;
    do y <- run_lops m c (snd x) r;
    Ok (match fst x with Some st => st :: fst y | None => fst y end, snd y)
  end.
