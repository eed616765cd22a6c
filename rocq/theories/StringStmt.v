(** STRING and UNSTRING: libcob/strings.c 538-960 (non-national operands).
    Assumption: the operands of one statement do not overlap each other. *)
From Verif Require Import Base Field Numeric MoveAll DispInt Inspect.

(** ** STRING *)

(** The number of characters of the sender taken by cob_string_append,
    strings.c 603-613. *)
Definition string_part (dlm : option field) (src : list Z) : nat :=
  match dlm with
  | None => length src
  | Some d => match find_from (S (length src)) src (fd d) 0 (length src) with
              | Some i => i
              | None => length src
              end
  end.

(** string_dst, string_offset, cob_exception_code != 0. *)
Record strst := mkStr { ss_dst : list Z; ss_off : Z; ss_ovf : bool }.

(** cob_string_append, strings.c 592-626. *)
Definition string_append (st : strst) (dlm : option field) (src : list Z) : strst :=
  if ss_ovf st then st else
  let n := string_part dlm src in
  let off := Z.to_nat (ss_off st) in
  let room := (length (ss_dst st) - off)%nat in
  if (n <=? room)%nat then
    mkStr (write_at (ss_dst st) off (firstn n src)) (ss_off st + Z.of_nat n) false
  else
    mkStr (write_at (ss_dst st) off (firstn room src)) (ss_off st + Z.of_nat room) true.

(** The range test of cob_string_init, strings.c 555-559, and of
    cob_unstring_init, strings.c 679-683: cob_get_int (ptr) - 1 (undefined for
    INT_MIN), overflow unless it is a position of the item. *)
Definition ptr_offset (x : Z) (size : nat) : outcome (Z * bool) :=
  if x =? INT_MIN then UB
  else Ok (x - 1, (x - 1 <? 0) || (Z.of_nat size <=? x - 1)).

(** cob_string_init, strings.c 541-571. *)
Definition string_init (m : cfg) (dst : field) (ptr : option field) : outcome (strst * option field) :=
  match ptr with
  | None => Ok (mkStr (fd dst) 0 false, None)
  | Some p =>
    do r <- get_int m p;
    do o <- ptr_offset (fst r) (f_size dst);
    Ok (mkStr (fd dst) (fst o) (snd o), Some (snd r))
  end.

(** STRING parts INTO dst POINTER ptr: the calls generated by the compiler
    (cobc/typeck.c cb_emit_string): init, then for each sender the delimiter in
    force and append, then finish (strings.c 628-643).  Result: the receiver,
    the pointer item, and whether OVERFLOW was raised. *)
Definition string_stmt (m : cfg) (dst : field) (ptr : option field)
    (parts : list (option field * field)) : outcome (field * option field * bool) :=
  do r <- string_init m dst ptr;
  let st := fold_left (fun s (x : option field * field) => string_append s (fst x) (fd (snd x))) parts (fst r) in
  match snd r with
  | None => Ok (set_fd dst (ss_dst st), None, ss_ovf st)
  | Some p => do p' <- set_int m p (ss_off st + 1); Ok (set_fd dst (ss_dst st), Some p', ss_ovf st)
  end.

(** ** UNSTRING *)

(** strings.c 763-771: the first delimiter of the list standing at [p]. *)
Fixpoint dlm_at (src : list Z) (p : nat) (dlms : list (list Z * bool)) : option (list Z * bool) :=
  match dlms with
  | [] => None
  | (d, all) :: r =>
    if (p + length d <=? length src)%nat && match_at src p d then Some (d, all) else dlm_at src p r
  end.

(** The loop over p, strings.c 762-800. *)
Fixpoint find_dlm (fuel : nat) (src : list Z) (dlms : list (list Z * bool)) (p : nat) : option (nat * (list Z * bool)) :=
  match fuel with
  | O => None
  | S g => if (p <? length src)%nat then
             match dlm_at src p dlms with
             | Some x => Some (p, x)
             | None => find_dlm g src dlms (S p)
             end
           else None
  end.

(** The loop for DELIMITED BY ALL, strings.c 777-786: repetitions behind [p]. *)
Fixpoint skip_all (fuel : nat) (src d : list Z) (p : nat) : nat :=
  match fuel with
  | O => 0
  | S g => if (p + length d <=? length src)%nat && match_at src p d
           then S (skip_all g src d (p + length d)) else 0
  end.

(** cob_memcpy, common.c 862-873: MOVE of an alphanumeric value. *)
Definition move_text (m : cfg) (t : list Z) (dst : field) : outcome field :=
  do r <- cob_move m (mkField alnum_attr t) dst; Ok (snd r).

(** cob_zero, cob_space (common.c): ALL literals of one character. *)
Definition cob_zero : field := mkField space_attr [48].
Definition cob_space : field := mkField space_attr [32].

(** A receiver: INTO dst DELIMITER IN dlm COUNT IN cnt. *)
Record receiver := mkRecv { rc_dst : field; rc_dlm : option field; rc_cnt : option field }.

(** cob_unstring_into, strings.c 722-826, once the receiver is reached with
    characters left: (text moved, delimiter found, new offset).  An empty
    delimiter with ALL is an endless loop (UB). *)
Definition unstring_piece (src : list Z) (dlms : list (list Z * bool)) (dst_size : nat) (off : nat)
  : outcome (list Z * option (list Z) * nat) :=
  match dlms with
  | [] =>
    let n := Nat.min dst_size (length src - off) in
    Ok (firstn n (skipn off src), None, (off + n)%nat)
  | _ =>
    match find_dlm (S (length src)) src dlms off with
    | Some (p, (d, all)) =>
      let n := (p - off)%nat in
      if all && (length d =? 0)%nat then UB else
      let extra := if all then skip_all (S (length src)) src d (p + length d) else 0%nat in
      Ok (firstn n (skipn off src), Some d, (off + n + length d + extra * length d)%nat)
    | None =>
      let n := (length src - off)%nat in
      Ok (firstn n (skipn off src), None, length src)
    end
  end.

(** The stores into one receiver, strings.c 754-826. *)
Definition store_piece (m : cfg) (text : list Z) (found : option (list Z)) (r : receiver) : outcome receiver :=
  do dst' <- move_text m text (rc_dst r);
  do dlm' <- (match rc_dlm r with
              | None => Ok None
              | Some f =>
                match found with
                | Some d => do x <- move_text m d f; Ok (Some x)
                | None =>
                  do x <- cob_move m (if is_numeric_type (a_type (fa f)) then cob_zero else cob_space) f;
                  Ok (Some (snd x))
                end
              end);
  do cnt' <- (match rc_cnt r with
              | None => Ok None
              | Some f => do x <- set_int m f (Z.of_nat (length text)); Ok (Some x)
              end);
  Ok (mkRecv dst' dlm' cnt').

(** The sequence of cob_unstring_into calls: receivers afterwards, offset,
    unstring_count. *)
Fixpoint unstring_run (m : cfg) (src : list Z) (dlms : list (list Z * bool)) (rs : list receiver) (off : nat)
  : outcome (list receiver * nat * nat) :=
  match rs with
  | [] => Ok ([], off, 0%nat)
  | r :: rest =>
    if (length src <=? off)%nat then
      do x <- unstring_run m src dlms rest off;
      Ok (r :: fst (fst x), snd (fst x), snd x)
    else
      do pc <- unstring_piece src dlms (data_size (rc_dst r)) off;
      do r' <- store_piece m (fst (fst pc)) (snd (fst pc)) r;
      do x <- unstring_run m src dlms rest (snd pc);
      Ok (r' :: fst (fst x), snd (fst x), S (snd x))
  end.

(** UNSTRING src DELIMITED BY dlms INTO rs POINTER ptr TALLYING tally: init
    (strings.c 650-693), the receivers, cob_unstring_tallying (828-832),
    finish (834-852).  Result: receivers, pointer, tally, OVERFLOW. *)
Definition unstring_stmt (m : cfg) (src : field) (dlms : list (field * bool)) (rs : list receiver)
    (ptr tally : option field) : outcome (list receiver * option field * option field * bool) :=
  do o <- (match ptr with
           | None => Ok (0, false, None)
           | Some p => do r <- get_int m p; do o <- ptr_offset (fst r) (f_size src); Ok (fst o, snd o, Some (snd r))
           end);
  let '(off, ovf, ptr1) := o in
  do x <- (if ovf then Ok (rs, off, 0%nat)
           else do y <- unstring_run m (fd src) (map (fun d => (fd (fst d), snd d)) dlms) rs (Z.to_nat off);
                Ok (fst (fst y), Z.of_nat (snd (fst y)), snd y));
  let '(rs', off', n) := x in
  do tally' <- (match tally with
                | None => Ok None
                | Some t => do c <- add_int m t (Z.of_nat n); Ok (Some (snd c))
                end);
  do ptr' <- (match ptr1 with
              | None => Ok None
              | Some p => do p' <- set_int m p (off' + 1); Ok (Some p')
              end);
  Ok (rs', ptr', tally', ovf || (off' <? Z.of_nat (f_size src))).
