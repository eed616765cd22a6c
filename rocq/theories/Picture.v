(** PICTURE strings: cobc/tree.c 32-51, 180-195, 1182-1630 (guess_pic_category,
    cb_build_picture).
    A string is a list of character codes: 'A' 65, 'B' 66, 'C' 67, 'D' 68, 'N' 78,
    'P' 80, 'R' 82, 'S' 83, 'V' 86, 'X' 88, 'Z' 90, '9' 57, '0' 48, '/' 47, '*' 42,
    '+' 43, '-' 45, ',' 44, '.' 46, '(' 40, ')' 41. *)
From Verif Require Import Base Field.

(** The category bits, tree.c 32-40. *)
Definition PA : Z := 1.     (* PIC_ALPHABETIC *)
Definition PN : Z := 2.     (* PIC_NUMERIC *)
Definition PNAT : Z := 4.   (* PIC_NATIONAL *)
Definition PE : Z := 8.     (* PIC_EDITED *)

(** Result of the classification, CB_CATEGORY_* as used by tree.c 1569-1618. *)
Inductive category := CAlphabetic | CNumeric | CAlnum | CNational | CNumEdited | CAlnumEdited | CNatEdited.

(** guess_pic_category, tree.c 1182-1248. *)
Definition guess_char (m : cfg) (c : Z) (r : list Z) : Z :=
  if c =? 65 then PA
  else if c =? 88 then Z.lor PA PN
  else if c =? 57 then PN
  else if c =? 78 then PNAT
  else if (c =? 83) || (c =? 86) || (c =? 80) then PN
  else if (c =? 48) || (c =? 66) || (c =? 47) then PE
  else if (c =? 44) || (c =? 46) || (c =? 42) || (c =? 90) || (c =? 43) || (c =? 45) then Z.lor PN PE
  else if c =? 67 then match r with [82] => Z.lor PN PE | _ => 0 end
  else if c =? 68 then match r with [66] => Z.lor PN PE | _ => 0 end
  else if c =? c_currency m then Z.lor PN PE else 0.
Fixpoint guess (m : cfg) (l : list Z) (skip : Z) : Z :=
  match l with
  | [] => 0
  | c :: r =>
    let skip := if c =? 40 then skip + 1 else if c =? 41 then skip - 1 else skip in
    Z.lor (if skip =? 0 then guess_char m c r else 0) (guess m r skip)
  end.

(** Local variables of cb_build_picture, tree.c 1253-1277.  [q_runs] is the
    buffer: (character, count) pairs. *)
Record pst := mkPst {
  q_pseen : bool; q_sseen : bool; q_curseen : bool;
  q_cat : Z; q_size : Z; q_digits : Z; q_scale : Z;
  q_scount : Z; q_vcount : Z; q_clen : Z;
  q_runs : list (Z * Z); q_national : bool }.

(** increase_character_length, tree.c 180-195; -1 is CHARACTER_LENGTH_OVERFLOW.
    (The comparison is unsigned: a negative increase counts as overflow.) *)
Definition incr (clen n : Z) : Z :=
  if clen =? -1 then -1
  else if n =? -1 then -1
  else if (n <? 0) || (INT_MAX - clen <? n) then -1 else clen + n.

(** A compiler outcome: None is "Invalid picture string". *)
Definition presult := outcome (option pst).
Definition bad : presult := Ok None.

(** The size, tree.c 1525-1541 (Shift-JIS build), and the buffer, 1543-1549. *)
Definition store_run (st : pst) (c n : Z) : presult :=
  let s1 := if negb ((c =? 86) || (c =? 80)) then q_size st + n else q_size st in
  let s2 := if (c =? 67) || (c =? 68) then s1 + n
            else if (c =? 78) || ((q_cat st =? 12) && ((c =? 48) || (c =? 66) || (c =? 47))) then s1 + n
            else s1 in
  if is_intb s1 && is_intb s2 && is_intb (q_digits st) && is_intb (q_scale st) then
    Ok (Some (mkPst (q_pseen st) (q_sseen st) (q_curseen st) (q_cat st) s2 (q_digits st) (q_scale st)
                    (q_scount st) (q_vcount st) (q_clen st) (q_runs st ++ [(c, n)]) (q_national st)))
  else UB.

(** A run of [n] characters [c] followed by [rest]: the switch, tree.c 1342-1523.
    (int overflow of digits, scale and size is undefined; it is checked in
    [store_run].) *)
Definition add_run (m : cfg) (st : pst) (c n : Z) (rest : list Z) : presult :=
  let sp := q_sseen st || q_pseen st in
  let alpha := Z.odd (q_cat st) in               (* category & PIC_ALPHABETIC *)
  let with_len st k := mkPst (q_pseen st) (q_sseen st) (q_curseen st) (q_cat st) (q_size st) (q_digits st)
        (q_scale st) (q_scount st) (q_vcount st) (incr (q_clen st) k) (q_runs st) (q_national st) in
  let with_digits st k := mkPst (q_pseen st) (q_sseen st) (q_curseen st) (q_cat st) (q_size st) (q_digits st + k)
        (q_scale st) (q_scount st) (q_vcount st) (q_clen st) (q_runs st) (q_national st) in
  let with_scale st k := mkPst (q_pseen st) (q_sseen st) (q_curseen st) (q_cat st) (q_size st) (q_digits st)
        (q_scale st + k) (q_scount st) (q_vcount st) (q_clen st) (q_runs st) (q_national st) in
  let with_scount st k := mkPst (q_pseen st) (q_sseen st) (q_curseen st) (q_cat st) (q_size st) (q_digits st)
        (q_scale st) (q_scount st + k) (q_vcount st) (q_clen st) (q_runs st) (q_national st) in
  let with_vcount st k := mkPst (q_pseen st) (q_sseen st) (q_curseen st) (q_cat st) (q_size st) (q_digits st)
        (q_scale st) (q_scount st) (q_vcount st + k) (q_clen st) (q_runs st) (q_national st) in
  if (c =? 65) || (c =? 88) then
    if sp then bad else store_run (with_len st n) c n
  else if c =? 57 then
    store_run (if q_vcount st =? 0 then with_len (with_digits st n) n
               else with_scale (with_len (with_digits st n) n) n) c n
  else if c =? 78 then
    if sp then bad
    else let st := with_len st n in
         store_run (mkPst (q_pseen st) (q_sseen st) (q_curseen st) (q_cat st) (q_size st) (q_digits st)
                      (q_scale st) (q_scount st) (q_vcount st) (q_clen st) (q_runs st) true) c n
  else if c =? 83 then
    if alpha then bad
    else let st := with_scount st n in
         if (1 <? q_scount st) || negb (length (q_runs st) =? 0)%nat then bad
         else (* continue: not stored *)
           Ok (Some (mkPst (q_pseen st) true (q_curseen st) (q_cat st) (q_size st) (q_digits st)
                      (q_scale st) (q_scount st) (q_vcount st) (q_clen st) (q_runs st) (q_national st)))
  else if (c =? 44) || (c =? 46) || (c =? 86) then
    if negb (c =? 86) && sp then bad
    else if negb (c =? 86) && negb (c =? c_decpoint m) then store_run st c n
    else if alpha then bad
    else let st := with_vcount st n in
         if 1 <? q_vcount st then bad else store_run st c n
  else if c =? 80 then
    if alpha || q_pseen st then bad
    else
      let at_beginning :=
        match map fst (q_runs st) with
        | [] => true
        | [c1] => (c1 =? 86) || (c1 =? 83)
        | [c2; c1] => (c2 =? 83) && (c1 =? 86)
        | _ => false
        end in
      let at_end := match rest with [] => true | [86] => true | _ => false end in
      if negb at_beginning && negb at_end then bad
      else
        let st := mkPst true (q_sseen st) (q_curseen st) (q_cat st) (q_size st) (q_digits st)
                      (q_scale st) (q_scount st) (q_vcount st) (q_clen st) (q_runs st) (q_national st) in
        let st := if at_beginning then with_vcount st 1 else st in
        let st := with_len (with_digits st n) n in
        store_run (with_scale st (if q_vcount st =? 0 then - n else n)) c n
  else if (c =? 48) || (c =? 66) || (c =? 47) then
    if sp then bad else store_run (with_len st n) c n
  else if (c =? 42) || (c =? 90) then
    if alpha then bad else if sp then bad
    else store_run (if q_vcount st =? 0 then with_len (with_digits st n) n
                    else with_scale (with_len (with_digits st n) n) n) c n
  else if (c =? 43) || (c =? 45) then
    if alpha then bad else if sp then bad
    else
      let st := with_len (with_digits st (n - 1)) (n - 1) in
      let st := if 0 <? q_scount st then with_len (with_digits st 1) 1 else st in
      store_run (with_scount st 1) c n
  else if c =? 67 then
    let st := mkPst (q_pseen st) (q_sseen st) (q_curseen st) (Z.lor (q_cat st) 10) (q_size st) (q_digits st)
                      (q_scale st) (q_scount st) (q_vcount st) (q_clen st) (q_runs st) (q_national st) in
    match rest with
    | [82] => if sp then bad else store_run (with_scount st 1) c n
    | _ => bad
    end
  else if c =? 68 then
    match rest with
    | [66] => if sp then bad else store_run (with_scount st 1) c n
    | _ => bad
    end
  else if c =? c_currency m then
    let k := if q_curseen st then n else n - 1 in
    let st := with_len (with_digits st k) k in
    store_run (mkPst (q_pseen st) (q_sseen st) true (q_cat st) (q_size st) (q_digits st)
                      (q_scale st) (q_scount st) (q_vcount st) (q_clen st) (q_runs st) (q_national st)) c n
  else bad.

(** Where the scan is: at the start of a run, in a run, in the zeros and in the
    other digits of a parenthesised count (labels and loops, tree.c 1290-1340). *)
Inductive pmode := Fresh | Run (c n : Z) | Zeros (c n : Z) | Count (c n v : Z).

(** One digit of a count, tree.c 1310-1322 (-1: overflow). *)
Definition count_digit (v x : Z) : outcome Z :=
  if INT_MAX / 10 <? v then Ok (-1)
  else
    let v := v * 10 in
    if negb (is_intb (INT_MAX - v)) then UB
    else if INT_MAX - v <? x - 48 then Ok (-1) else Ok (v + (x - 48)).
(** The end of a count, tree.c 1324-1336; None: error. *)
Definition count_end (n v : Z) : option Z :=
  if v =? 0 then None
  else if v =? -1 then Some (-1)
  else if n =? -1 then Some n
  else if INT_MAX - n <? v - 1 then Some (-1) else Some (n + (v - 1)).

Fixpoint scan (m : cfg) (l : list Z) (mode : pmode) (st : pst) : presult :=
  match mode with
  | Fresh =>
    match l with
    | [] => Ok (Some st)
    | c :: r => scan m r (Run c 1) st
    end
  | Run c n =>
    match l with
    | [] => add_run m st c n []
    | x :: r =>
      if x =? c then scan m r (Run c (n + 1)) st
      else if x =? 40 then scan m r (Zeros c n) st
      else
        do o <- add_run m st c n l;
        match o with
        | None => bad
        | Some st' =>
            if (c =? 67) || (c =? 68) then scan m r Fresh st'   (* p++ over R or B *)
            else scan m r (Run x 1) st'
        end
    end
  | Zeros c n =>
    match l with
    | [] => bad
    | x :: r =>
      if x =? 48 then scan m r (Zeros c n) st
      else if x =? 41 then bad                 (* count_value == 0 *)
      else if (49 <=? x) && (x <=? 57) then
        do v <- count_digit 0 x; scan m r (Count c n v) st
      else bad
    end
  | Count c n v =>
    match l with
    | [] => bad
    | x :: r =>
      if x =? 41 then
        match count_end n v with None => bad | Some n' => scan m r (Run c n') st end
      else if (48 <=? x) && (x <=? 57) then
        do v' <- count_digit v x; scan m r (Count c n v') st
      else bad
    end
  end.

(** The finished picture. *)
Record pic := mkPicd {
  pc_size : Z; pc_digits : Z; pc_scale : Z; pc_sign : Z; pc_cat : category; pc_runs : list (Z * Z) }.

(** tree.c 1551-1623.  [amax], [nmax]: the configured limits for alphanumeric and
    national items.  Every cb_error makes the compilation fail (None); the
    buffer is kept for edited pictures only. *)
Definition finish (amax nmax : Z) (st : pst) : option pic :=
  if (q_size st =? 0) && negb (q_vcount st =? 0) then None
  else
    let too_long limit := (q_clen st =? -1) || (limit <? q_clen st) in
    let mk k runs := Some (mkPicd (q_size st) (q_digits st mod 256)
                        ((q_scale st + 128) mod 256 - 128) (q_scount st mod 256) k runs) in
    if q_cat st =? 1 then if too_long amax then None else mk CAlphabetic []
    else if q_cat st =? 2 then if 36 <? q_digits st then None else mk CNumeric []
    else if q_cat st =? 3 then if too_long amax then None else mk CAlnum []
    else if q_cat st =? 4 then if too_long nmax then None else mk CNational []
    else if q_cat st =? 10 then if too_long 160 then None else mk CNumEdited (q_runs st)
    else if (q_cat st =? 8) || (q_cat st =? 9) || (q_cat st =? 11) then
      if too_long amax then None else mk CAlnumEdited (q_runs st)
    else if q_cat st =? 12 then if too_long nmax then None else mk CNatEdited (q_runs st)
    else None.

(** cb_build_picture, tree.c 1250-1630. *)
Definition build_picture (m : cfg) (amax nmax : Z) (s : list Z) : outcome (option pic) :=
  if (50 <? length s)%nat then Ok None
  else
    do o <- scan m s Fresh (mkPst false false false (guess m s 0) 0 0 0 0 0 0 [] false);
    Ok (match o with None => None | Some st => finish amax nmax st end).
