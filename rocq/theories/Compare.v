(** Comparison and class conditions: libcob/common.c 505-760 and 1258-1515.
    [col] is the program collating sequence (a table of 256 bytes) or None.
    Simplifications: the two operands are separate storage; national operands
    are only modelled for the comparison loop itself (national_cmps). *)
From Verif Require Import Base Field Sign Decimal Numeric Move Edited MoveAll.

Definition collate (col : option (list Z)) (c : Z) : Z :=
  match col with Some t => nth (Z.to_nat c) t 0 | None => c end.

(** common_cmpc, common.c 505-528. *)
Fixpoint common_cmpc (col : option (list Z)) (s1 : list Z) (c : Z) : Z :=
  match s1 with
  | [] => 0
  | x :: r => let ret := collate col x - collate col c in
              if ret =? 0 then common_cmpc col r c else ret
  end.

(** alnum_cmps, common.c 549-570, on two strings of the same length. *)
Fixpoint alnum_cmps (col : option (list Z)) (s1 s2 : list Z) : Z :=
  match s1, s2 with
  | x :: r1, y :: r2 => let ret := collate col x - collate col y in
                        if ret =? 0 then alnum_cmps col r1 r2 else ret
  | _, _ => 0
  end.

(** national_cmps, common.c 572-596 (Shift-JIS build) on two strings of [size]
    bytes; UB when an odd size makes it read past the items. *)
Fixpoint national_cmps (s1 s2 : list Z) : outcome Z :=
  match s1, s2 with
  | a :: b :: r1, c :: d :: r2 =>
      if 256 * c + d <? 256 * a + b then Ok 1 else national_cmps r1 r2
  | [], [] => Ok 0
  | _, _ => UB
  end.

(** is_national_padding, common.c 530-547; COB_ZENSPC is 0x81 0x40, two bytes
    (coblocal.h 67-86). *)
Fixpoint is_national_padding (fuel : nat) (s : list Z) : bool :=
  match fuel with
  | O => true
  | S g =>
    match s with
    | [] => true
    | a :: r =>
      if a =? 32 then is_national_padding g r
      else match r with
           | b :: r' => if (a =? 129) && (b =? 64) then is_national_padding g r' else false
           | [] => false
           end
    end
  end.

(** cob_put_sign guarded by COB_FIELD_TYPE (f) != COB_TYPE_NUMERIC_PACKED. *)
Definition put_sign_np (m : cfg) (f : field) (sign : Z) : field :=
  match a_type (fa f) with TPacked => f | _ => put_sign m f sign end.

(** cob_cmp_char, common.c 598-610. *)
Definition cmp_char (m : cfg) (col : option (list Z)) (f : field) (c : Z) : Z * field :=
  let '(sign, g) := get_sign m f in
  (common_cmpc col (fd g) c, put_sign_np m g sign).

(** The loop of cob_cmp_all, common.c 628-640 and 646-656; [swap] for the first
    of the two copies, where the literal is the left operand.  A literal of
    size 0 would make the loop endless (UB). *)
Fixpoint cmp_all_loop (fuel : nat) (swap : bool) (col : option (list Z))
    (data lit : list Z) : outcome Z :=
  let cmp a b := if swap then alnum_cmps col b a else alnum_cmps col a b in
  if (length data <? length lit)%nat then Ok (cmp data (firstn (length data) lit))
  else match fuel with
       | O => UB
       | S g =>
         let r := cmp (firstn (length lit) data) lit in
         if r =? 0 then cmp_all_loop g swap col (skipn (length lit) data) lit else Ok r
       end.

(** cob_cmp_all, common.c 612-666 (non-national). In the first branch the sign
    taken from f2 is "restored" on f1 (there f1 is an ALL literal). *)
Definition cmp_all (m : cfg) (col : option (list Z)) (f1 f2 : field)
  : outcome (Z * field * field) :=
  match a_type (fa f1) with
  | TNational | TNatEdited | TNatAll => NotModelled
  | _ =>
    if (match a_type (fa f1) with TAlnumAll => true | _ => false end)
       && (f_size f1 <? f_size f2)%nat then
      let '(sign, g2) := get_sign m f2 in
      do r <- cmp_all_loop (S (f_size f2)) true col (fd g2) (fd f1);
      Ok (r, put_sign_np m f1 sign, g2)
    else
      let '(sign, g1) := get_sign m f1 in
      do r <- cmp_all_loop (S (f_size f1)) false col (fd g1) (fd f2);
      Ok (r, put_sign_np m g1 sign, f2)
  end.

(** cob_cmp_simple_str, common.c 668-700 (non-national). *)
Definition cmp_simple_str (col : option (list Z)) (l1 l2 : list Z) : Z :=
  let n := Nat.min (length l1) (length l2) in
  let ret := alnum_cmps col (firstn n l1) (firstn n l2) in
  if ret =? 0 then
    if (length l1 <? length l2)%nat then - common_cmpc col (skipn n l2) 32
    else if (length l2 <? length l1)%nat then common_cmpc col (skipn n l1) 32
    else ret
  else ret.

(** cob_cmp_alnum, common.c 702-721. *)
Definition cmp_alnum (m : cfg) (col : option (list Z)) (f1 f2 : field) : Z * field * field :=
  let '(sign1, g1) := get_sign m f1 in
  let '(sign2, g2) := get_sign m f2 in
  (cmp_simple_str col (fd g1) (fd g2), put_sign_np m g1 sign1, put_sign_np m g2 sign2).

(** An operand: the item, and whether it is the figurative constant ZERO
    (f == &cob_zero). *)
Record opnd := mkOpnd { o_f : field; o_zero : bool }.
Definition item (f : field) : opnd := mkOpnd f false.

(** The conversion of a numeric operand to digits, common.c 1354-1375 and
    1377-1398 (buff[48]).  The second component is the operand afterwards. *)
Definition cmp_operand (m : cfg) (f : field) : outcome (field * option field) :=
  let n := Z.to_nat (a_digits (fa f)) in
  let a := fa f in
  match a_type a with
  | TDisplay =>
    if a_sep a then
      let ta := mkAttr TDisplay (a_digits a) (a_scale a) true false false false false false false [] in
      if (48 <? n)%nat then UB
      else do r <- cob_move m f (mkField ta (repeat 0 n)); Ok (snd r, Some (fst r))
    else Ok (f, None)
  | TBinary | TPacked | TFloat | TDouble =>
      let ta := mkAttr TDisplay (a_digits a) (a_scale a) false (a_sep a) (a_lead a) (a_bzero a)
                       (a_just a) (a_swap a) (a_realbin a) (a_pic a) in
      if (48 <? n)%nat then UB
      else do r <- cob_move m f (mkField ta (repeat 0 n)); Ok (snd r, Some (fst r))
  | _ => Ok (f, None)
  end.

Definition is_all (f : field) : bool :=
  match a_type (fa f) with TAlnumAll => true | _ => false end.
Definition is_group (f : field) : bool :=
  match a_type (fa f) with TGroup => true | _ => false end.

(** cob_cmp, common.c 1257-1402, without national operands: the result and the
    two operands afterwards. *)
Definition cob_cmp (m : cfg) (col : option (list Z)) (p1 p2 : opnd)
  : outcome (Z * field * field) :=
  let f1 := o_f p1 in let f2 := o_f p2 in
  if is_national (a_type (fa f1)) || is_national (a_type (fa f2)) then NotModelled
  else
  let num1 := is_numeric_type (a_type (fa f1)) in
  let num2 := is_numeric_type (a_type (fa f2)) in
  if num1 && num2 then
    do r1 <- set_field m f1; do r2 <- set_field m f2;
    Ok (dec_cmp (fst r1) (fst r2), snd r1, snd r2)
  else if is_all f2 then
    if o_zero p2 && num1 then
      do r1 <- set_field m f1; Ok (dec_cmp (fst r1) (mkDec 0 0), snd r1, f2)
    else if (f_size f2 =? 1)%nat then
      let '(c, g1) := cmp_char m col f1 (nth 0 (fd f2) 0) in Ok (c, g1, f2)
    else cmp_all m col f1 f2
  else if is_all f1 then
    if o_zero p1 && num2 then
      do r2 <- set_field m f2; Ok (- dec_cmp (fst r2) (mkDec 0 0), f1, snd r2)
    else if (f_size f1 =? 1)%nat then
      let '(c, g2) := cmp_char m col f2 (nth 0 (fd f1) 0) in Ok (- c, f1, g2)
    else
      do r <- cmp_all m col f2 f1;
      let '(c, g2, g1) := r in Ok (- c, g1, g2)
  else if is_group f1 || is_group f2 then
    Ok (cmp_simple_str col (fd f1) (fd f2), f1, f2)
  else
    do t1 <- cmp_operand m f1;
    do t2 <- cmp_operand m f2;
    let '(c, g1, g2) := cmp_alnum m col (fst t1) (fst t2) in
    Ok (c, match snd t1 with Some x => x | None => g1 end,
           match snd t2 with Some x => x | None => g2 end).

(** ** SORT keys *)

(** One key of a SORT: ascending?, the attribute and size of the key item and
    its offset in the record (struct cob_file_key). *)
Record skey := mkKey { k_asc : bool; k_attr : fattr; k_size : nat; k_off : nat }.
Definition key_field (k : skey) (r : list Z) : field :=
  mkField (k_attr k) (firstn (k_size k) (skipn (k_off k) r)).

(** sort_compare, common.c 723-748 (and fileio.c 5639-5671, the same with an
    insertion number as last key).  UB: a key outside the record. *)
Fixpoint sort_compare (m : cfg) (col : option (list Z)) (ks : list skey) (r1 r2 : list Z)
  : outcome Z :=
  match ks with
  | [] => Ok 0
  | k :: rest =>
    if (length r1 <? k_off k + k_size k)%nat || (length r2 <? k_off k + k_size k)%nat then UB
    else
      let f1 := key_field k r1 in let f2 := key_field k r2 in
      do c <- (if is_numeric_type (a_type (k_attr k)) then numeric_cmp m f1 f2
               else if is_national (a_type (k_attr k)) then national_cmps (fd f1) (fd f2)
               else Ok (alnum_cmps col (fd f1) (fd f2)));
      if c =? 0 then sort_compare m col rest r1 r2
      else Ok (if k_asc k then c else - c)
  end.

(** ** Class conditions (C locale) *)

Definition is_upperb (c : Z) : bool := (65 <=? c) && (c <=? 90).
Definition is_lowerb (c : Z) : bool := (97 <=? c) && (c <=? 122).

(** cob_is_numeric, common.c 1415-1472; [nibble_c] is cob_nibble_c_for_unsigned. *)
Definition is_numeric (m : cfg) (nibble_c : bool) (f : field) : bool * field :=
  match a_type (fa f) with
  | TBinary | TFloat | TDouble => (true, f)
  | TPacked =>
      let lastb := last (fd f) 0 in
      let sign := Z.land lastb 15 in
      (forallb (fun b => (Z.land b 240 <=? 144) && (Z.land b 15 <=? 9)) (removelast (fd f))
       && (Z.land lastb 240 <=? 144)
       && ((sign =? 15)
           || (if a_sign (fa f) then (sign =? 12) || (sign =? 13)
               else nibble_c && (sign =? 12))), f)
  | TDisplay =>
      let '(sign, g) := get_sign m f in
      (forallb is_digitb (data_digits g), put_sign m g sign)
  | _ => (forallb is_digitb (fd f), f)
  end.

(** cob_is_alpha, cob_is_upper, cob_is_lower, common.c 1474-1515. *)
Definition is_alpha (f : field) : bool :=
  forallb (fun c => is_space c || (is_upperb c || is_lowerb c)) (fd f).
Definition is_upper (f : field) : bool :=
  forallb (fun c => is_space c || is_upperb c) (fd f).
Definition is_lower (f : field) : bool :=
  forallb (fun c => is_space c || is_lowerb c) (fd f).
