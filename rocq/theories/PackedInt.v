(** Integer operations on COMP-3 items: libcob/numeric.c 612-765, 889-932,
    1401-1465, libcob/codegen.h 205-290. *)
From Verif Require Import Base Field Sign Decimal Numeric.

(** A pointer into the nibbles of an item: nibble [j] is the high half of byte
    j/2 if j is even (C: msn = 1), the low half otherwise (msn = 0); moving to
    the previous nibble is j-1 (C: msn toggles, p-- after the high half). *)
Definition get_nib (d : list Z) (j : nat) : Z :=
  let b := nth (j / 2) d 0 in
  if Nat.even j then Z.land b 240 / 16 else Z.land b 15.
Definition set_nib (d : list Z) (j : nat) (t : Z) : list Z :=
  let b := nth (j / 2) d 0 in
  upd (j / 2) (u8 (if Nat.even j then Z.lor (Z.land b 15) (16 * t)
                   else Z.lor (Z.land b 240) t)) d.

(** cob_complement_packed, numeric.c 624-661: ten's complement of the digits. *)
Fixpoint complement_loop (n j : nat) (carry : Z) (d : list Z) : list Z :=
  match n with
  | O => d
  | S n' =>
    let tval := get_nib d j + carry in
    let '(carry, tval) := if 0 <? tval then (1, 10 - tval) else (0, tval) in
    complement_loop n' (pred j) carry (set_nib d j tval)
  end.

(** Start position: p = data + (ndigs + emptydig) / 2, high nibble. *)
Definition start_nib (f : field) : nat :=
  let n := Z.to_nat (a_digits (fa f)) in (2 * ((n + (1 - n mod 2)) / 2))%nat.
Definition complement_packed (f : field) : field :=
  set_fd f (complement_loop (Z.to_nat (a_digits (fa f))) (start_nib f) 0 (fd f)).

(** Main loop of cob_add_packed, numeric.c 702-741: returns carry, zeroes and
    the bytes. *)
Fixpoint add_packed_loop (n j : nat) (subtr : bool) (val carry : Z) (zeroes : nat)
    (d : list Z) : Z * nat * list Z :=
  match n with
  | O => (carry, zeroes, d)
  | S n' =>
    let tval := get_nib d j in
    let '(carry, val) :=
      if val =? 0 then (carry, val) else (carry + val mod 10, val / 10) in
    let '(tval, carry) :=
      if subtr then
        let t := tval - carry in if t <? 0 then (t + 10, 1) else (t, 0)
      else
        let t := tval + carry in if 9 <? t then (t mod 10, 1) else (t, 0) in
    let zeroes := if tval =? 0 then S zeroes else zeroes in
    add_packed_loop n' (pred j) subtr val carry zeroes (set_nib d j tval)
  end.

(** cob_add_packed, numeric.c 663-765.  UB: long long overflow of the scaled
    addend, or an item shorter than its digits. *)
Definition set_sign_nib (d : list Z) (s : Z) : list Z :=
  let p := (length d - 1)%nat in
  upd p (Z.lor (Z.land (nth p d 0) 240) s) d.
Definition add_packed (f : field) (ival : Z) : outcome field :=
  let val0 := ival * 10 ^ Z.max 0 (a_scale (fa f)) in
  if 2 ^ 63 <=? Z.abs val0 then UB else
  if a_digits (fa f) <=? 0 then Ok f else
  let n := Z.to_nat (a_digits (fa f)) in
  if (f_size f <? n / 2 + 1)%nat then UB else
  let sign := packed_get_sign f in
  let val := if sign <? 0 then - val0 else val0 in
  let subtr := val <? 0 in
  let '(carry, zeroes, d) := add_packed_loop n (start_nib f) subtr (Z.abs val) 0 0 (fd f) in
  let f1 := set_fd f d in
  if negb (sign =? 0) then
    if (n =? zeroes)%nat then Ok (set_fd f1 (set_sign_nib d 12))
    else if subtr && negb (carry =? 0) then
      let f2 := complement_packed f1 in
      Ok (set_fd f2 (set_sign_nib (fd f2) (if - sign <? 0 then 13 else 12)))
    else Ok f1
  else if subtr && negb (carry =? 0) then Ok (complement_packed f1)
  else Ok f1.

(** cob_set_packed_zero, numeric.c 891-900. *)
Definition set_packed_zero (f : field) : field :=
  set_fd f (upd (f_size f - 1) (if a_sign (fa f) then 12 else 15) (repeat 0 (f_size f))).

(** cob_set_packed_int, numeric.c 902-932; packed_bytes[x] is the BCD byte of x
    (numeric.c 79-91).  [n = -val] overflows for INT_MIN: UB. *)
Definition bcd (x : Z) : Z := 16 * (x / 10) + x mod 10.
Fixpoint packed_int_loop (p : nat) (n : Z) (d : list Z) : list Z :=
  (* p bytes remain in front; the next byte written is p-1 *)
  match p with
  | O => d
  | S q => if n =? 0 then d else packed_int_loop q (n / 100) (upd q (bcd (n mod 100)) d)
  end.
Definition set_packed_int (f : field) (val : Z) : outcome field :=
  if val =? - 2 ^ 31 then UB else
  let n := Z.abs val in
  let p := (f_size f - 1)%nat in
  let last := Z.lor (16 * (n mod 10))
                    (if negb (a_sign (fa f)) then 15 else if val <? 0 then 13 else 12) in
  let d := packed_int_loop p (n / 10) (upd p last (repeat 0 (f_size f))) in
  Ok (set_fd f (if Z.even (a_digits (fa f)) then upd 0 (Z.land (nth 0 d 0) 15) d else d)).

(** ** Comparison with an integer *)

(** The static state of cob_cmp_packed: lastval and packed_value[20]. *)
Record cmp_state := mkCmp { lastval : Z; pvalue : list Z }.
Definition cmp_init : cmp_state := mkCmp 0 (repeat 0 20).

Fixpoint cmp_fill (fuel : nat) (p : nat) (n : Z) (d : list Z) : list Z :=
  match fuel with
  | O => d
  | S g => if n =? 0 then d
           else cmp_fill g (pred p) (n / 100)
                  (upd p (Z.lor (n mod 100 mod 10) (16 * (n mod 100 / 10))) d)
  end.
(** numeric.c 1432-1452. *)
Definition cmp_set (st : cmp_state) (n : Z) : cmp_state :=
  if n =? lastval st then st
  else
    let m := Z.abs n in
    let d := firstn 14 (pvalue st) ++ repeat 0 6 in
    mkCmp n (if m =? 0 then d
             else cmp_fill 10 18 (m / 10) (upd 19 (16 * (m mod 10)) d)).

Fixpoint cmp_bytes (l1 l2 : list Z) : Z :=
  match l1, l2 with
  | a :: r1, b :: r2 => if a =? b then cmp_bytes r1 r2 else a - b
  | _, _ => 0
  end.

(** cob_cmp_packed, numeric.c 1401-1465.  UB: an item of more than 20 bytes
    (20 - f->size wraps), or n = INT_MIN (-n). *)
Definition cmp_packed (st : cmp_state) (f : field) (n : Z) : outcome (Z * cmp_state) :=
  let sign := packed_get_sign f in
  if (0 <=? sign) && (n <? 0) then Ok (1, st)
  else if (sign <? 0) && (0 <=? n) then Ok (-1, st)
  else if (20 <? f_size f)%nat || (n =? - 2 ^ 31) then UB
  else
    let v := repeat 0 (20 - f_size f) ++ fd f in
    let v := upd 19 (Z.land (nth 19 v 0) 240) v in
    let k := (20 - f_size f)%nat in
    let v := if Z.even (a_digits (fa f)) then upd k (Z.land (nth k v 0) 15) v else v in
    let st' := cmp_set st n in
    let c := cmp_bytes v (pvalue st') in
    Ok ((if sign <? 0 then - c else c), st').

(** ** codegen.h: code inlined into compiled programs for small items *)

(** cob_get_packed_int, codegen.h 228-247: [int] arithmetic; UB on overflow of
    int. *)
Fixpoint get_packed_int_loop (val : Z) (l : list Z) : Z :=
  match l with
  | [] => val
  | [b] => val * 10 + b / 16
  | b :: r => get_packed_int_loop ((val * 10 + b / 16) * 10 + Z.land b 15) r
  end.
Definition get_packed_int (f : field) : outcome Z :=
  let v := get_packed_int_loop 0 (fd f) in
  if 2 ^ 31 <=? v then UB
  else Ok (if Z.land (last (fd f) 0) 15 =? 13 then - v else v).

(** cob_cmp_packed_int, codegen.h 205-226. *)
Definition cmp_packed_int (f : field) (n : Z) : outcome Z :=
  do v <- get_packed_int f; Ok (if v <? n then -1 else if n <? v then 1 else 0).

(** cob_add_packed_int, codegen.h 250-290.  The loop runs over the bytes before
    the last one, last first ([l] is the reversed prefix). *)
Fixpoint add_packed_int_loop (carry n : Z) (l : list Z) : list Z :=
  match l with
  | [] => []
  | b :: r =>
    if (carry =? 0) && (n =? 0) then l
    else
      let inc := (b / 16) * 10 + Z.land b 15 + carry + n mod 100 in
      let x := inc mod 100 in
      Z.lor (16 * (x / 10)) (x mod 10) :: add_packed_int_loop (inc / 100) (n / 100) r
  end.
(** cob_add_int for a packed item, numeric.c 1296-1306. *)
Definition add_int_packed (f : field) (n : Z) : outcome field :=
  if n =? 0 then Ok f else add_packed f n.
Definition add_packed_int (f : field) (val : Z) : outcome field :=
  if val =? 0 then Ok f else
  let b := last (fd f) 0 in
  let neg := Z.land b 15 =? 13 in
  if neg && (0 <? val) then add_int_packed f val
  else if negb neg && (val <? 0) then add_int_packed f val
  else if val =? - 2 ^ 31 then UB
  else
    let n := Z.abs val in
    let inc := b / 16 + n mod 10 in
    let b' := Z.lor (16 * (inc mod 10)) (Z.land b 15) in
    Ok (set_fd f (rev (add_packed_int_loop (inc / 10) (n / 10) (rev (removelast (fd f)))) ++ [b'])).
