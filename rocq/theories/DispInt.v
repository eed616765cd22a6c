(** Integer operations on DISPLAY items: libcob/numeric.c 1113-1325 and
    1482-1777, libcob/codegen.h 189-203. *)
From Verif Require Import Base Field Sign Decimal Numeric PackedInt.

(** display_add_int, numeric.c 1113-1158.  The digits are given last first
    ([sp] walks backwards); the result is (return value, digits last first).
    Loop state: [n] what is left of the addend, [carry]. *)
Fixpoint display_add_loop (bintrunc : bool) (carry n : Z) (rl : list Z) : Z * list Z :=
  match rl with
  | [] => ((if (0 <? n) || negb (carry =? 0) then (if bintrunc then 1 else 0) else 0), [])
  | b :: r =>
    if 0 <? n then
      let is := Z.land b 15 + n mod 10 + carry in
      let '(carry', b') := if 9 <? is then (1, 48 + is mod 10) else (0, 48 + is) in
      let '(ret, r') := display_add_loop bintrunc carry' (n / 10) r in (ret, b' :: r')
    else if carry =? 0 then (0, rl)
    else (* carry up *)
      let b' := u8 (b + 1) in
      if b' <=? 57 then (0, b' :: r)
      else let '(ret, r') := display_add_loop bintrunc 1 0 r in (ret, 48 :: r')
  end.
Definition display_add_int (m : cfg) (data : list Z) (n : Z) : Z * list Z :=
  let '(ret, r) := display_add_loop (c_bintrunc m) 0 n (rev data) in (ret, rev r).

(** display_sub_int, numeric.c 1160-1195. *)
Fixpoint display_sub_loop (carry n : Z) (rl : list Z) : Z * list Z :=
  match rl with
  | [] => ((if (0 <? n) || negb (carry =? 0) then 1 else 0), [])
  | b :: r =>
    if 0 <? n then
      let t := u8 (b - (n mod 10 + carry)) in
      let '(carry', b') := if t <? 48 then (1, u8 (t + 10)) else (0, t) in
      let '(ret, r') := display_sub_loop carry' (n / 10) r in (ret, b' :: r')
    else if carry =? 0 then (0, rl)
    else
      let b' := u8 (b - 1) in
      if 48 <=? b' then (0, b' :: r)
      else let '(ret, r') := display_sub_loop 1 0 r in (ret, 57 :: r')
  end.
Definition display_sub_int (data : list Z) (n : Z) : Z * list Z :=
  let '(ret, r) := display_sub_loop 0 n (rev data) in (ret, rev r).

(** The addend in units of the last digit of the item, numeric.c 1217-1239:
    multiplied for a positive scale (long long overflow is UB), divided
    (towards zero) for PIC 9(n)P(m). *)
Definition scaled_addend (scale n : Z) : outcome Z :=
  if 0 <=? scale then
    let v := n * 10 ^ scale in
    if 2 ^ 63 <=? Z.abs v then UB else Ok v
  else Ok (if - scale <? 10 then Z.quot n (10 ^ (- scale)) else 0).

(** cob_display_add_int, numeric.c 1197-1272: (return value non-zero =
    SIZE exception raised, item).  UB: an item of more than 64 digits
    (tfield). *)
Definition display_add (m : cfg) (f : field) (n0 : Z) : outcome (bool * field) :=
  let '(sign, f1) := get_sign m f in
  if (64 <? data_size f)%nat then UB else
  let data := data_digits f1 in
  do n <- scaled_addend (a_scale (fa f)) (if sign <? 0 then - n0 else n0);
  if 0 <? n then
    let '(ret, d) := display_add_int m data n in
    if ret =? 0 then Ok (false, put_sign m (put_digits f1 d) sign)
    else Ok (true, put_sign m (put_digits f1 data) sign)
  else if n <? 0 then
    let '(ret, d) := display_sub_int data (- n) in
    if ret =? 0 then Ok (false, put_sign m (put_digits f1 d) sign)
    else
      let d := map (fun c => 48 + (9 - (c - 48))) d in
      let '(_, d) := display_add_int m d 1 in
      Ok (false, put_sign m (put_digits f1 d) (- sign))
  else Ok (false, put_sign m f1 sign).

(** cob_add_int, numeric.c 1296-1325.  In the general branch the scale of the
    integer is raised to that of the item: a negative item scale is converted
    to unsigned int (10^(2^32 - s)): not modelled. *)
Definition add_int (m : cfg) (f : field) (n : Z) : outcome (bool * field) :=
  if n =? 0 then Ok (false, f) else
  match a_type (fa f) with
  | TDisplay => display_add m f n
  | TPacked => do f' <- add_packed f n; Ok (false, f')
  | _ =>
    do r <- set_field m f;
    let '(d, f1) := r in
    if dsc d <? 0 then NotModelled else
    do st <- get_field m (mkDec (dv d + n * 10 ^ dsc d) (dsc d)) f1 (mkOpts false false false);
    Ok (st_ret st, st_f st)
  end.

(** cob_sub_int, numeric.c 1327-1334: -n overflows for INT_MIN. *)
Definition sub_int (m : cfg) (f : field) (n : Z) : outcome (bool * field) :=
  if n =? 0 then Ok (false, f) else
  if n =? - 2 ^ 31 then UB else add_int m f (- n).

(** ** Comparison with an integer *)

(** Accumulation of cob_d2i in a signed type of [w] bits; None on overflow
    (undefined). *)
Fixpoint acc_sint (w : Z) (val : Z) (l : list Z) : outcome Z :=
  match l with
  | [] => Ok val
  | c :: r =>
    let v := val * 10 + (c - 48) in
    if (2 ^ (w - 1) <=? Z.abs v) then UB else acc_sint w v r
  end.
Definition three_way (v n : Z) : Z := if v <? n then -1 else if n <? v then 1 else 0.

(** cob_cmp_numdisp (w = 32) and cob_cmp_long_numdisp (w = 64), numeric.c
    1484-1511. *)
Definition cmp_numdisp (w : Z) (data : list Z) (n : Z) : outcome Z :=
  do v <- acc_sint w 0 data; Ok (three_way v n).

(** cob_get_ebcdic_sign / cob_get_long_ebcdic_sign, numeric.c 1582-1710:
    (negative?, digit added). *)
Definition ebcdic_sign_digit (c : Z) : bool * Z :=
  if c =? 123 then (false, 0)
  else if (65 <=? c) && (c <=? 73) then (false, c - 64)
  else if c =? 125 then (true, 0)
  else if (74 <=? c) && (c <=? 82) then (true, c - 73)
  else (false, 0).

(** cob_cmp_sign_numdisp (w = 32), cob_cmp_long_sign_numdisp (w = 64),
    numeric.c 1712-1777. *)
Definition cmp_sign_numdisp (m : cfg) (w : Z) (data : list Z) (n : Z) : outcome Z :=
  do v <- acc_sint w 0 (removelast data);
  let v := v * 10 in
  let c := last data 0 in
  let v :=
    if is_digitb c then v + (c - 48)
    else if c_ebcdic m then
      let '(neg, d) := ebcdic_sign_digit c in if neg then - (v + d) else v + d
    else - (v + (c - 112)) in
  if 2 ^ (w - 1) <=? Z.abs v then UB else Ok (three_way v n).

(** cob_get_numdisp, codegen.h 189-203. *)
Fixpoint get_numdisp (val : Z) (l : list Z) : outcome Z :=
  match l with
  | [] => Ok val
  | c :: r =>
    let v := val * 10 + (if 57 <? c then 10 else c - 48) in
    if 2 ^ 31 <=? Z.abs v then UB else get_numdisp v r
  end.
