(** Fetching numbers from items and storing them: libcob/numeric.c 155-255,
    359-610, 612-900, 930-1032, 1276-1352. *)
From Verif Require Import Base Field Sign Decimal.

(** ** Decimal strings *)

(** [fixed k v]: the k low-order decimal digit characters of v >= 0. *)
Fixpoint fixed (k : nat) (v : Z) : list Z :=
  match k with O => [] | S j => fixed j (v / 10) ++ [48 + v mod 10] end.

(** Number of decimal digits of v >= 0 (1 for 0); [fuel] bounds the count. *)
Fixpoint ndigits_fuel (fuel : nat) (v : Z) : nat :=
  match fuel with
  | O => 1
  | S g => if v <? 10 then 1%nat else S (ndigits_fuel g (v / 10))
  end.
Definition ndigits (v : Z) : nat := ndigits_fuel (Z.to_nat (Z.log2 v)) v.

(** mpz_get_str (buf, 10, v) for v >= 0 (library function, by specification). *)
Definition mpz_get_str (v : Z) : list Z := fixed (ndigits v) v.

(** num_buff_ptr holds 2048 bytes including the terminating NUL
    (numeric.c 1424: cob_malloc (2048)). *)
Definition NUM_BUFF : Z := 2048.
Definition num_buff_str (v : Z) : outcome (list Z) :=
  let s := mpz_get_str v in
  if Z.of_nat (length s) <? NUM_BUFF then Ok s else UB.

(** ** DISPLAY *)

(** "skip leading zeros", numeric.c 386-389. *)
Fixpoint skip_zeros (l : list Z) : list Z :=
  match l with
  | c :: ((_ :: _) as r) => if c =? 48 then skip_zeros r else l
  | _ => l
  end.

(** numeric.c 392-396: unsigned int accumulation of cob_d2i. *)
Fixpoint accum_u32 (n : Z) (l : list Z) : Z :=
  match l with [] => n | c :: r => accum_u32 ((n * 10 + (c - 48)) mod 2 ^ 32) r end.

(** mpz_set_str on a string of decimal digits (by specification). *)
Fixpoint str_value (n : Z) (l : list Z) : Z :=
  match l with [] => n | c :: r => str_value (n * 10 + (c - 48)) r end.

(** cob_decimal_set_display, numeric.c 359-410.  Also returns the item, which
    is written to while its sign is removed and put back.
    Simplification: for 10 or more significant characters that are not all
    digits, GMP rejects the string and leaves the number as it was: NotModelled. *)
Definition set_display (m : cfg) (f : field) : outcome (decimal * field) :=
  let size := Z.of_nat (data_size f) in
  let c0 := nth 0 (data_digits f) 0 in
  if c0 =? 255 then Ok (mkDec (10 ^ size) (a_scale (fa f)), f)
  else if c0 =? 0 then Ok (mkDec (- 10 ^ size) (a_scale (fa f)), f)
  else
    let '(sign, f1) := get_sign m f in
    let ds := skip_zeros (data_digits f1) in
    do v <- (if (length ds <? 10)%nat then Ok (accum_u32 0 ds)
             else if forallb is_digitb ds then Ok (str_value 0 ds)
             else NotModelled);
    Ok (mkDec (if sign <? 0 then - v else v) (a_scale (fa f)), put_sign m f1 sign).

(** Options of a store, common.h (COB_STORE_ROUND 1, KEEP_ON_OVERFLOW 2,
    TRUNC_ON_OVERFLOW 4). *)
Record opts := mkOpts { o_round : bool; o_keep : bool; o_trunc : bool }.
Definition opt_nonzero (o : opts) : bool := o_round o || o_keep o || o_trunc o.

(** Result of a store: return value non-zero?, COB_EC_SIZE_OVERFLOW raised?,
    the receiving item afterwards. *)
Record stored := mkStored { st_ret : bool; st_exc : bool; st_f : field }.

(** cob_decimal_get_display, numeric.c 412-449. *)
Definition get_display (m : cfg) (v : Z) (f : field) (o : opts) : outcome stored :=
  let sign := Z.sgn v in
  do str <- num_buff_str (Z.abs v);
  let size := length str in
  let fs := data_size f in
  if (fs <? size)%nat then
    if o_keep o then Ok (mkStored true true f)
    else Ok (mkStored false true
               (put_sign m (put_digits f (skipn (size - fs) str)) sign))
  else Ok (mkStored false false
             (put_sign m (put_digits f (repeat 48 (fs - size) ++ str)) sign)).

(** ** BINARY *)

(** Value of an 8-byte buffer on a little endian machine. *)
Fixpoint le_u (l : list Z) : Z :=
  match l with [] => 0 | b :: r => b + 256 * le_u r end.
Definition to_s64 (u : Z) : Z := if u <? 2 ^ 63 then u else u - 2 ^ 64.
Fixpoint le_bytes (k : nat) (v : Z) : list Z :=
  match k with O => [] | S j => v mod 256 :: le_bytes j (v / 256) end.

(** cob_binary_get_int64, numeric.c 155-206 (little endian branch). *)
Definition binary_get_int64 (f : field) : Z :=
  let fsiz := (8 - f_size f)%nat in
  let hi := repeat 0 fsiz ++ fd f in   (* copied to &n + fsiz *)
  let lo := fd f ++ repeat 0 fsiz in   (* copied to &n *)
  if a_swap (fa f) then
    if a_sign (fa f) then Z.shiftr (to_s64 (le_u (rev lo))) (8 * Z.of_nat fsiz)
    else to_s64 (le_u (rev hi))
  else
    if a_sign (fa f) then Z.shiftr (to_s64 (le_u hi)) (8 * Z.of_nat fsiz)
    else to_s64 (le_u lo).

(** cob_binary_get_uint64, numeric.c 208-225. *)
Definition binary_get_uint64 (f : field) : Z :=
  let fsiz := (8 - f_size f)%nat in
  if a_swap (fa f) then le_u (rev (repeat 0 fsiz ++ fd f))
  else le_u (fd f ++ repeat 0 fsiz).

(** cob_binary_set_uint64 / cob_binary_set_int64, numeric.c 227-263. *)
Definition binary_set_64 (f : field) (n : Z) : field :=
  let b := le_bytes 8 (n mod 2 ^ 64) in
  if a_swap (fa f) then set_fd f (skipn (8 - f_size f) (rev b))
  else set_fd f (firstn (f_size f) b).

(** cob_decimal_set_binary, numeric.c 453-501 (COB_LI_IS_LL branch). *)
Definition set_binary (f : field) : decimal :=
  mkDec (if a_sign (fa f) then binary_get_int64 f else binary_get_uint64 f)
        (a_scale (fa f)).

(** mpz_sizeinbase (v, 2). *)
Definition bitlen (v : Z) : Z := if v =? 0 then 1 else Z.log2 (Z.abs v) + 1.
(** mpz_get_ui, mpz_get_si (64 bit). *)
Definition mpz_get_ui (v : Z) : Z := Z.abs v mod 2 ^ 64.

(** cob_mpze10[] has COB_MAX_BINARY = 36 entries, numeric.c 44, 69. *)
Definition COB_MAX_BINARY : Z := 36.

(** cob_decimal_get_binary, numeric.c 503-600 (COB_LI_IS_LL branch). *)
Definition get_binary (m : cfg) (v0 : Z) (f : field) (o : opts) : outcome stored :=
  if v0 =? 0 then Ok (mkStored false false (set_fd f (repeat 0 (f_size f))))
  else
    let digits := a_digits (fa f) in
    let sign := a_sign (fa f) in
    let v := if sign then v0 else Z.abs v0 in
    let bits := 8 * Z.of_nat (f_size f) in
    let bitnum := bits - (if sign then 1 else 0) in
    let reduce := fun _ : unit =>
      if o_trunc o then Z.rem v (10 ^ digits) else v mod 2 ^ bits in
    let finish := fun (overflow : bool) (w : Z) =>
      (* numeric.c 556-561; cob_binary_set_int64 (mpz_get_si) *)
      let f' := if negb sign || overflow then binary_set_64 f (mpz_get_ui w)
                else binary_set_64 f w in
      Ok (mkStored overflow overflow f') in
    if bitnum <? bitlen v then
      if o_keep o then Ok (mkStored true true f)
      else if o_trunc o && (COB_MAX_BINARY <=? digits) then UB
      else finish true (reduce tt)
    else if opt_nonzero o && c_bintrunc m then
      if COB_MAX_BINARY <=? digits then UB
      else if 10 ^ digits <=? Z.abs v then
        if o_keep o then Ok (mkStored true true f)
        else finish true (reduce tt)
      else finish false v
    else finish false v.

(** ** PACKED-DECIMAL *)

(** cob_packed_get_sign, numeric.c 604-614. *)
Definition packed_get_sign (f : field) : Z :=
  if negb (a_sign (fa f)) then 0
  else if Z.land (nth (f_size f - 1) (fd f) 0) 15 =? 13 then -1 else 1.

Definition hi4 (b : Z) : Z := b / 16.
Definition lo4 (b : Z) : Z := b mod 16.

(** Loop numeric.c 786-795 (fewer than 10 digits) over the bytes that hold two
    digits; [digits > 1] is the loop condition, [fuel] its bound. *)
Fixpoint set_packed_loop (digits : Z) (val : Z) (l : list Z) (fuel : nat) : Z * list Z :=
  match fuel with
  | O => (val, l)
  | S g =>
    if 1 <? digits then
      let b := nth 0 l 0 in
      let val := if val =? 0 then val else val * 100 in
      let val := if b =? 0 then val else val + (hi4 b * 10 + lo4 b) in
      set_packed_loop (digits - 2) val (tl l) g
    else (val, l)
  end.

(** Loop numeric.c 807-818 (10 digits or more, GMP, with valseen). *)
Fixpoint set_packed_loop_mpz (digits : Z) (val : Z) (valseen : bool) (l : list Z)
    (fuel : nat) : Z * bool * list Z :=
  match fuel with
  | O => (val, valseen, l)
  | S g =>
    if 1 <? digits then
      let b := nth 0 l 0 in
      let val := if valseen then val * 100 else val in
      let '(val, valseen) :=
        if b =? 0 then (val, valseen) else (val + (hi4 b * 10 + lo4 b), true) in
      set_packed_loop_mpz (digits - 2) val valseen (tl l) g
    else (val, valseen, l)
  end.

(** cob_decimal_set_packed, numeric.c 765-830.  UB when the item is too short
    for its digit count. *)
Definition set_packed (f : field) : outcome decimal :=
  let D := a_digits (fa f) in
  if Z.of_nat (f_size f) <? D / 2 + 1 then UB else
  let sign := packed_get_sign f in
  let '(val, digits, p) :=
    if D mod 2 =? 0 then (lo4 (nth 0 (fd f) 0), D - 1, tl (fd f))
    else (0, D, fd f) in
  let v :=
    if D <? 10 then
      let '(val, p) := set_packed_loop digits val p (f_size f) in
      let val := if val =? 0 then val else val * 10 in
      val + hi4 (nth 0 p 0)
    else
      let '(val, valseen, p) :=
        set_packed_loop_mpz digits val (negb (val =? 0)) p (f_size f) in
      let val := if valseen then val * 10 else val in
      val + hi4 (nth 0 p 0) in
  Ok (mkDec (if sign <? 0 then - v else v) (a_scale (fa f))).

(** Loop numeric.c 869-876: store digit characters as nibbles; [i] counts
    parity, [p] is the byte index. *)
Fixpoint put_nibbles (i : nat) (p : nat) (q : list Z) (d : list Z) : list Z :=
  match q with
  | [] => d
  | c :: r =>
    let x := c - 48 in
    if Nat.even i then put_nibbles (S i) p r (upd p (u8 (16 * x)) d)
    else put_nibbles (S i) (S p) r (upd p (Z.lor (nth p d 0) x) d)
  end.

(** The sign nibble, numeric.c 879-886. *)
Definition put_packed_sign (f : field) (sign : Z) : field :=
  let p := (f_size f - 1)%nat in
  let b := Z.land (nth p (fd f) 0) 240 in
  set_fd f (upd p (Z.lor b (if negb (a_sign (fa f)) then 15
                            else if sign <? 0 then 13 else 12)) (fd f)).

(** cob_decimal_get_packed, numeric.c 832-889. *)
Definition get_packed (v : Z) (f : field) (o : opts) : outcome stored :=
  let sign := Z.sgn v in
  do str <- num_buff_str (Z.abs v);
  let size0 := length str in
  let digits := Z.to_nat (a_digits (fa f)) in
  if (f_size f <? digits / 2 + 1)%nat then UB else
  let ovf := (digits <? size0)%nat in
  if ovf && o_keep o then Ok (mkStored true true f)
  else
    let q := if ovf then skipn (size0 - digits) str else str in
    let size := if ovf then digits else size0 in
    let p := (digits / 2 - size / 2)%nat in
    let diff := (1 - size mod 2)%nat in
    let d := put_nibbles diff p q (repeat 0 (f_size f)) in
    Ok (mkStored false ovf (put_packed_sign (set_fd f d) sign)).

(** ** Any numeric item *)

(** cob_decimal_set_field, numeric.c 942-968. *)
Definition set_field (m : cfg) (f : field) : outcome (decimal * field) :=
  match a_type (fa f) with
  | TBinary => Ok (set_binary f, f)
  | TPacked => do d <- set_packed f; Ok (d, f)
  | TFloat | TDouble => NotModelled
  | _ => set_display m f
  end.

(** The rounding and alignment step, numeric.c 985-1001. *)
Definition round_align (d : decimal) (fscale : Z) (o : opts) : decimal :=
  let d :=
    if o_round o && (fscale <? dsc d) && negb (Z.sgn (dv d) =? 0) then
      let s := Z.sgn (dv d) in
      let d' := shift_decimal d (fscale - dsc d + 1) in
      if 0 <? s then mkDec (dv d' + 5) (dsc d') else mkDec (dv d' - 5) (dsc d')
    else d in
  shift_decimal d (fscale - dsc d).

(** cob_decimal_get_field, numeric.c 970-1032.  The branch for items that are
    neither binary, packed nor display (edited receivers, via cob_move) is in
    the model of MOVE. *)
Definition get_field (m : cfg) (d : decimal) (f : field) (o : opts) : outcome stored :=
  if dsc d =? DECIMAL_NAN then Ok (mkStored true true f)
  else
    let d' := round_align d (a_scale (fa f)) o in
    match a_type (fa f) with
    | TBinary => get_binary m (dv d') f o
    | TPacked => get_packed (dv d') f o
    | TDisplay => get_display m (dv d') f o
    | _ => NotModelled
    end.

(** cob_add / cob_sub, numeric.c 1276-1294. *)
Definition cob_add (m : cfg) (f1 f2 : field) (o : opts) : outcome stored :=
  do r1 <- set_field m f1;
  do r2 <- set_field m f2;
  get_field m (dec_add (fst r1) (fst r2)) (snd r1) o.
Definition cob_sub (m : cfg) (f1 f2 : field) (o : opts) : outcome stored :=
  do r1 <- set_field m f1;
  do r2 <- set_field m f2;
  get_field m (dec_sub (fst r1) (fst r2)) (snd r1) o.

(** cob_div_quotient, numeric.c 1337-1367: result of the store of the quotient
    and the decimal cob_d3 kept for the remainder.  On zero divide the
    quotient item is untouched. *)
Definition div_quotient (m : cfg) (dividend divisor quotient : field) (o : opts)
  : outcome (stored * decimal) :=
  do r1 <- set_field m dividend;
  do r2 <- set_field m divisor;
  let d1 := fst r1 in let d2 := fst r2 in
  let '(q, _) := dec_div d1 d2 in
  if dsc q =? DECIMAL_NAN then
    Ok (mkStored true true quotient, dec_nan d1)
  else
    do st <- get_field m q quotient o;
    let d4 := shift_decimal q (a_scale (fa quotient) - dsc q) in
    Ok (st, dec_sub d1 (dec_mul d4 d2)).

(** cob_div_remainder, numeric.c 1369-1373. *)
Definition div_remainder (m : cfg) (d3 : decimal) (f : field) (o : opts) : outcome stored :=
  get_field m d3 f o.

(** cob_cmp_int, cob_cmp_uint, cob_numeric_cmp, numeric.c 1375-1399. *)
Definition cmp_int (m : cfg) (f1 : field) (n : Z) : outcome Z :=
  do r <- set_field m f1; Ok (dec_cmp (fst r) (mkDec n 0)).
Definition numeric_cmp (m : cfg) (f1 f2 : field) : outcome Z :=
  do r1 <- set_field m f1;
  do r2 <- set_field m f2;
  Ok (dec_cmp (fst r1) (fst r2)).
