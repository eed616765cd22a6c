(** Arbitrary precision decimals: libcob/numeric.c 289-322, 1034-1115.
    GMP integers are mathematical integers. *)
From Verif Require Import Base.

(** cob_decimal, common.h: mpz_t value, int scale; denotes value * 10^(-scale). *)
Record decimal := mkDec { dv : Z; dsc : Z }.

(** numeric.c 37. *)
Definition DECIMAL_NAN : Z := -128.

(** shift_decimal, numeric.c 289-304: d->value *= 10^n, d->scale += n;
    mpz_tdiv_q truncates towards zero. *)
Definition shift_decimal (d : decimal) (n : Z) : decimal :=
  if n =? 0 then d
  else if 0 <? n then mkDec (dv d * 10 ^ n) (dsc d + n)
  else mkDec (Z.quot (dv d) (10 ^ (- n))) (dsc d + n).

(** align_decimal, numeric.c 306-314. *)
Definition align_decimal (d1 d2 : decimal) : decimal * decimal :=
  if dsc d1 <? dsc d2 then (shift_decimal d1 (dsc d2 - dsc d1), d2)
  else if dsc d2 <? dsc d1 then (d1, shift_decimal d2 (dsc d1 - dsc d2))
  else (d1, d2).

(** DECIMAL_CHECK, numeric.c 38-42. *)
Definition nan_in (d1 d2 : decimal) : bool :=
  (dsc d1 =? DECIMAL_NAN) || (dsc d2 =? DECIMAL_NAN).
Definition dec_nan (d : decimal) : decimal := mkDec (dv d) DECIMAL_NAN.

(** cob_decimal_add, numeric.c 1036-1042 (new value of d1). *)
Definition dec_add (d1 d2 : decimal) : decimal :=
  if nan_in d1 d2 then dec_nan d1 else
  let '(a, b) := align_decimal d1 d2 in mkDec (dv a + dv b) (dsc a).

(** cob_decimal_sub, numeric.c 1044-1050. *)
Definition dec_sub (d1 d2 : decimal) : decimal :=
  if nan_in d1 d2 then dec_nan d1 else
  let '(a, b) := align_decimal d1 d2 in mkDec (dv a - dv b) (dsc a).

(** cob_decimal_mul, numeric.c 1052-1058. *)
Definition dec_mul (d1 d2 : decimal) : decimal :=
  if nan_in d1 d2 then dec_nan d1 else
  mkDec (dv d1 * dv d2) (dsc d1 + dsc d2).

(** cob_decimal_div, numeric.c 1060-1083.  The second component tells whether
    COB_EC_SIZE_ZERO_DIVIDE was raised.  Simplification: the stop-run taken when
    cob_error_on_exit_flag is set is not modelled. *)
Definition dec_div (d1 d2 : decimal) : decimal * bool :=
  if nan_in d1 d2 then (dec_nan d1, false)
  else if dv d2 =? 0 then (dec_nan d1, true)
  else if dv d1 =? 0 then (mkDec (dv d1) 0, false)
  else
    let d := mkDec (dv d1) (dsc d1 - dsc d2) in
    let d := shift_decimal d (37 + (if dsc d <? 0 then - dsc d else 0)) in
    (mkDec (Z.quot (dv d) (dv d2)) (dsc d), false).

(** d->scale *= n with an int scale and an unsigned n. *)
Definition wrap32 (x : Z) : Z := (x + 2 ^ 31) mod 2 ^ 32 - 2 ^ 31.

(** cob_decimal_pow, numeric.c 1085-1101: integer exponents
    (d2->scale == 0 and mpz_fits_ulong_p); [n] is an unsigned int, so the
    exponent is taken modulo 2^32.  The pow() branch is floating point. *)
Definition dec_pow (d1 d2 : decimal) : outcome decimal :=
  if nan_in d1 d2 then Ok (dec_nan d1)
  else if (dsc d2 =? 0) && (0 <=? dv d2) && (dv d2 <? 2 ^ 64) then
    let n := dv d2 mod 2 ^ 32 in
    Ok (mkDec (dv d1 ^ n) (wrap32 (dsc d1 * n)))
  else NotModelled.

(** cob_decimal_cmp, numeric.c 1103-1108; mpz_cmp returns a negative, zero or
    positive value: here -1, 0, 1. *)
Definition dec_cmp (d1 d2 : decimal) : Z :=
  let '(a, b) := align_decimal d1 d2 in Z.sgn (dv a - dv b).
