(** Results of arithmetic in numeric-edited items: libcob/numeric.c 970-1032. *)
From Verif Require Import Base Field Sign Decimal Numeric Move Edited MoveAll.

(** The temporary signed DISPLAY item, numeric.c 1020-1024: COB_ATTR_INIT
    (COB_TYPE_NUMERIC_DISPLAY, digits, scale, COB_FLAG_HAVE_SIGN, NULL) over the
    local buffer. *)
Definition edit_temp (f : field) : field :=
  mkField (mkAttr TDisplay (a_digits (fa f)) (a_scale (fa f)) true false false false false false false [])
          (repeat 0 (Z.to_nat (a_digits (fa f)))).

(** unsigned char data[64], numeric.c 978. *)
Definition EDIT_BUFF : Z := 64.

(** cob_decimal_get_field, numeric.c 970-1032, for a receiving item that is
    neither binary, packed, floating nor DISPLAY (a numeric-edited item).  The
    return value is cob_exception_code, which is not reset here: [pending] says
    that it was not zero before.  UB when the digits do not fit the buffer, or
    when there are none (cob_put_sign then writes in front of it). *)
Definition get_field_edited (m : cfg) (pending : bool) (d : decimal) (f : field) (o : opts) : outcome stored :=
  if dsc d =? DECIMAL_NAN then Ok (mkStored true true f)
  else
    let d' := round_align d (a_scale (fa f)) o in
    do s <- get_display m (dv d') (edit_temp f) o;
    if st_ret s then Ok (mkStored true true f)
    else if (EDIT_BUFF <? a_digits (fa f)) || (a_digits (fa f) <? 1) then UB
    else
      do r <- cob_move m (st_f s) f;
      Ok (mkStored (pending || st_exc s) (st_exc s) (snd r)).

(** ADD / SUBTRACT / MULTIPLY f1 f2 GIVING f3, as generated by cobc typeck.c
    2278-2470 (decimal_compute, decimal_assign, build_decimal_assign): the operands are loaded, the operation is
    done on decimals, and the result is stored. *)
Definition giving_edited (m : cfg) (pending : bool) (op : decimal -> decimal -> decimal) (f1 f2 f3 : field) (o : opts)
    : outcome stored :=
  do r1 <- set_field m f1;
  do r2 <- set_field m f2;
  get_field_edited m pending (op (fst r1) (fst r2)) f3 o.
