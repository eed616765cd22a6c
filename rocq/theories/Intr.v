(** Numeric intrinsic functions: libcob/intrinsic.c 435-495, 511-586, 1517-1539,
    1577-1587, 2028-2188, 2312-2400.
    [over] stands for GMP's mpz_sizeinbase (v, 10), which may return one more
    than the number of digits. *)
From Verif Require Import Base Field Sign Decimal Numeric Move Edited MoveAll Compare Dates.
Local Open Scope Z_scope.

(** cob_field_attr has an unsigned char digit count and a signed char scale
    (common.h 324-330). *)
Definition u8digits (n : Z) : Z := n mod 256.
Definition s8scale (s : Z) : Z := (s + 128) mod 256 - 128.

Definition bin_attr (digits scale : Z) (sg : bool) : fattr :=
  mkAttr TBinary digits scale sg false false false false false false [].
Definition dsp_attr (digits scale : Z) (sg : bool) : fattr :=
  mkAttr TDisplay digits scale sg false false false false false false [].
Definition fresh (a : fattr) (size : nat) : field := mkField a (repeat 0 size).
Definition no_opt : opts := mkOpts false false false.

Inductive binop_op := OpAdd | OpSub | OpMul | OpDiv | OpPow.

(** The operation, 446-465. *)
Definition binop_dec (op : binop_op) (d1 d2 : decimal) : outcome decimal :=
  match op with
  | OpAdd => Ok (dec_add d1 d2)
  | OpSub => Ok (dec_sub d1 d2)
  | OpMul => Ok (dec_mul d1 d2)
  | OpDiv => Ok (fst (dec_div d1 d2))
  | OpPow => dec_pow d1 d2
  end.

(** The result item chosen, 467-488. *)
Definition binop_field (over : bool) (d : decimal) : field :=
  let neg := dv d <? 0 in
  let sign := if neg then 1 else 0 in
  let bitnum := bitlen (dv d) in
  if (bitnum <? 33 - sign) && (dsc d <? 10) then fresh (bin_attr 9 (s8scale (dsc d)) neg) 4
  else if (bitnum <? 65 - sign) && (dsc d <? 19) then fresh (bin_attr 20 (s8scale (dsc d)) neg) 8
  else
    let size := Z.of_nat (ndigits (Z.abs (dv d))) + (if over then 1 else 0) in
    let size := if size <? dsc d then dsc d else size in
    fresh (dsp_attr (u8digits size) (s8scale (dsc d)) neg) (Z.to_nat size).

(** cob_intr_binop, 435-495: arithmetic expressions in function arguments. *)
Definition binop (m : cfg) (over : bool) (f1 : field) (op : binop_op) (f2 : field) : outcome field :=
  do r1 <- set_field m f1;
  do r2 <- set_field m f2;
  do d <- binop_dec op (fst r1) (fst r2);
  do st <- get_field m d (binop_field over d) no_opt;
  Ok (st_f st).

(** The S9(18) result item of INTEGER, INTEGER-PART, MOD. *)
Definition s18 : field := fresh (bin_attr 18 0 true) 8.

(** while (d1.scale > 1) { mpz_tdiv_q_ui (d1.value, d1.value, 10); d1.scale--; }, 526-529. *)
Fixpoint drop_decimals (fuel : nat) (d : decimal) : decimal :=
  match fuel with
  | O => d
  | S g => if 1 <? dsc d then drop_decimals g (mkDec (Z.quot (dv d) 10) (dsc d - 1)) else d
  end.

(** FUNCTION INTEGER, 511-537. *)
Definition intr_integer (m : cfg) (f : field) : outcome field :=
  do r <- set_field m f;
  let d := fst r in
  if 0 <=? dv d then do st <- get_field m d s18 no_opt; Ok (st_f st)
  else
    let d := drop_decimals (Z.to_nat (dsc d - 1)) d in
    let scale := if 0 <? dsc d then 10 else 1 in
    let d := if dv d mod scale =? 0 then d else mkDec (dv d - scale) (dsc d) in
    do st <- get_field m d s18 no_opt; Ok (st_f st).

(** FUNCTION INTEGER-PART, 539-551. *)
Definition intr_integer_part (m : cfg) (f : field) : outcome field :=
  do r <- cob_move m f s18; Ok (snd r).
(** FUNCTION FRACTION-PART, 553-565. *)
Definition intr_fraction_part (m : cfg) (f : field) : outcome field :=
  do r <- cob_move m f (fresh (bin_attr 18 18 true) 8); Ok (snd r).

(** FUNCTION SIGN, 567-586. *)
Definition intr_sign (m : cfg) (col : option (list Z)) (f : field) : outcome field :=
  do z <- set_int m (fresh (bin_attr 8 0 true) 4) 0;
  do r <- cob_cmp m col (item f) (item z);
  let '(c, _, z') := r in
  if c <? 0 then set_int m z' (-1) else if 0 <? c then set_int m z' 1 else Ok z'.

(** FUNCTION FACTORIAL, 1517-1539; mpz_fac_ui by specification. *)
Fixpoint fac (n : nat) : Z := match n with O => 1 | S k => Z.of_nat (S k) * fac k end.
Definition intr_factorial (m : cfg) (f : field) : outcome result :=
  do a <- get_int m f;
  let res := fresh (bin_attr 18 0 false) 8 in
  if fst a <? 0 then do r <- set_int m res 0; Ok (r, true)
  else do st <- get_field m (mkDec (fac (Z.to_nat (fst a))) 0) res no_opt; Ok (st_f st, st_exc st).

(** FUNCTION ABS, 1577-1587: the result item has the attributes of the argument. *)
Definition intr_abs (m : cfg) (f : field) : outcome field :=
  do r <- set_field m f;
  do st <- get_field m (mkDec (Z.abs (dv (fst r))) (dsc (fst r))) (fresh (fa f) (f_size f)) no_opt;
  Ok (st_f st).

(** FUNCTION SUM, 2028-2076. *)
Fixpoint sum_loop (m : cfg) (fs : list field) (scale : Z) (d : decimal) : outcome (Z * decimal) :=
  match fs with
  | [] => Ok (scale, d)
  | f :: r =>
    do x <- set_field m f;
    sum_loop m r (if scale <? a_scale (fa f) then a_scale (fa f) else scale) (dec_add d (fst x))
  end.
Definition sum_field (over : bool) (scale : Z) (d : decimal) : field :=
  let size := Z.of_nat (ndigits (Z.abs (dv d))) + (if over then 1 else 0) in
  if size <? 19 then fresh (bin_attr 18 scale true) 8
  else
    let size := if size <? dsc d then dsc d else size in
    let size := if size <? scale then scale else size in
    fresh (dsp_attr (u8digits size) scale true) (Z.to_nat size).
Definition intr_sum (m : cfg) (over : bool) (fs : list field) : outcome field :=
  do r <- sum_loop m fs 0 (mkDec 0 0);
  do st <- get_field m (snd r) (sum_field over (fst r) (snd r)) no_opt;
  Ok (st_f st).

(** The loops of MIN, MAX, ORD-MIN, ORD-MAX, 2097-2107, 2132-2142, 2157-2164,
    2178-2185: [i] is the next argument, [base] the best one so far; a
    comparison may rewrite the items compared (cob_cmp), hence the state. *)
Fixpoint setnth (i : nat) (x : field) (l : list field) : list field :=
  match l with [] => [] | y :: r => match i with O => x :: r | S j => y :: setnth j x r end end.
Fixpoint best_loop (m : cfg) (col : option (list Z)) (better : Z -> bool) (todo i base : nat) (args : list field)
  : outcome (nat * list field) :=
  match todo with
  | O => Ok (base, args)
  | S t =>
    match nth_error args i, nth_error args base with
    | Some f, Some b =>
      do r <- cob_cmp m col (item f) (item b);
      let '(c, f', b') := r in
      best_loop m col better t (S i) (if better c then i else base) (setnth i f' (setnth base b' args))
    | _, _ => UB
    end
  end.
Definition lt0 (c : Z) : bool := c <? 0.
Definition gt0 (c : Z) : bool := 0 <? c.
(** FUNCTION MIN / MAX: the argument chosen (its position, and the items after). *)
Definition intr_min (m : cfg) (col : option (list Z)) (args : list field) : outcome (nat * list field) :=
  best_loop m col lt0 (length args - 1) 1 0 args.
Definition intr_max (m : cfg) (col : option (list Z)) (args : list field) : outcome (nat * list field) :=
  best_loop m col gt0 (length args - 1) 1 0 args.
(** FUNCTION ORD-MIN / ORD-MAX, 2078-2146. *)
Definition intr_ord (better : Z -> bool) (m : cfg) (col : option (list Z)) (args : list field) : outcome field :=
  if (length args <=? 1)%nat then set_int m res_int 0
  else
    do r <- best_loop m col better (length args - 1) 1 0 args;
    set_int m res_int (Z.of_nat (fst r) + 1).
Definition intr_ord_min := intr_ord lt0.
Definition intr_ord_max := intr_ord gt0.

(** FUNCTION RANGE, 2333-2369 (comparisons as in MIN and MAX, on unmodified items). *)
Definition intr_range (m : cfg) (col : option (list Z)) (args : list field) : outcome field :=
  do r1 <- intr_min m col args;
  do r2 <- intr_max m col args;
  match nth_error args (fst r1), nth_error args (fst r2) with
  | Some lo, Some hi =>
    let scale := if a_scale (fa lo) <? a_scale (fa hi) then a_scale (fa hi) else a_scale (fa lo) in
    do x1 <- set_field m hi;
    do x2 <- set_field m lo;
    do st <- get_field m (dec_sub (fst x1) (fst x2)) (fresh (bin_attr 18 scale true) 8) no_opt;
    Ok (st_f st)
  | _, _ => UB
  end.

(** FUNCTION MOD, 2312-2331: the result is stored in the item that INTEGER
    returned (curr_field). *)
Definition intr_mod (m : cfg) (over : bool) (f1 f2 : field) : outcome field :=
  do q <- binop m over f1 OpDiv f2;
  do i <- intr_integer m q;
  do b <- set_field m f2;
  do x <- set_field m i;
  do a <- set_field m f1;
  do st <- get_field m (dec_sub (fst a) (dec_mul (fst x) (fst b))) i no_opt;
  Ok (st_f st).

(** FUNCTION REM, 2371-2400. *)
Definition intr_rem (m : cfg) (over : bool) (f1 f2 : field) : outcome field :=
  do q <- binop m over f1 OpDiv f2;
  do i <- intr_integer_part m q;
  do b <- set_field m f2;
  do x <- set_field m i;
  do a <- set_field m f1;
  let scale := if a_scale (fa f1) <? a_scale (fa f2) then a_scale (fa f2) else a_scale (fa f1) in
  do st <- get_field m (dec_sub (fst a) (dec_mul (fst x) (fst b))) (fresh (bin_attr 18 scale true) 8) no_opt;
  Ok (st_f st).
