(** Arithmetic statements as cobc compiles them, and the decimal registers they
    run on: cobc/typeck.c 2217-2490, cobc/parser.y 4260-4280, 4510-4515,
    4705-4720, 5384-5392, 6104-6114, cobc/tree.c 629-675, cobc/codegen.c 430-447,
    589-612, 747-960, 5129-5149. *)
From Verif Require Import Base Field Sign Decimal Numeric PackedInt DispInt BinOps Move Edited MoveAll EditStore.

(** ** Source *)
Inductive aop := AAdd | ASub | AMul | ADiv | APow.

(** Operands: ZERO, a numeric literal (sign -1, 0 or 1, digits, scale), the
    number-th item of the program, or an item that holds a function's result. *)
Inductive expr :=
| EZero
| ELit (sign : Z) (ds : list Z) (scale : Z)
| ERef (i : nat)
| EFun (i : nat)
| EBin (op : aop) (x y : expr).

(** The field made of a literal, codegen.c 438-443, 508-511, 600-608: its digits
    and, if it has a sign, a trailing separate sign. *)
Definition lit_field (sign : Z) (ds : list Z) (scale : Z) : field :=
  mkField (mkAttr TDisplay (Z.of_nat (length ds)) scale (negb (sign =? 0)) (negb (sign =? 0)) false false false false false [])
          (map (fun d => 48 + d) ds ++ (if sign =? 0 then [] else [if sign <? 0 then 45 else 43])).

(** cb_get_int, tree.c, on a literal. *)
Definition lit_int (sign : Z) (ds : list Z) : Z :=
  let v := fold_left (fun a d => a * 10 + d) ds 0 in if sign <? 0 then - v else v.

(** ** Integers in C expressions *)

(** cb_fits_int, tree.c 629-675, for a numeric item of usage BINARY, COMP-5,
    COMP-X, DISPLAY or PACKED-DECIMAL. *)
Definition fits_int (f : field) : bool :=
  match a_type (fa f) with
  | TBinary => (a_scale (fa f) <=? 0) && (f_size f <=? 4)%nat
  | TDisplay => (f_size f <? 10)%nat && (a_scale (fa f) <=? 0)
  | TPacked => (a_scale (fa f) <=? 0) && (a_digits (fa f) <? 10)
  | _ => false
  end.

(** output_integer, codegen.c 747-960 (little endian, COB_NON_ALIGNED not
    defined), for an item that fits: the value of the C expression and the item
    (cob_get_int removes and restores the sign).  A binary item of 1, 2 or 4
    bytes is read directly, whatever its scale. *)
Definition output_integer (m : cfg) (f : field) : outcome (Z * field) :=
  let sc := a_scale (fa f) in
  let size := Z.of_nat (f_size f) in
  match a_type (fa f) with
  | TDisplay =>
      if (0 <=? sc) && (0 <? size - sc) && (size - sc <=? 9) && negb (a_sign (fa f)) then
        do v <- get_numdisp 0 (firstn (Z.to_nat (size - sc)) (fd f)); Ok (v, f)
      else get_int m f
  | TPacked =>
      if (sc =? 0) && (a_digits (fa f) <? 10) then do v <- get_packed_int f; Ok (v, f)
      else get_int m f
  | TBinary =>
      if (f_size f =? 1)%nat || (f_size f =? 2)%nat || (f_size f =? 4)%nat || (f_size f =? 8)%nat then
        let u := le_u (if a_swap (fa f) then rev (fd f) else fd f) in
        Ok (if a_sign (fa f) then as_signed (f_size f) u else u, f)
      else do r <- get_int m f; Ok (if a_sign (fa f) then fst r else fst r mod 2 ^ 32, snd r)
  | _ => get_int m f
  end.

(** ** Code *)
Inductive instr :=
| ISetInt (d : nat) (n : Z)                       (* cob_decimal_set_int (d, n) *)
| ISetIntOf (d : nat) (i : nat)                   (* cob_decimal_set_int/uint (d, integer of item i) *)
| ISetField (d : nat) (i : nat)                   (* cob_decimal_set_field (d, item i) *)
| ISetLit (d : nat) (f : field)                   (* cob_decimal_set_field (d, literal) *)
| IOp (op : aop) (d e : nat)                      (* cob_decimal_add (d, e), ... *)
| IGet (d : nat) (i : nat) (o : opts).            (* cob_decimal_get_field (d, item i, o) *)

(** decimal_expand, typeck.c 2306-2380.  [next] is current_program->decimal_index.
    Not modelled: cob_check_numeric calls (compiled with -debug). *)
Fixpoint expand (items : list field) (next d : nat) (e : expr) : list instr :=
  match e with
  | EZero => [ISetInt d 0]
  | ELit s ds sc =>
      if (length ds <? 10)%nat && (sc =? 0) then [ISetInt d (lit_int s ds)] else [ISetLit d (lit_field s ds sc)]
  | ERef i => if fits_int (nth i items (mkField alnum_attr [])) then [ISetIntOf d i] else [ISetField d i]
  | EFun i => [ISetField d i]
  | EBin op x y => expand items (S next) d x ++ expand items (S next) next y ++ [IOp op d next]
  end.

(** build_decimal_assign, typeck.c 2387-2428. *)
Definition decimal_assign (items : list field) (targets : list (nat * opts)) (op : option aop) (e : expr) : list instr :=
  expand items 1 0 e ++
  match op with
  | None => map (fun t => IGet 0 (fst t) (snd t)) targets
  | Some k => flat_map (fun t => expand items 2 1 (ERef (fst t)) ++ [IOp k 1 0; IGet 1 (fst t) (snd t)]) targets
  end.

(** ** Execution *)
(** Decimal registers, items of the program (distinct storage), and whether a
    size exception has been raised. *)
Record mach := mkMach { mr : nat -> decimal; mi : list field; mx : bool }.

Fixpoint set_nth {A} (i : nat) (a : A) (l : list A) : list A :=
  match l with [] => [] | x :: r => match i with O => a :: r | S j => x :: set_nth j a r end end.
Definition set_reg (r : nat -> decimal) (d : nat) (v : decimal) : nat -> decimal :=
  fun k => if (k =? d)%nat then v else r k.
Definition item (s : mach) (i : nat) : field := nth i (mi s) (mkField alnum_attr []).

(** The operations, numeric.c 1036-1101: new contents of both operands (the
    second is aligned by addition and subtraction), and whether a division by
    zero was detected. *)
Definition reg_op (op : aop) (d1 d2 : decimal) : outcome (decimal * decimal * bool) :=
  let d2' := if nan_in d1 d2 then d2 else snd (align_decimal d1 d2) in
  match op with
  | AAdd => Ok (dec_add d1 d2, d2', false)
  | ASub => Ok (dec_sub d1 d2, d2', false)
  | AMul => Ok (dec_mul d1 d2, d2, false)
  | ADiv => Ok (fst (dec_div d1 d2), d2, snd (dec_div d1 d2))
  | APow => do r <- dec_pow d1 d2; Ok (r, d2, false)
  end.

(** cob_decimal_get_field, numeric.c 970-1032, for any receiver. *)
Definition store_result (m : cfg) (d : decimal) (f : field) (o : opts) : outcome stored :=
  match a_type (fa f) with
  | TNumEdited => get_field_edited m false d f o
  | _ => get_field m d f o
  end.

Definition step (m : cfg) (s : mach) (c : instr) : outcome mach :=
  match c with
  | ISetInt d n => Ok (mkMach (set_reg (mr s) d (mkDec n 0)) (mi s) (mx s))
  | ISetIntOf d i =>
      do r <- output_integer m (item s i);
      let n := if a_sign (fa (item s i)) then s32 (fst r) else fst r mod 2 ^ 32 in
      Ok (mkMach (set_reg (mr s) d (mkDec n 0)) (set_nth i (snd r) (mi s)) (mx s))
  | ISetField d i =>
      do r <- set_field m (item s i);
      Ok (mkMach (set_reg (mr s) d (fst r)) (set_nth i (snd r) (mi s)) (mx s))
  | ISetLit d f =>
      do r <- set_field m f;
      Ok (mkMach (set_reg (mr s) d (fst r)) (mi s) (mx s))
  | IOp op d e =>
      do r <- reg_op op (mr s d) (mr s e);
      let '(d1, d2, z) := r in
      Ok (mkMach (set_reg (set_reg (mr s) e d2) d d1) (mi s) (mx s || z))
  | IGet d i o =>
      do st <- store_result m (mr s d) (item s i) o;
      Ok (mkMach (mr s) (set_nth i (st_f st) (mi s)) (mx s || st_exc st))
  end.
Fixpoint exec (m : cfg) (s : mach) (l : list instr) : outcome mach :=
  match l with [] => Ok s | c :: r => do s' <- step m s c; exec m s' r end.

(** ** Statements *)

(** build_store_option, typeck.c 2217-2256.  [native]: usage COMP-5 or COMP-X;
    [on], [not_on]: the statement has ON SIZE ERROR, NOT ON SIZE ERROR. *)
Definition store_option (m : cfg) (round native on not_on : bool) : opts :=
  if native || negb (c_bintrunc m) then mkOpts round on false
  else mkOpts round (on || not_on) (negb (on || not_on)).

(** cb_build_binary_list: ((x1 op x2) op x3) ... *)
Definition binary_list (op : aop) (x : expr) (xs : list expr) : expr := fold_left (EBin op) xs x.

(** The field of an operand that is not an operation. *)
Definition operand (s : mach) (e : expr) : option field :=
  match e with
  | ERef j | EFun j => Some (item s j)
  | ELit sg ds sc => Some (lit_field sg ds sc)
  | _ => None
  end.

(** cb_build_add, cb_build_sub, typeck.c 2970-3043, with store options other
    than 0 or an operand that does not fit an int: cob_add (v, n, opt),
    cob_sub (v, n, opt).  The optimised forms for options 0 (C11-C14, C50) are
    not repeated here, nor is the constant ZERO as the only operand. *)
Definition fits_operand (s : mach) (e : expr) : bool :=
  match e with
  | ERef j => fits_int (item s j)
  | ELit _ ds sc => (sc <=? 0) && (length ds <? 10)%nat
  | _ => false
  end.
Definition add_to (m : cfg) (sub : bool) (e : expr) (s : mach) (t : nat * opts) : outcome mach :=
  if negb (opt_nonzero (snd t)) && fits_operand s e then NotModelled else
  match operand s e with
  | Some f2 =>
      do st <- (if sub then cob_sub m (item s (fst t)) f2 (snd t) else cob_add m (item s (fst t)) f2 (snd t));
      Ok (mkMach (mr s) (set_nth (fst t) (st_f st) (mi s)) (mx s || st_exc st))
  | None => NotModelled
  end.
Fixpoint add_all (m : cfg) (sub : bool) (e : expr) (s : mach) (ts : list (nat * opts)) : outcome mach :=
  match ts with [] => Ok s | t :: r => do s' <- add_to m sub e s t; add_all m sub e s' r end.

(** cb_emit_arithmetic, typeck.c 2430-2488 (without cob_check_numeric), and the
    execution of the code it emits. *)
Definition is_op (e : expr) : bool := match e with EBin _ _ _ => true | _ => false end.
Definition emit_arithmetic (m : cfg) (ts : list (nat * opts)) (op : option aop) (e : expr) (s : mach) : outcome mach :=
  match op with
  | Some AAdd => if is_op e then exec m s (decimal_assign (mi s) ts op e) else add_all m false e s ts
  | Some ASub => if is_op e then exec m s (decimal_assign (mi s) ts op e) else add_all m true e s ts
  | _ => exec m s (decimal_assign (mi s) ts op e)
  end.

(** The statements, parser.y 4265-4275, 4510-4515, 4705-4718, 5384-5392, 6104-6114:
    ADD x xs TO ts; ADD x xs GIVING ts; SUBTRACT x xs FROM ts; SUBTRACT xs FROM y
    GIVING ts; MULTIPLY x BY ts; MULTIPLY x BY y GIVING ts; DIVIDE x INTO ts;
    DIVIDE x BY y GIVING ts (= DIVIDE y INTO x GIVING ts); COMPUTE ts = e. *)
Inductive stmt :=
| SAdd (x : expr) (xs : list expr) (ts : list (nat * opts))
| SAddGiving (x : expr) (xs : list expr) (ts : list (nat * opts))
| SSub (x : expr) (xs : list expr) (ts : list (nat * opts))
| SSubGiving (xs : list expr) (y : expr) (ts : list (nat * opts))
| SMul (x : expr) (ts : list (nat * opts))
| SMulGiving (x y : expr) (ts : list (nat * opts))
| SDiv (x : expr) (ts : list (nat * opts))
| SDivGiving (x y : expr) (ts : list (nat * opts))
| SCompute (ts : list (nat * opts)) (e : expr).
Definition run (m : cfg) (st : stmt) (s : mach) : outcome mach :=
  match st with
  | SAdd x xs ts => emit_arithmetic m ts (Some AAdd) (binary_list AAdd x xs) s
  | SAddGiving x xs ts => emit_arithmetic m ts None (binary_list AAdd x xs) s
  | SSub x xs ts => emit_arithmetic m ts (Some ASub) (binary_list AAdd x xs) s
  | SSubGiving xs y ts => emit_arithmetic m ts None (binary_list ASub y xs) s
  | SMul x ts => emit_arithmetic m ts (Some AMul) x s
  | SMulGiving x y ts => emit_arithmetic m ts None (EBin AMul x y) s
  | SDiv x ts => emit_arithmetic m ts (Some ADiv) x s
  | SDivGiving x y ts => emit_arithmetic m ts None (EBin ADiv x y) s
  | SCompute ts e => emit_arithmetic m ts None e s
  end.
