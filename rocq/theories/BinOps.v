(** The width-specialised helpers on binary items that cobc calls: libcob/codegen.h
    290-2679 (cob_cmp_*_binary, cob_add_*_binary, cob_sub_*_binary, their align
    and swp variants, cob_setswp_*_binary) and their choice in cobc/typeck.c
    100-330, 2579-2620, 2852-2970, 5860-5890.
    All 128 functions are instances of the templates below (tools/check_codegen.py
    compares the text of each with its template).  Little endian machine, two's
    complement, arithmetic right shift and signed left shift as gcc defines
    them.  The align variants and the ALLOW_MISALIGNED branches load and store
    the same bytes; alignment faults are not modelled. *)
From Verif Require Import Base Field Numeric.

(** The C type of the local: short, int, long long for 2, 3-4, 5-8 bytes. *)
Definition container (w : nat) : nat :=
  match w with 1 => 1 | 2 => 2 | 3 | 4 => 4 | _ => 8 end%nat.
Definition as_signed (c : nat) (u : Z) : Z :=
  if 256 ^ Z.of_nat c / 2 <=? u then u - 256 ^ Z.of_nat c else u.
Definition pad (w : nat) : list Z := repeat 0 (container w - w).

(** The local after the bytes of the item are copied to it.
    Native, u: the low bytes (e.g. codegen.h 560-577); s: the high bytes, then
    val >>= 8 * (bytes not used) (580-595). *)
Definition load_native (sg : bool) (p : list Z) : Z :=
  let w := length p in let c := container w in
  if sg then Z.shiftr (as_signed c (le_u (pad w ++ p))) (8 * Z.of_nat (c - w))
  else le_u (p ++ pad w).
(** Swapped, for the compares: u: the high bytes, then COB_BSWAP (1611-1625);
    s: the low bytes, COB_BSWAP, then the shift (1628-1640). *)
Definition load_swapped (sg : bool) (p : list Z) : Z :=
  let w := length p in let c := container w in
  if sg then Z.shiftr (as_signed c (le_u (rev (p ++ pad w)))) (8 * Z.of_nat (c - w))
  else le_u (rev (pad w ++ p)).
(** Swapped, for add and subtract: the bytes are copied in the reverse order
    (1887-1918); (p[0] << 8) | p[1] for 2 and 4 bytes (1853-1884, 1921-1956) is
    the same. *)
Definition load_reversed (sg : bool) (p : list Z) : Z := load_native sg (rev p).

(** cob_cmp_*: the return value; n is an int. *)
Definition cmp3 (val n : Z) : Z := if val <? n then -1 else if n <? val then 1 else 0.
Definition cmp_binary (sg swap : bool) (p : list Z) (n : Z) : Z :=
  if negb sg && (n <? 0) then 1
  else cmp3 (if swap && negb (length p =? 1)%nat then load_swapped sg p else load_native sg p) n.

(** n += val: in int for char and short, in the type of n otherwise; signed
    overflow is undefined.  The result is converted to the type of n: its bytes. *)
Definition arith (sg : bool) (w : nat) (r : Z) : outcome Z :=
  let c := container w in
  if (c <? 4)%nat then if is_intb r then Ok (r mod 256 ^ Z.of_nat c) else UB
  else if sg then if (- (256 ^ Z.of_nat c / 2) <=? r) && (r <? 256 ^ Z.of_nat c / 2) then Ok (r mod 256 ^ Z.of_nat c) else UB
  else Ok (r mod 256 ^ Z.of_nat c).
(** The low bytes of the local back to the item, in order or reversed. *)
Definition store (swap : bool) (w : nat) (r : Z) : list Z :=
  let bs := firstn w (le_bytes (container w) r) in if swap then rev bs else bs.
Definition arith_binary (sg swap : bool) (p : list Z) (f : Z -> Z) : outcome (list Z) :=
  do r <- arith sg (length p) (f (if swap then load_reversed sg p else load_native sg p));
  Ok (store swap (length p) r).
Definition add_binary (sg swap : bool) (p : list Z) (val : Z) : outcome (list Z) := arith_binary sg swap p (fun n => n + val).
Definition sub_binary (sg swap : bool) (p : list Z) (val : Z) : outcome (list Z) := arith_binary sg swap p (fun n => n - val).
(** cob_setswp_*: n = val (conversion to the type of n, never undefined). *)
Definition setswp_binary (w : nat) (val : Z) : list Z := store true w (val mod 256 ^ Z.of_nat (container w)).
