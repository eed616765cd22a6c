(** Specification vocabulary for numbers: what a decimal and what the bytes of
    a numeric item denote, independently of the run-time code.
    Rationals are the standard library's Q. *)
From Coq Require Import QArith Qabs.
From Verif Require Import Base Field.
Local Open Scope Z_scope.

(** The rational v * 10^(-s). *)
Definition rat (v s : Z) : Q := (inject_Z v * (10 # 1) ^ (- s))%Q.

(** [w * 10^(-s)] is [q] truncated towards zero to [s] decimal places. *)
Definition trunc_at (q : Q) (s w : Z) : Prop :=
  (Qabs (rat w s) <= Qabs q)%Q /\ (Qabs q < rat (Z.abs w + 1) s)%Q /\
  (0 <= rat w s * q)%Q.

(** [w * 10^(-s)] is [q] rounded to [s] places, ties away from zero:
    |w| - 1/2 <= |q| * 10^s < |w| + 1/2, and w has the sign of q. *)
Definition round_at (q : Q) (s w : Z) : Prop :=
  (rat (2 * Z.abs w - 1) s <= (2 # 1) * Qabs q)%Q /\
  ((2 # 1) * Qabs q < rat (2 * Z.abs w + 1) s)%Q /\
  (0 <= rat w s * q)%Q.

(** Number written by a list of decimal digits (0..9), most significant first. *)
Fixpoint digits_value_aux (acc : Z) (ds : list Z) : Z :=
  match ds with [] => acc | d :: r => digits_value_aux (10 * acc + d) r end.
Definition digits_value (ds : list Z) : Z := digits_value_aux 0 ds.

Definition is_dig (d : Z) : Prop := 0 <= d <= 9.

(** Signed value of sign-and-magnitude digits. *)
Definition signed_value (neg : bool) (ds : list Z) : Z :=
  if neg then - digits_value ds else digits_value ds.

(** ** Zoned decimal (USAGE DISPLAY) representation *)

(** The character for digit [d] in the position carrying the sign. *)
Definition overpunch (ebcdic neg : bool) (d : Z) : Z :=
  if ebcdic then
    nth (Z.to_nat d)
      (if neg then [125; 74; 75; 76; 77; 78; 79; 80; 81; 82]   (* }JKLMNOPQR *)
       else [123; 65; 66; 67; 68; 69; 70; 71; 72; 73]) 0        (* {ABCDEFGHI *)
  else if neg then 112 + d                                       (* p..y *)
  else 48 + d.                                                   (* 0..9 *)

Definition digit_char (d : Z) : Z := 48 + d.
Definition sign_char (neg : bool) : Z := if neg then 45 else 43.

(** The bytes of a DISPLAY item holding digits [ds] with the given sign. *)
Definition zoned (ebcdic : bool) (a : fattr) (neg : bool) (ds : list Z) : list Z :=
  if negb (a_sign a) then map digit_char ds
  else if a_sep a then
    if a_lead a then sign_char neg :: map digit_char ds
    else map digit_char ds ++ [sign_char neg]
  else if a_lead a then
    match ds with [] => [] | d :: r => overpunch ebcdic neg d :: map digit_char r end
  else map digit_char (removelast ds) ++ [overpunch ebcdic neg (last ds 0)].

(** ** Packed decimal (COMP-3) representation *)

Fixpoint pack_nibbles (l : list Z) : list Z :=
  match l with
  | a :: b :: r => 16 * a + b :: pack_nibbles r
  | _ => []
  end.

Definition packed_sign_nibble (signed neg : bool) : Z :=
  if signed then (if neg then 13 else 12) else 15.

(** Digits padded to an odd count with a leading zero nibble, then the sign. *)
Definition packed (a : fattr) (neg : bool) (ds : list Z) : list Z :=
  pack_nibbles ((if Nat.even (length ds) then [0] else []) ++ ds ++
                [packed_sign_nibble (a_sign a) neg]).

(** ** Binary representation *)

Fixpoint le_value (l : list Z) : Z :=
  match l with [] => 0 | b :: r => b + 256 * le_value r end.

(** Unsigned value of the bytes, most significant first if [swap] (big endian
    items on a little endian machine), least significant first otherwise. *)
Definition bin_unsigned (swap : bool) (l : list Z) : Z :=
  le_value (if swap then rev l else l).

(** Two's complement value. *)
Definition bin_value (signed swap : bool) (l : list Z) : Z :=
  let u := bin_unsigned swap l in
  let w := 256 ^ Z.of_nat (length l) in
  if signed && (w / 2 <=? u) then u - w else u.

(** ** What it means for the bytes of an item to denote a number *)

(** [denotes ebc f v]: the item [f] holds the number v * 10^(-scale f). *)
Inductive denotes (ebcdic : bool) : field -> Z -> Prop :=
| den_display : forall a neg ds,
    a_type a = TDisplay -> ds <> [] -> Forall is_dig ds ->
    (a_sign a = false -> neg = false) ->
    (a_sep a = true -> a_sign a = true) ->
    denotes ebcdic (mkField a (zoned ebcdic a neg ds)) (signed_value neg ds)
| den_packed : forall a neg ds,
    a_type a = TPacked -> ds <> [] -> Forall is_dig ds ->
    Z.of_nat (length ds) = a_digits a ->
    (a_sign a = false -> neg = false) ->
    denotes ebcdic (mkField a (packed a neg ds)) (signed_value neg ds)
| den_binary : forall a l,
    a_type a = TBinary -> (1 <= length l <= 8)%nat -> bytes_ok l ->
    denotes ebcdic (mkField a l) (bin_value (a_sign a) (a_swap a) l).
