(** MOVE: libcob/move.c 74-1040 (elementary moves) and 1411-1660 (dispatcher),
    with the integer accessors 1880-2060.
    Conventions: an elementary move takes the sending and the receiving item
    and returns both (the sender is written to while its sign is taken off and
    put back).  Sender and receiver are separate storage (overlapping operands
    are outside the model).  National (double byte) receivers and floating
    point are not modelled (NotModelled). *)
From Verif Require Import Base Field Sign Numeric.

(** ** Aligning digits: store_common_region, move.c 99-130 *)

(** move.c 122-126: a space is stored as '0'. *)
Definition sp2zero (c : Z) : Z := if c =? c_sp then c_0 else c.

(** [data] is exactly the [size] bytes passed by the caller.
    The target digits are first set to '0' and then the common region is
    copied; here the two steps are written as one list. *)
Definition store_common_region (f : field) (data : list Z) (scale : Z) : field :=
  let lf1 := - scale in
  let lf2 := - a_scale (fa f) in
  let hf1 := Z.of_nat (length data) + lf1 in
  let hf2 := Z.of_nat (data_size f) + lf2 in
  let lcf := Z.max lf1 lf2 in
  let gcf := Z.min hf1 hf2 in
  if lcf <? gcf then
    let csize := Z.to_nat (gcf - lcf) in
    let p := Z.to_nat (hf1 - gcf) in
    let q := Z.to_nat (hf2 - gcf) in
    put_digits f (repeat c_0 q ++ map sp2zero (firstn csize (skipn p data)) ++
                  repeat c_0 (data_size f - q - csize))
  else put_digits f (repeat c_0 (data_size f)).

(** ** DISPLAY to DISPLAY, move.c 285-297 *)
Definition display_to_display (m : cfg) (f1 f2 : field) : field * field :=
  let '(sign, g1) := get_sign m f1 in
  let g2 := store_common_region f2 (data_digits g1) (a_scale (fa f1)) in
  (put_sign m g1 sign, put_sign m g2 sign).

(** ** Packed decimal *)

(** cob_d2i on an unsigned char: [*p - '0'] stored in an unsigned char n. *)
Definition d2i_u8 (c : Z) : Z := u8 (c - 48).

(** Loop move.c 456-467: nibble number [i] of [data2]. *)
Fixpoint pack_loop (i : nat) (ns : list Z) (d : list Z) {struct ns} : list Z :=
  match ns with
  | [] => d
  | n :: r =>
    let b := (i / 2)%nat in
    if Nat.even i then pack_loop (S i) r (upd b (u8 (16 * n)) d)
    else pack_loop (S i) r (upd b (Z.lor (nth b d 0) n) d)
  end.

(** cob_move_display_to_packed, move.c 418-479.  The loop also reads bytes
    before and after the sending item ([*p == ' '] is tested before the range
    check) but does not use them: they are not modelled.  Reading past the
    item inside [data1, data1 + digits1) - a picture with P has more digits
    than bytes - is UB, and so is writing past the receiver. *)
Definition display_to_packed (m : cfg) (f1 f2 : field) : outcome (field * field) :=
  let '(sign, g1) := get_sign m f1 in
  let digits1 := a_digits (fa f1) in
  let digits2 := a_digits (fa f2) in
  if Z.of_nat (f_size f1) <? digits1 then UB            (* null check loop *)
  else if forallb (Z.eqb 0) (firstn (Z.to_nat digits1) (fd g1)) then
    Ok (g1, set_fd f2 (repeat 0 (f_size f2)))
  else
    let data1 := skipn (data_off (fa f1)) (fd g1) in
    let offset := (1 - Z.to_nat digits2 mod 2)%nat in
    let p0 := (digits1 - a_scale (fa f1)) - (digits2 - a_scale (fa f2)) in
    let inside := fun p => (0 <=? p) && (p <? digits1) in
    let ps := map (fun k => p0 + Z.of_nat k) (seq 0 (Z.to_nat digits2)) in
    if existsb (fun p => inside p && (Z.of_nat (length data1) <=? p)) ps then UB
    else if Z.of_nat (2 * f_size f2) <? digits2 + Z.of_nat offset then UB
    else
      let digit := fun p =>
        if inside p then
          let c := nth (Z.to_nat p) data1 0 in
          if c =? c_sp then 0 else d2i_u8 c
        else 0 in
      let d := pack_loop offset (map digit ps) (repeat 0 (f_size f2)) in
      Ok (put_sign m g1 sign, put_packed_sign (set_fd f2 d) sign).

(** cob_move_packed_to_display, move.c 481-508; buff has 64 bytes. *)
Definition packed_to_display (m : cfg) (f1 f2 : field) : outcome (field * field) :=
  let '(sign, _) := get_sign m f1 in
  let digits := Z.to_nat (a_digits (fa f1)) in
  let offset := (1 - digits mod 2)%nat in
  if (64 <? digits)%nat then UB
  else if (2 * f_size f1 <? digits + offset)%nat then UB
  else
    let nib := fun i =>
      let b := nth (i / 2)%nat (fd f1) 0 in
      48 + (if Nat.even i then hi4 b else lo4 b) in
    let buff := map nib (seq offset digits) in
    let g2 := store_common_region f2 buff (a_scale (fa f1)) in
    Ok (f1, put_sign m g2 sign).

(** ** Binary *)

(** cob_exp10LL, move.c 50-72: 10^0 .. 10^18. *)
Definition EXP10LL_LEN : Z := 19.

(** Loop move.c 622-628 over [i < size]: digits, then zeros.  UB on overflow
    of long long. *)
Fixpoint d2b_loop (size : nat) (val : Z) (data : list Z) {struct size} : outcome Z :=
  match size with
  | O => Ok val
  | S n =>
    let '(x, r) := match data with [] => (0, []) | c :: r => (c - 48, r) end in
    let v10 := val * 10 in
    if is_llb v10 && is_llb (v10 + x) then d2b_loop n (v10 + x) r else UB
  end.

(** cob_move_display_to_binary, move.c 596-645.  [size] is computed in size_t:
    a negative value wraps to almost 2^64 iterations, modelled as UB. *)
Definition display_to_binary (m : cfg) (f1 f2 : field) : outcome (field * field) :=
  let '(sign, g1) := get_sign m f1 in
  let size1 := data_size f1 in
  if forallb (Z.eqb 0) (firstn size1 (fd g1)) then
    Ok (g1, set_fd f2 (repeat 0 (f_size f2)))
  else
    let size := Z.of_nat size1 - a_scale (fa f1) + a_scale (fa f2) in
    if size <? 0 then UB
    else
      do val <- d2b_loop (Z.to_nat size) 0 (data_digits g1);
      let val := if (sign <? 0) && a_sign (fa f2) then - val else val in
      if c_bintrunc m && negb (a_realbin (fa f2)) then
        if EXP10LL_LEN <=? a_digits (fa f2) then UB
        else Ok (put_sign m g1 sign,
                 binary_set_64 f2 (Z.rem val (10 ^ a_digits (fa f2))))
      else Ok (put_sign m g1 sign, binary_set_64 f2 val).

(** cob_move_binary_to_display, move.c 647-681 (cob_binary_mget_int64 is the
    same code as cob_binary_get_int64 of numeric.c). *)
Definition binary_to_display (m : cfg) (f1 f2 : field) : field * field :=
  let n := binary_get_int64 f1 in
  let '(sign, val) :=
    if a_sign (fa f1) then (if n <? 0 then (-1, (- n) mod 2 ^ 64) else (1, n))
    else (1, n mod 2 ^ 64) in
  let buff := if val =? 0 then [] else mpz_get_str val in   (* loop 668-671 *)
  (f1, put_sign m (store_common_region f2 buff (a_scale (fa f1))) sign).

(** ** Alphanumeric *)

(** isspace in the C locale. *)
Definition is_space (c : Z) : bool := (c =? 32) || ((9 <=? c) && (c <=? 13)).

Fixpoint skip_spaces (l : list Z) : list Z :=
  match l with c :: r => if is_space c then skip_spaces r else l | [] => [] end.

(** move.c 244-249. *)
Fixpoint count_int_digits (m : cfg) (l : list Z) : Z :=
  match l with
  | [] => 0
  | c :: r => if c =? c_decpoint m then 0
              else (if is_digitb c then 1 else 0) + count_int_digits m r
  end.

(** move.c 256-260: skip up to and including the next digit, [n] times. *)
Fixpoint skip_digit (l : list Z) : outcome (list Z) :=
  match l with
  | [] => UB
  | c :: r => if is_digitb c then Ok r else skip_digit r
  end.
Fixpoint skip_n_digits (n : nat) (l : list Z) : outcome (list Z) :=
  match n with O => Ok l | S k => do r <- skip_digit l; skip_n_digits k r end.

(** Loop move.c 263-277: the digits written from s2 on ([room] = e2 - s2
    places), None for the error exit. *)
Fixpoint move_digits (m : cfg) (l : list Z) (room : Z) (points : Z) : option (list Z) :=
  match l with
  | [] => Some []
  | c :: r =>
    if room <=? 0 then Some []
    else if is_digitb c then
      option_map (cons c) (move_digits m r (room - 1) points)
    else if c =? c_decpoint m then
      if 0 <? points then None else move_digits m r room (points + 1)
    else if is_space c || (c =? c_numsep m) then move_digits m r room points
    else None
  end.

(** cob_move_alphanum_to_display, move.c 210-283.  All bytes of the receiver,
    including a separate sign position, are set to '0' first. *)
Definition alphanum_to_display (m : cfg) (f1 f2 : field) : outcome (field * field) :=
  let zero := set_fd f2 (repeat c_0 (f_size f2)) in
  let s1 := skip_spaces (fd f1) in
  let '(sign, s1) :=
    match s1 with
    | c :: r => if c =? c_plus then (1, r) else if c =? c_minus then (-1, r) else (0, s1)
    | [] => (0, s1)
    end in
  let count := count_int_digits m s1 in
  let fsize := Z.of_nat (data_size f2) in
  let size := fsize - a_scale (fa f2) in
  do s1' <- (if count <? size then Ok s1
             else skip_n_digits (Z.to_nat (count - size)) s1);
  let start := if count <? size then size - count else 0 in
  match move_digits m s1' (fsize - start) 0 with
  | None => Ok (f1, put_sign m zero 0)
  | Some ds =>
      let d := if fsize <=? start then repeat c_0 (data_size f2)
               else firstn (data_size f2)
                      (repeat c_0 (Z.to_nat start) ++ ds ++ repeat c_0 (data_size f2)) in
      Ok (f1, put_sign m (put_digits zero d) sign)
  end.

(** cob_move_display_to_alphanum, move.c 299-337. *)
Definition display_to_alphanum (m : cfg) (f1 f2 : field) : field * field :=
  let '(sign, g1) := get_sign m f1 in
  let data1 := data_digits g1 in
  let size1 := data_size f1 in
  let size2 := f_size f2 in
  let d2 :=
    if (size2 <=? size1)%nat then firstn size2 data1
    else
      let diff := (size2 - size1)%nat in
      let zero_size := if a_scale (fa f1) <? 0
                       then Nat.min (Z.to_nat (- a_scale (fa f1))) diff else 0%nat in
      data1 ++ repeat c_0 zero_size ++ repeat c_sp (diff - zero_size) in
  (put_sign m g1 sign, set_fd f2 d2).

(** cob_move_alphanum_to_alphanum, move.c 339-368. *)
Definition alphanum_to_alphanum (f1 f2 : field) : field * field :=
  let size1 := f_size f1 in
  let size2 := f_size f2 in
  let d2 :=
    if (size2 <=? size1)%nat then
      if a_just (fa f2) then firstn size2 (skipn (size1 - size2) (fd f1))
      else firstn size2 (fd f1)
    else
      if a_just (fa f2) then repeat c_sp (size2 - size1) ++ fd f1
      else fd f1 ++ repeat c_sp (size2 - size1) in
  (f1, set_fd f2 d2).

(** ** Edited receivers *)

(** One character of a picture at a time: the nested loops
    [for (p = pic; *p; ...) for (; n > 0; n--)]. *)
Definition expand_pic (pic : list (Z * Z)) : list Z :=
  flat_map (fun cn => repeat (fst cn) (Z.to_nat (snd cn))) pic.

(** cob_move_alphanum_to_edited, move.c 992-1034 (A 65, X 88, 9 57, 0 48, / 47,
    B 66).  UB if the picture is longer than the item. *)
Fixpoint alnum_edit (pic src : list Z) : list Z :=
  match pic with
  | [] => []
  | c :: r =>
    if (c =? 65) || (c =? 88) || (c =? 57) then
      match src with
      | [] => c_sp :: alnum_edit r []
      | x :: s => x :: alnum_edit r s
      end
    else if (c =? 48) || (c =? 47) then c :: alnum_edit r src
    else if c =? 66 then c_sp :: alnum_edit r src
    else 63 :: alnum_edit r src
  end.
Definition alphanum_to_edited (m : cfg) (f1 f2 : field) : outcome (field * field) :=
  let '(sign, g1) := get_sign m f1 in
  let pic := expand_pic (a_pic (fa f2)) in
  if (f_size f2 <? length pic)%nat then UB
  else
    let d := alnum_edit pic (data_digits g1) in
    Ok (put_sign m g1 sign, set_fd f2 (d ++ skipn (length d) (fd f2))).
