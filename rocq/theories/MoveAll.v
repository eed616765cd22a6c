(** The MOVE dispatcher: libcob/move.c 1349-1660, and the integer accessors
    move.c 1857-2052. *)
From Verif Require Import Base Field Sign Numeric Move Edited.

(** Attributes of the temporary of indirect_move, move.c 1349-1366. *)
Definition temp_attr (size : Z) (scale : Z) : fattr :=
  mkAttr TDisplay size scale true false false false false false false [].
(** The 64-byte buffer is uninitialised; every elementary move to a DISPLAY
    item overwrites all of it, so its initial contents do not matter (0 here). *)
Definition temp_field (size scale : Z) : field :=
  mkField (temp_attr size scale) (repeat 0 (Z.to_nat size)).

(** Moves of a numeric DISPLAY item, move.c 1541-1583, for receivers other than
    national and floating point ones. *)
Definition move_from_display (m : cfg) (src dst : field) : outcome (field * field) :=
  match a_type (fa dst) with
  | TFloat | TDouble | TNational | TNatEdited | TNatAll => NotModelled
  | TDisplay => Ok (display_to_display m src dst)
  | TPacked => display_to_packed m src dst
  | TBinary => display_to_binary m src dst
  | TNumEdited => display_to_edited m src dst
  | TAlnumEdited =>
      if (a_scale (fa src) <? 0) || (a_digits (fa src) <? a_scale (fa src)) then
        let size := Z.max (a_digits (fa src)) (a_scale (fa src)) in
        if 64 <? size then UB
        else
          let '(s, t) := display_to_display m src
                           (temp_field size (Z.max 0 (a_scale (fa src)))) in
          do r <- alphanum_to_edited m t dst; Ok (s, snd r)
      else alphanum_to_edited m src dst
  | _ => Ok (display_to_alphanum m src dst)
  end.

(** indirect_move, move.c 1349-1366 (data[64]). *)
Definition indirect_move (m : cfg) (func : field -> field -> outcome (field * field))
    (src dst : field) (size scale : Z) : outcome (field * field) :=
  if 64 <? size then UB
  else if size <=? 0 then NotModelled
  else
    do st <- func src (temp_field size scale);
    do r <- move_from_display m (snd st) dst;
    Ok (fst st, snd r).

(** Elementary moves, move.c 1539-1655. *)
Definition move_elementary (m : cfg) (src dst : field) : outcome (field * field) :=
  match a_type (fa src) with
  | TDisplay => move_from_display m src dst
  | TPacked =>
      match a_type (fa dst) with
      | TDisplay => packed_to_display m src dst
      | _ => indirect_move m (packed_to_display m) src dst (a_digits (fa src)) (a_scale (fa src))
      end
  | TBinary =>
      match a_type (fa dst) with
      | TDisplay => Ok (binary_to_display m src dst)
      | TBinary | TPacked | TNumEdited | TFloat | TDouble =>
          indirect_move m (fun a b => Ok (binary_to_display m a b)) src dst 20 (a_scale (fa src))
      | _ => indirect_move m (fun a b => Ok (binary_to_display m a b)) src dst
               (a_digits (fa src)) (a_scale (fa src))
      end
  | TNumEdited =>
      match a_type (fa dst) with
      | TDisplay => edited_to_display m src dst
      | TPacked | TBinary | TNumEdited | TFloat | TDouble =>
          indirect_move m (edited_to_display m) src dst 36 18
      | TAlnumEdited => alphanum_to_edited m src dst
      | TNational | TNatEdited | TNatAll => NotModelled
      | _ => Ok (alphanum_to_alphanum src dst)
      end
  | TFloat | TDouble => NotModelled
  | _ =>
      match a_type (fa dst) with
      | TDisplay => alphanum_to_display m src dst
      | TPacked | TBinary | TNumEdited | TFloat | TDouble =>
          indirect_move m (alphanum_to_display m) src dst 36 18
      | TAlnumEdited => alphanum_to_edited m src dst
      | TNational | TNatEdited | TNatAll => NotModelled
      | _ => Ok (alphanum_to_alphanum src dst)
      end
  end.

Definition is_national (t : ftype) : bool :=
  match t with TNational | TNatEdited | TNatAll => true | _ => false end.

(** The figurative constant SPACE (cob_space: ALL ' '). *)
Definition space_attr : fattr :=
  mkAttr TAlnumAll 0 0 false false false false false false false [].
Definition alnum_attr : fattr :=
  mkAttr TAlnum 0 0 false false false false false false false [].

(** The part of cob_move after the test for ALL literals, move.c 1488-1660.
    A sender of size 0 is replaced by SPACE; as that test is made after the
    ALL dispatch, SPACE is moved as an ordinary alphanumeric item of one byte. *)
Definition move_not_all (m : cfg) (src dst : field) : outcome (field * field) :=
  if (f_size dst =? 0)%nat then Ok (src, dst)
  else if is_national (a_type (fa dst)) || is_national (a_type (fa src)) then NotModelled
  else
    let src1 := if (f_size src =? 0)%nat then mkField space_attr [32] else src in
    let r :=
      match a_type (fa src1), a_type (fa dst) with
      | TGroup, _ | _, TGroup => Ok (alphanum_to_alphanum src1 dst)
      | _, _ => move_elementary m src1 dst
      end in
    do r <- r; Ok (if (f_size src =? 0)%nat then src else fst r, snd r).

(** COB_FIELD_IS_NUMERIC (type & 0x10): display, binary, packed, float, double
    (numeric edited is 0x24; common.h 196-214, 254). *)
Definition is_numeric_type (t : ftype) : bool :=
  match t with
  | TDisplay | TBinary | TPacked | TFloat | TDouble => true | _ => false
  end.

(** First byte of a Shift-JIS double byte character, move.c 1441-1444. *)
Definition sjis_lead (c : Z) : bool :=
  ((129 <=? c) && (c <=? 159)) || ((224 <=? c) && (c <=? 252)).

(** cob_move_all, move.c 1368-1450, for non-national receivers.  The buffer
    lastdata is grown to the needed size and completely overwritten. *)
Definition fill_all (lit : list Z) (n : nat) : list Z :=
  map (fun i => nth (i mod length lit) lit 0) (seq 0 n).
Definition move_all (m : cfg) (src dst : field) : outcome (field * field) :=
  if is_national (a_type (fa dst)) then NotModelled
  else
    let num := is_numeric_type (a_type (fa dst)) in
    let digcount := if num then 18%nat else f_size dst in
    let attr := if num then mkAttr TDisplay 18 0 false false false false false false false []
                else alnum_attr in
    do data <-
      (if (f_size src =? 1)%nat then Ok (repeat (nth 0 (fd src) 0) digcount)
       else if (f_size src =? 0)%nat then UB            (* i % 0 *)
       else if (digcount =? 0)%nat then UB              (* lastdata[-1] *)
       else
         let l := fill_all (fd src) digcount in
         Ok (if sjis_lead (nth (digcount - 1) l 0) then upd (digcount - 1) c_sp l else l));
    do r <- move_not_all m (mkField attr data) dst;
    Ok (src, snd r).

(** cob_move, move.c 1452-1660 (Shift-JIS build: I18N_UTF8 not defined). *)
Definition cob_move (m : cfg) (src dst : field) : outcome (field * field) :=
  match a_type (fa src) with
  | TAlnumAll => move_all m src dst
  | TNatAll => NotModelled
  | _ => move_not_all m src dst
  end.

(** ** Integer access, move.c 1857-2052 *)

(** cob_set_int: a 4-byte native signed binary temporary of 9 digits. *)
Definition int_attr (digits : Z) : fattr :=
  mkAttr TBinary digits 0 true false false false false false false [].
Definition set_int (m : cfg) (f : field) (n : Z) : outcome field :=
  do r <- cob_move m (mkField (int_attr 9) (le_bytes 4 (n mod 2 ^ 32))) f; Ok (snd r).

(** Loop of cob_packed_get_int / _long_long, move.c 1869-1877: nibbles
    [offset .. digits - scale + offset).  UB outside the item or on overflow. *)
Fixpoint packed_get_loop (inrange : Z -> bool) (d : list Z) (i : nat) (n : nat) (val : Z) : outcome Z :=
  match n with
  | O => Ok val
  | S k =>
    if (length d <=? i / 2)%nat then UB
    else
      let b := nth (i / 2) d 0 in
      let x := if Nat.even i then hi4 b else lo4 b in
      if inrange (val * 10) && inrange (val * 10 + x)
      then packed_get_loop inrange d (S i) k (val * 10 + x) else UB
  end.
Definition packed_get_gen (inrange : Z -> bool) (m : cfg) (f : field) : outcome Z :=
  let sign := fst (get_sign m f) in
  let D := a_digits (fa f) in
  let offset := (1 - Z.to_nat D mod 2)%nat in
  if D - a_scale (fa f) + Z.of_nat offset <? 0 then UB    (* wraps to a huge size_t *)
  else
    do val <- packed_get_loop inrange (fd f) offset (Z.to_nat (D - a_scale (fa f))) 0;
    Ok (if sign <? 0 then - val else val).

(** Loop of cob_display_get_int / _long_long, move.c 1920-1945: skip zeros,
    then accumulate.  [n] bytes remain. *)
Fixpoint display_get_loop (inrange : Z -> bool) (l : list Z) (val : Z) : outcome Z :=
  match l with
  | [] => Ok val
  | c :: r =>
    let x := c - 48 in
    if inrange (val * 10) && inrange (val * 10 + x)
    then display_get_loop inrange r (val * 10 + x) else UB
  end.
Fixpoint drop_zeros (l : list Z) : list Z :=
  match l with c :: r => if c =? 48 then drop_zeros r else l | [] => [] end.

(** [tablen]: number of entries of cob_exp10 (10) or cob_exp10LL (19). *)
Definition display_get_gen (inrange : Z -> bool) (tablen : Z) (m : cfg) (f : field)
  : outcome (Z * field) :=
  let '(sign, g) := get_sign m f in
  let data := data_digits g in
  let sc := a_scale (fa f) in
  do val <-
    (if sc <? 0 then
       do v <- display_get_loop inrange (drop_zeros data) 0;
       if tablen <=? - sc then UB
       else if inrange (v * 10 ^ (- sc)) then Ok (v * 10 ^ (- sc)) else UB
     else if Z.of_nat (length data) <? sc then UB   (* size wraps, reads past the item *)
     else
       (* positions already skipped as zeros beyond the end give an empty loop *)
       display_get_loop inrange
         (drop_zeros (firstn (length data - Z.to_nat sc) data)) 0);
  Ok (if sign <? 0 then - val else val, put_sign m g sign).

(** cob_get_int, move.c 1994-2021, for numeric items: the value and the item. *)
Definition s32 (n : Z) : Z :=
  let u := n mod 2 ^ 32 in if u <? 2 ^ 31 then u else u - 2 ^ 32.
Definition get_int (m : cfg) (f : field) : outcome (Z * field) :=
  match a_type (fa f) with
  | TDisplay => display_get_gen is_intb 10 m f
  | TBinary => Ok (s32 (binary_get_int64 f), f)
  | TPacked => do v <- packed_get_gen is_intb m f; Ok (v, f)
  | _ =>
      do r <- cob_move m f (mkField (int_attr 9) (repeat 0 4));
      Ok (s32 (le_u (fd (snd r))), fst r)
  end.

(** cob_get_long_long, move.c 2023-2050. *)
Definition get_long_long (m : cfg) (f : field) : outcome (Z * field) :=
  match a_type (fa f) with
  | TDisplay => display_get_gen is_llb 19 m f
  | TBinary => Ok (binary_get_int64 f, f)
  | TPacked => do v <- packed_get_gen is_llb m f; Ok (v, f)
  | _ =>
      do r <- cob_move m f (mkField (int_attr 18) (repeat 0 8));
      Ok (to_s64 (le_u (fd (snd r))), fst r)
  end.
