(** The operational sign of DISPLAY and PACKED items.
    libcob/common.c 313-378 (cob_get_sign_ebcdic), 425-503
    (cob_put_sign_ebcdic), 1136-1221 (cob_real_get_sign, cob_real_put_sign),
    common.h 239-240 (cob_get_sign, cob_put_sign), 263-264 (ASCII overpunch).
    Simplification: f->size = 0 (pointer before the buffer) is not a case;
    the compiler never creates such an item. *)
From Verif Require Import Base Field.

(** common.c 313-378: returns (sign, new byte). *)
Definition get_sign_ebcdic (c : Z) : Z * Z :=
  if c =? 123 (* '{' *) then (1, 48)
  else if (65 <=? c) && (c <=? 73) (* 'A'..'I' *) then (1, c - 65 + 49)
  else if c =? 125 (* '}' *) then (-1, 48)
  else if (74 <=? c) && (c <=? 82) (* 'J'..'R' *) then (-1, c - 74 + 49)
  else (1, 48).

(** common.c 425-503. *)
Definition put_sign_ebcdic (c : Z) (sign : Z) : Z :=
  if sign <? 0 then
    if c =? 48 then 125
    else if (49 <=? c) && (c <=? 57) then c - 49 + 74
    else 125
  else
    if c =? 48 then 123
    else if (49 <=? c) && (c <=? 57) then c - 49 + 65
    else 123.

(** "locate sign", common.c 1143-1147 and 1189-1193. *)
Definition sign_pos (f : field) : nat :=
  if a_lead (fa f) then 0%nat else (f_size f - 1)%nat.

(** common.c 1136-1177: returns the sign and the item with the overpunch
    removed. *)
Definition real_get_sign (m : cfg) (f : field) : Z * field :=
  match a_type (fa f) with
  | TDisplay =>
      let i := sign_pos f in
      let c := nth i (fd f) 0 in
      if a_sep (fa f) then ((if c =? c_plus then 1 else -1), f)
      else if is_digitb c then (1, f)
      else if c =? c_sp then (1, set_fd f (upd i c_0 (fd f)))
      else if c_ebcdic m then
        let '(s, c') := get_sign_ebcdic c in (s, set_fd f (upd i c' (fd f)))
      else (-1, set_fd f (upd i (u8 (c - 64)) (fd f)))
  | TPacked =>
      let c := nth (f_size f - 1) (fd f) 0 in
      ((if Z.land c 15 =? 13 then -1 else 1), f)
  | _ => (0, f)
  end.

(** common.c 1180-1221. *)
Definition real_put_sign (m : cfg) (f : field) (sign : Z) : field :=
  match a_type (fa f) with
  | TDisplay =>
      let i := sign_pos f in
      let c := nth i (fd f) 0 in
      if a_sep (fa f) then
        set_fd f (upd i (if sign <? 0 then c_minus else c_plus) (fd f))
      else if c_ebcdic m then set_fd f (upd i (put_sign_ebcdic c sign) (fd f))
      else if sign <? 0 then set_fd f (upd i (u8 (c + 64)) (fd f))
      else f
  | TPacked =>
      let i := (f_size f - 1)%nat in
      let c := nth i (fd f) 0 in
      set_fd f (upd i (Z.lor (Z.land c 240) (if sign <? 0 then 13 else 12)) (fd f))
  | _ => f
  end.

(** common.h 239-240. *)
Definition get_sign (m : cfg) (f : field) : Z * field :=
  if a_sign (fa f) then real_get_sign m f else (0, f).
Definition put_sign (m : cfg) (f : field) (sign : Z) : field :=
  if a_sign (fa f) then real_put_sign m f sign else f.
