(** COBOL data items as seen by the run-time library.
    libcob/common.h lines 194-260 and 317-345 (cob_field_attr, cob_field,
    COB_FIELD_* macros), struct cob_module (the flags the modelled code reads). *)
From Verif Require Import Base.

(** Field types, common.h 196-214. *)
Inductive ftype :=
| TGroup | TDisplay | TBinary | TPacked | TFloat | TDouble | TNumEdited
| TAlnum | TAlnumAll | TAlnumEdited | TNational | TNatEdited | TNatAll.

(** cob_field_attr, common.h 327-333; the flag byte is split into its bits
    (common.h 218-225; COB_FLAG_IS_POINTER is not modelled). *)
Record fattr := mkAttr {
  a_type : ftype;
  a_digits : Z;
  a_scale : Z;
  a_sign : bool;      (* COB_FLAG_HAVE_SIGN *)
  a_sep : bool;       (* COB_FLAG_SIGN_SEPARATE *)
  a_lead : bool;      (* COB_FLAG_SIGN_LEADING *)
  a_bzero : bool;     (* COB_FLAG_BLANK_ZERO *)
  a_just : bool;      (* COB_FLAG_JUSTIFIED *)
  a_swap : bool;      (* COB_FLAG_BINARY_SWAP *)
  a_realbin : bool;   (* COB_FLAG_REAL_BINARY *)
  a_pic : list (Z * Z) (* picture of an edited item: (character, repeat count) *)
}.

(** cob_field, common.h 337-341: attribute and the bytes of the item
    (f->size is the length of the list). *)
Record field := mkField { fa : fattr; fd : list Z }.

Definition set_fd (f : field) (d : list Z) : field := mkField (fa f) d.
Definition f_size (f : field) : nat := length (fd f).

(** The flags of cob_current_module read by the modelled code
    (common.h, struct cob_module). *)
Record cfg := mkCfg {
  c_ebcdic : bool;         (* display_sign == COB_DISPLAY_SIGN_EBCDIC *)
  c_bintrunc : bool;       (* flag_binary_truncate *)
  c_decpoint : Z;          (* decimal_point *)
  c_numsep : Z;            (* numeric_separator *)
  c_currency : Z           (* currency_symbol *)
}.

Definition default_cfg : cfg := mkCfg false true 46 44 36.

(** COB_FIELD_DATA / COB_FIELD_SIZE, common.h 248-253: the digits of a
    DISPLAY item without a separate sign character. *)
Definition data_off (a : fattr) : nat := if a_sep a && a_lead a then 1%nat else 0%nat.
Definition data_size (f : field) : nat :=
  (f_size f - (if a_sep (fa f) then 1 else 0))%nat.
Definition data_digits (f : field) : list Z :=
  firstn (data_size f) (skipn (data_off (fa f)) (fd f)).
(** Overwriting the digits (memcpy to COB_FIELD_DATA of COB_FIELD_SIZE bytes). *)
Definition put_digits (f : field) (ds : list Z) : field :=
  set_fd f (firstn (data_off (fa f)) (fd f) ++ ds ++
            skipn (data_off (fa f) + length ds) (fd f)).
