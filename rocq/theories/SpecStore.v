(** Specification vocabulary for numeric items and stores: which items are
    well formed, which numbers they can hold, and what rounding means.
    Independent of the store code; only the option record is shared. *)
From Coq Require Import QArith Qabs.
From Verif Require Import Base Field SpecNum Numeric.
Local Open Scope Z_scope.

(** SIGN IS SEPARATE is only possible for signed items. *)
Definition attr_ok (a : fattr) : Prop := a_sep a = true -> a_sign a = true.

(** A DISPLAY item with k >= 1 digit positions (plus one for a separate sign). *)
Definition wf_display (f : field) (k : nat) : Prop :=
  a_type (fa f) = TDisplay /\ attr_ok (fa f) /\ (1 <= k)%nat /\
  length (fd f) = (k + if a_sep (fa f) then 1 else 0)%nat.

(** A COMP-3 item with D >= 1 digits. *)
Definition wf_packed (f : field) (D : nat) : Prop :=
  a_type (fa f) = TPacked /\ a_digits (fa f) = Z.of_nat D /\ (1 <= D)%nat /\
  f_size f = (D / 2 + 1)%nat.

(** A binary item of 1 to 8 bytes; the compiler gives at most 18 (here: fewer
    than 36) digits to binary items. *)
Definition wf_binary (f : field) : Prop :=
  a_type (fa f) = TBinary /\ (1 <= f_size f <= 8)%nat /\ 0 <= a_digits (fa f) < 36.

Definition bits (f : field) : Z := 8 * Z.of_nat (f_size f).

(** The numbers a binary item can take in a store with the given options.
    (The run-time treats the most negative two's complement number as out of range.) *)
Definition bin_range (f : field) (v : Z) : Prop :=
  if a_sign (fa f) then - 2 ^ (bits f - 1) < v < 2 ^ (bits f - 1)
  else Z.abs v < 2 ^ bits f.
Definition bin_fits (m : cfg) (o : opts) (f : field) (v : Z) : Prop :=
  bin_range f v /\ (opt_nonzero o && c_bintrunc m = true -> Z.abs v < 10 ^ a_digits (fa f)).

(** A numeric item of any of the three usages. *)
Inductive numeric_item : field -> Prop :=
| ni_display : forall f k, wf_display f k -> numeric_item f
| ni_packed : forall f D, wf_packed f D -> numeric_item f
| ni_binary : forall f, wf_binary f -> numeric_item f.

(** [fits m o f v]: the scaled integer [v] can be held by [f]. *)
Inductive fits (m : cfg) (o : opts) (f : field) (v : Z) : Prop :=
| fit_display : forall k, wf_display f k -> Z.abs v < 10 ^ Z.of_nat k -> fits m o f v
| fit_packed : forall D, wf_packed f D -> Z.abs v < 10 ^ Z.of_nat D -> fits m o f v
| fit_binary : wf_binary f -> bin_fits m o f v -> fits m o f v.

(** The number an item holds after [v] was stored: unsigned items lose the sign. *)
Definition held (f : field) (v : Z) : Z := if a_sign (fa f) then v else Z.abs v.

(** Rounding mode of a store: ROUNDED = nearest, ties away from zero;
    otherwise truncation. *)
Definition rounded (o : opts) (q : Q) (s w : Z) : Prop :=
  if o_round o then round_at q s w else trunc_at q s w.

(** What a truncating store leaves in an item: the low-order digits and the sign. *)
Definition low_part (k : nat) (v : Z) : Z := Z.sgn v * (Z.abs v mod 10 ^ Z.of_nat k).

(** A legal scale of a COBOL item (at most 36 digits, 37 with a leading P). *)
Definition scale_ok (f : field) : Prop := -63 <= a_scale (fa f) <= 36.

(** Numbers of at most 2047 digits: what the conversion buffer can hold. *)
Definition NUM_LIMIT : Z := 10 ^ 2047.
