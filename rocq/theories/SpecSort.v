(** Specification of the order of records by a list of keys. *)
From Verif Require Import Base Field SpecNum SpecCmp Compare MoveAll.

(** Key [k] of record [r1] is less than / equal to that of [r2]: numerically
    for numeric keys (both have the scale of the key), as text otherwise. *)
Definition key_lt (m : cfg) (col : option (list Z)) (k : skey) (r1 r2 : list Z) : Prop :=
  if is_numeric_type (a_type (k_attr k)) then
    exists v1 v2, denotes (c_ebcdic m) (key_field k r1) v1 /\
                  denotes (c_ebcdic m) (key_field k r2) v2 /\ v1 < v2
  else text_lt col (fd (key_field k r1)) (fd (key_field k r2)).
Definition key_eq (m : cfg) (col : option (list Z)) (k : skey) (r1 r2 : list Z) : Prop :=
  if is_numeric_type (a_type (k_attr k)) then
    exists v, denotes (c_ebcdic m) (key_field k r1) v /\ denotes (c_ebcdic m) (key_field k r2) v
  else text_eq col (fd (key_field k r1)) (fd (key_field k r2)).

(** Major key first; DESCENDING keys reversed. *)
Fixpoint rec_lt (m : cfg) (col : option (list Z)) (ks : list skey) (r1 r2 : list Z) : Prop :=
  match ks with
  | [] => False
  | k :: rest =>
      (if k_asc k then key_lt m col k r1 r2 else key_lt m col k r2 r1) \/
      (key_eq m col k r1 r2 /\ rec_lt m col rest r1 r2)
  end.
Fixpoint rec_eq (m : cfg) (col : option (list Z)) (ks : list skey) (r1 r2 : list Z) : Prop :=
  match ks with
  | [] => True
  | k :: rest => key_eq m col k r1 r2 /\ rec_eq m col rest r1 r2
  end.

(** The key lies in the record; it is a text or numeric item with valid contents. *)
Definition key_ok (m : cfg) (k : skey) (r : list Z) : Prop :=
  (k_off k + k_size k <= length r)%nat /\
  if is_numeric_type (a_type (k_attr k)) then exists v, denotes (c_ebcdic m) (key_field k r) v
  else a_type (k_attr k) = TAlnum \/ a_type (k_attr k) = TAlnumEdited \/
       a_type (k_attr k) = TNumEdited \/ a_type (k_attr k) = TGroup.
