(** The ring of function result items: libcob/intrinsic.c 59, 73-78, 345-370 and
    the initialisation 3340-3347. *)
From Verif Require Import Base Field.

Definition DEPTH_LEVEL : nat := 8.                                   (* 59 *)

(** calc_field[i], calc_attr[i], calc_size[i] and the block the data points to. *)
Record rentry := mkE { e_attr : fattr; e_size : nat; e_calc : nat; e_block : list Z }.
Record ring := mkRing { r_cur : nat; r_entries : list rentry }.

Definition no_attr : fattr := mkAttr TGroup 0 0 false false false false false false false [].
(** cob_init_intrinsic, 3340-3347. *)
Definition init_entry : rentry := mkE no_attr 256 256 (repeat 0 256).
Definition ring0 : ring := mkRing 0 (repeat init_entry DEPTH_LEVEL).

Fixpoint upd_nth {A} (i : nat) (x : A) (l : list A) : list A :=
  match l with [] => [] | y :: r => match i with O => x :: r | S j => y :: upd_nth j x r end end.

(** make_field_entry, 345-370: [a], [n] describe the result wanted; returns the
    index of the entry used.  memset (s, 0, f->size) needs a block of that size. *)
Definition make_entry (a : fattr) (n : nat) (g : ring) : outcome (ring * nat) :=
  match nth_error (r_entries g) (r_cur g) with
  | None => UB
  | Some e =>
    let next := if (DEPTH_LEVEL <=? S (r_cur g))%nat then O else S (r_cur g) in
    if (e_calc e <? n)%nat then
      Ok (mkRing next (upd_nth (r_cur g) (mkE a n (S n) (repeat 0 (S n))) (r_entries g)), r_cur g)
    else if (length (e_block e) <? n)%nat then UB
    else
      Ok (mkRing next (upd_nth (r_cur g) (mkE a n (e_calc e) (repeat 0 n ++ skipn n (e_block e))) (r_entries g)), r_cur g)
  end.

(** The function then writes its result [d] (at most the size asked for) and may
    reduce the size of the result (TRIM, reference modification). *)
Definition write_entry (i : nat) (d : list Z) (g : ring) : outcome ring :=
  match nth_error (r_entries g) i with
  | None => UB
  | Some e =>
    if (length (e_block e) <? length d)%nat then UB
    else Ok (mkRing (r_cur g) (upd_nth i (mkE (e_attr e) (length d) (e_calc e) (d ++ skipn (length d) (e_block e))) (r_entries g)))
  end.

(** One call of a function with result [d] of description [a], asking for [n] bytes. *)
Definition func_call (a : fattr) (n : nat) (d : list Z) (g : ring) : outcome (ring * nat) :=
  do r <- make_entry a n g;
  do g' <- write_entry (snd r) d (fst r);
  Ok (g', snd r).

(** What the item of entry [i] holds. *)
Definition entry_field (g : ring) (i : nat) : option field :=
  match nth_error (r_entries g) i with
  | None => None
  | Some e => Some (mkField (e_attr e) (firstn (e_size e) (e_block e)))
  end.
