(** DISPLAY: libcob/termio.c 40-225.
    The characters written to the stream are returned as a list; which of
    stdout and stderr is used (termio.c 208-214) is not modelled.
    Items of usage COMP-1/COMP-2 and POINTER (termio.c 157-178) are not
    modelled: they give [NotModelled]. *)
From Verif Require Import Base Field Numeric Move Edited MoveAll.
Local Open Scope Z_scope.

(** termio.c 40. *)
Definition bin_digits (n : nat) : outcome Z :=
  match nth_error [1; 3; 5; 8; 10; 13; 15; 17; 20] n with Some d => Ok d | None => UB end.

(** COB_FIELD_IS_NUMERIC, common.h 256 (type & COB_TYPE_NUMERIC). *)
Definition is_numeric_type (t : ftype) : bool :=
  match t with TDisplay | TBinary | TPacked | TFloat | TDouble => true | _ => false end.

(** display_numeric, termio.c 46-80.  [stack] is what the uninitialised array
    data[128] contains. *)
Definition display_numeric (m : cfg) (stack : list Z) (f : field) : outcome (list Z) :=
  if (f_size f =? 0)%nat then Ok [] else
  let a := fa f in
  let digits := a_digits a in
  let size := digits + (if a_sign a then 1 else 0) in
  if (size <? 0) || (128 <? size) then UB else
  let lead := a_sign a && (a_lead a || match a_type a with TBinary => true | _ => false end) in
  let temp := mkField (mkAttr TDisplay digits (a_scale a) (a_sign a) (a_sign a) lead
                         false false false false [])
                      (firstn (Z.to_nat size) stack) in
  do r <- cob_move m f temp;
  Ok (fd (snd r)).

(** pretty_display_numeric, termio.c 82-145. *)
Definition pretty_pic (m : cfg) (a : fattr) : list (Z * Z) :=
  (if a_sign a then [(43, 1)] else []) ++
  (if 0 <? a_scale a
   then [(57, a_digits a - a_scale a); (c_decpoint m, 1); (57, a_scale a)]
   else [(57, a_digits a)]).

Definition pretty_display_numeric (m : cfg) (f : field) : outcome (list Z) :=
  if (f_size f =? 0)%nat then Ok [] else
  let a := fa f in
  let size := a_digits a + (if a_sign a then 1 else 0) + (if 0 <? a_scale a then 1 else 0) in
  if (size <? 0) || (256 <? size) then UB else
  let temp := mkField (mkAttr TNumEdited (a_digits a) (a_scale a) false false false
                         false false false false (pretty_pic m a))
                      (repeat 0 (Z.to_nat size)) in
  do r <- cob_move m f temp;
  Ok (fd (snd r)).

(** display, termio.c 157-200. [pretty] is flag_pretty_display of the module. *)
Definition display (m : cfg) (pretty : bool) (stack : list Z) (f : field) : outcome (list Z) :=
  let a := fa f in
  match a_type a with
  | TDouble | TFloat => NotModelled
  | t =>
    if a_realbin a || (match t with TBinary => true | _ => false end && negb pretty) then
      do d <- bin_digits (f_size f);
      display_numeric m stack
        (mkField (mkAttr (a_type a) d (a_scale a) (a_sign a) (a_sep a) (a_lead a) (a_bzero a)
                    (a_just a) (a_swap a) (a_realbin a) (a_pic a)) (fd f))
    else if is_numeric_type t then
      if pretty then pretty_display_numeric m f else display_numeric m stack f
    else Ok (fd f)                                     (* display_alnum 147-155 *)
  end.

(** cob_display, termio.c 202-225: the items one after the other, then a
    newline unless WITH NO ADVANCING.  [stack i] is the junk met by item [i]. *)
Fixpoint display_items (m : cfg) (pretty : bool) (stack : nat -> list Z) (i : nat) (fs : list field)
  : outcome (list Z) :=
  match fs with
  | [] => Ok []
  | f :: r => do x <- display m pretty (stack i) f;
              do y <- display_items m pretty stack (S i) r;
              Ok (x ++ y)
  end.
Definition cob_display (m : cfg) (pretty : bool) (stack : nat -> list Z) (newline : bool) (fs : list field)
  : outcome (list Z) :=
  do x <- display_items m pretty stack 0 fs;
  Ok (x ++ if newline then [10] else []).
