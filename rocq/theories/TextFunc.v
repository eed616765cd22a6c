(** Text intrinsic functions: libcob/intrinsic.c 413-428, 588-911, 1121-1206,
    1826-2005.  Functions return the result item; the storage it is placed in
    (make_field_entry) is modelled in FuncRing.v. *)
From Verif Require Import Base Field Sign Numeric Move Edited MoveAll Dates Intr.
Local Open Scope Z_scope.

Definition text_attr : fattr := mkAttr TAlnum 0 0 false false false false false false false [].

(** calc_ref_mod, 413-428, called when offset > 0. *)
Definition ref_mod (offset len : Z) (d : list Z) : list Z :=
  if offset <=? 0 then d
  else if offset <=? Z.of_nat (length d) then
    let calcoff := offset - 1 in
    let size := Z.of_nat (length d) - calcoff in
    let size := if (0 <? len) && (len <? size) then len else size in
    firstn (Z.to_nat size) (skipn (Z.to_nat calcoff) d)
  else d.

(** toupper, tolower in the "C" locale. *)
Definition c_upper (c : Z) : Z := if (97 <=? c) && (c <=? 122) then c - 32 else c.
Definition c_lower (c : Z) : Z := if (65 <=? c) && (c <=? 90) then c + 32 else c.

(** UPPER-CASE 589-603, LOWER-CASE 606-620, REVERSE 623-637: the result has the
    description of the argument. *)
Definition intr_upper (off len : Z) (f : field) : field := mkField (fa f) (ref_mod off len (map c_upper (fd f))).
Definition intr_lower (off len : Z) (f : field) : field := mkField (fa f) (ref_mod off len (map c_lower (fd f))).
Fixpoint rev_loop (n i : nat) (d : list Z) : list Z :=
  match n with O => [] | S k => nth (length d - i - 1) d 0 :: rev_loop k (S i) d end.
Definition intr_reverse (off len : Z) (f : field) : field :=
  mkField (fa f) (ref_mod off len (rev_loop (length (fd f)) 0 (fd f))).

(** CONCATENATE, 640-678. *)
Fixpoint concat_loop (fs : list field) : list Z :=
  match fs with [] => [] | f :: r => fd f ++ concat_loop r end.
Definition intr_concatenate (off len : Z) (fs : list field) : field :=
  mkField text_attr (ref_mod off len (concat_loop fs)).

(** TRIM, 866-911: direction 1 = leading, 2 = trailing, otherwise both.  The
    result of an all-space argument is returned without reference modification. *)
Fixpoint skip_spaces (d : list Z) : list Z :=
  match d with [] => [] | c :: r => if c =? 32 then skip_spaces r else d end.
Definition intr_trim (off len : Z) (f : field) (dir : Z) : field :=
  if forallb (fun c => c =? 32) (fd f) then mkField (fa f) [32]
  else
    let d := if dir =? 2 then fd f else skip_spaces (fd f) in
    let d := if dir =? 1 then d else rev (skip_spaces (rev d)) in
    mkField (fa f) (ref_mod off len d).

(** CHAR 1121-1139, ORD 1141-1153, STORED-CHAR-LENGTH 1155-1206 (without I18N_UTF8). *)
Definition intr_char (m : cfg) (f : field) : outcome field :=
  do a <- get_int m f;
  let i := fst a in
  Ok (mkField text_attr [if (i <? 1) || (256 <? i) then 0 else i - 1]).
Definition intr_ord_char (m : cfg) (f : field) : outcome field :=
  match fd f with [] => UB | c :: _ => set_int m res_int (c + 1) end.
Definition intr_stored_length (m : cfg) (f : field) : outcome field :=
  set_int m res_int (Z.of_nat (length (skip_spaces (rev (fd f))))).
(** LENGTH, 497-509. *)
Definition intr_length (m : cfg) (f : field) : outcome field := set_int m res_int (Z.of_nat (f_size f)).

(** ** SUBSTITUTE, 680-767 and SUBSTITUTE-CASE, 769-863 *)

(** memcmp (p1, f1, size) == 0 on the first bytes of [d] (the caller has checked the length). *)
Fixpoint mem_eq (p d : list Z) : bool :=
  match p, d with
  | [], _ => true
  | x :: p', y :: d' => (x =? y) && mem_eq p' d'
  | _, [] => false
  end.
(** strncasecmp (p1, f1, size) == 0: stops at a NUL present in both. *)
Fixpoint case_eq (p d : list Z) : bool :=
  match p, d with
  | [], _ => true
  | x :: p', y :: d' => (c_lower x =? c_lower y) && ((x =? 0) || case_eq p' d')
  | _, [] => false
  end.

Section Subst.
Variable cmp : list Z -> list Z -> bool.
Variable reps : list (list Z * list Z).    (* (f1[i], f2[i]) *)

(** The inner loop over i at the position with [rest] bytes left. *)
Fixpoint first_match (rs : list (list Z * list Z)) (rest : list Z) : option (list Z * list Z) :=
  match rs with
  | [] => None
  | (p, r) :: q => if ((length p <=? length rest)%nat && cmp p rest) then Some (p, r) else first_match q rest
  end.
(** First pass: the size; None = still running after [fuel] steps. *)
Fixpoint pass1 (fuel : nat) (rest : list Z) (calcsize : nat) : option nat :=
  match fuel with
  | O => None
  | S g =>
    match rest with
    | [] => Some calcsize
    | c :: r =>
      match first_match reps rest with
      | Some (p, w) => pass1 g (skipn (length p) rest) (calcsize + length w)
      | None => pass1 g r (S calcsize)
      end
    end
  end.
(** Second pass: the bytes written, in order. *)
Fixpoint pass2 (fuel : nat) (rest out : list Z) : option (list Z) :=
  match fuel with
  | O => None
  | S g =>
    match rest with
    | [] => Some out
    | c :: r =>
      match first_match reps rest with
      | Some (p, w) => pass2 g (skipn (length p) rest) (out ++ w)
      | None => pass2 g r (out ++ [c])
      end
    end
  end.
(** Both passes; writing past the size computed is undefined; bytes not written
    would be the zeros of make_field_entry. *)
Definition substitute (fuel : nat) (off len : Z) (var : list Z) : option (outcome field) :=
  match pass1 fuel var 0 with
  | None => None
  | Some n =>
    match pass2 fuel var [] with
    | None => None
    | Some out =>
      Some (if (n <? length out)%nat then UB
            else Ok (mkField text_attr (ref_mod off len (out ++ repeat 0 (n - length out)))))
    end
  end.
End Subst.
Definition intr_substitute := substitute mem_eq.
Definition intr_substitute_case := substitute case_eq.

(** ** NUMVAL, 1826-1900, and NUMVAL-C, 1902-1994 *)
Record nvstate := mkNV { nv_val : Z; nv_int : nat; nv_dec : nat; nv_neg : bool; nv_seen : bool }.

(** strcasecmp (&data[i], "CR") == 0 || strcasecmp (&data[i], "DB") == 0: [rest] is the
    rest of the item, [after] the byte in storage behind the item. *)
Definition two_letters (x y : Z) (rest : list Z) (after : Z) : bool :=
  match rest with
  | a :: b :: r => (c_lower a =? x) && (c_lower b =? y) && (match r with [] => after | c :: _ => c end =? 0)
  | _ => false
  end.
Definition crdb (rest : list Z) (after : Z) : bool := two_letters 99 114 rest after || two_letters 100 98 rest after.

(** One character; [curr]: also skip the currency symbol (NUMVAL-C). *)
Definition nv_char (m : cfg) (curr : bool) (c : Z) (st : nvstate) : nvstate :=
  if c =? 32 then st
  else if c =? 43 then st
  else if c =? 45 then mkNV (nv_val st) (nv_int st) (nv_dec st) true (nv_seen st)
  else if c =? c_decpoint m then mkNV (nv_val st) (nv_int st) (nv_dec st) (nv_neg st) true
  else if curr && (c =? c_currency m) then st
  else if (48 <=? c) && (c <=? 57) then
    if nv_seen st then mkNV (nv_val st * 10 + (c - 48)) (nv_int st) (S (nv_dec st)) (nv_neg st) true
    else mkNV (nv_val st * 10 + (c - 48)) (S (nv_int st)) (nv_dec st) (nv_neg st) false
  else st.
(** The loop, 1851-1880 and 1942-1986.  [cur]: the currency string of NUMVAL-C if
    one was given and is shorter than the text (simplification: a currency item of
    size 0, which the compiler cannot produce, is treated as absent); after it matched at i (with i <
    size - currency size), i advances by its length.  [skip] counts characters of
    a matched currency string still to be passed over.  The test for more than 30
    digits ends the loop; it is reached only for characters that are not skipped,
    and the count changes only with digits. *)
Fixpoint nv_loop (m : cfg) (curr : bool) (cur : list Z) (after : Z) (skip : nat) (rest : list Z) (st : nvstate) : nvstate :=
  match rest with
  | [] => st
  | c :: r =>
    match skip with
    | S k => nv_loop m curr cur after k r st
    | O =>
      if crdb rest after then mkNV (nv_val st) (nv_int st) (nv_dec st) true (nv_seen st)
      else if negb (match cur with [] => true | _ => false end) && (length cur <? length rest)%nat && mem_eq cur rest
      then nv_loop m curr cur after (length cur - 1) r st
      else
        let st' := nv_char m curr c st in
        if (30 <? nv_int st' + nv_dec st')%nat then st' else nv_loop m curr cur after 0 r st'
    end
  end.
(** The end, 1881-1899; llval is a long long (more than 18 digits: the result is a
    floating point item, not modelled). *)
Definition nv_finish (st : nvstate) : outcome field :=
  let v := if nv_neg st then - nv_val st else nv_val st in
  if (nv_int st + nv_dec st <=? 18)%nat then
    Ok (binary_set_64 (fresh (bin_attr 18 (Z.of_nat (nv_dec st)) true) 8) v)
  else NotModelled.
Definition nv0 : nvstate := mkNV 0 0 0 false false.
Definition intr_numval (m : cfg) (after : Z) (f : field) : outcome field :=
  nv_finish (nv_loop m false [] after 0 (fd f) nv0).
Definition intr_numval_c (m : cfg) (after : Z) (f : field) (currency : option field) : outcome field :=
  let cur := match currency with Some c => if (f_size c <? f_size f)%nat then fd c else [] | None => [] end in
  nv_finish (nv_loop m true cur after 0 (fd f) nv0).
