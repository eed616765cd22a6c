(** Comparison of two national items, both builds: libcob/common.c 530-547
    (is_national_padding), 572-596 (national_cmps), 664-700 (cob_cmp_simple_str
    when both operands are national; cob_cmp_alnum 702-720 adds the signs, which
    national items do not have).  coblocal.h 52-100 for the constants.
    The Shift-JIS loop is Compare.national_cmps.
    memcmp is modelled as returning -1, 0 or 1: only the sign is specified. *)
From Verif Require Import Base Compare.
Local Open Scope Z_scope.

Inductive build := SJIS | UTF8.
(** COB_ZENSPC *)
Definition zen (b : build) : list Z := match b with SJIS => [129; 64] | UTF8 => [227; 128; 128] end.

(** COB_U8BYTE_1 *)
Definition u8len (c : Z) : Z :=
  if c / 128 =? 0 then 1 else if c / 32 =? 6 then 2 else if c / 16 =? 14 then 3
  else if c / 8 =? 30 then 4 else if c / 4 =? 62 then 5 else if c / 2 =? 126 then 6 else 0.

Fixpoint memcmp (x y : list Z) : Z :=
  match x, y with
  | a :: x', b :: y' => if a =? b then memcmp x' y' else if a <? b then -1 else 1
  | _, _ => 0
  end.

(** The loop of national_cmps with I18N_UTF8, on two strings of the same
    length; None: still running after [fuel] rounds. *)
Fixpoint national_u8 (fuel : nat) (s1 s2 : list Z) : option Z :=
  match fuel with
  | O => None
  | S k =>
    match s1, s2 with
    | a :: _, b :: _ =>
      let n := u8len a in
      if n =? u8len b then
        if Z.of_nat (length s1) <? n then Some (-1)
        else let r := memcmp (firstn (Z.to_nat n) s1) (firstn (Z.to_nat n) s2) in
             if r =? 0 then national_u8 k (skipn (Z.to_nat n) s1) (skipn (Z.to_nat n) s2) else Some r
      else Some (n - u8len b)
    | _, _ => Some 0
    end
  end.

Fixpoint same_bytes (x y : list Z) : bool :=
  match x, y with
  | [], [] => true
  | a :: x', b :: y' => (a =? b) && same_bytes x' y'
  | _, _ => false
  end.
Fixpoint padding (b : build) (fuel : nat) (s : list Z) : bool :=
  match fuel with
  | O => true
  | S k =>
    match s with
    | [] => true
    | a :: r =>
      if a =? 32 then padding b k r
      else if (length (zen b) <=? length s)%nat && same_bytes (firstn (length (zen b)) s) (zen b)
      then padding b k (skipn (length (zen b)) s)
      else false
    end
  end.

(** cob_cmp_simple_str.  None: does not end (within [fuel] rounds). *)
Definition cmp_national (b : build) (fuel : nat) (s1 s2 : list Z) : option (outcome Z) :=
  let m := Nat.min (length s1) (length s2) in
  let r := match b with
           | SJIS => Some (national_cmps (firstn m s1) (firstn m s2))
           | UTF8 => match national_u8 fuel (firstn m s1) (firstn m s2) with None => None | Some r => Some (Ok r) end
           end in
  match r with
  | Some (Ok r) =>
    Some (Ok (
      if r =? 0 then
        if (length s1 <? length s2)%nat then
          - (if padding b (length s2) (skipn m s2) then 0 else 1)
        else if (length s2 <? length s1)%nat then
          (if padding b (length s1) (skipn m s1) then 0 else 1)
        else 0
      else r))
  | _ => r
  end.
