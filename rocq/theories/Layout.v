(** Storage layout of data descriptions and references to it:
    cobc/field.c 232-293 (REDEFINES), 773-962 (compute_size), 1006-1012;
    cobc/typeck.c 957-1095 (generated checks), cobc/codegen.c 351-470
    (addresses), libcob/common.c 1590-1693 (run-time checks).
    Sizes and offsets are natural numbers (no 32-bit wrap-around: the compiler
    rejects groups above INT_MAX). *)
From Verif Require Import Base.

Local Open Scope nat_scope.

(** ** Elementary sizes *)

Inductive usage := UBinary | UComp5 | UCompX | UDisplay | UPacked | UIndex | UFloat | UDouble | UPointer.
(** CB_USAGE_LENGTH behaves as UIndex; OBJECT, PROGRAM-POINTER and PROGRAM as
    UPointer. *)

(** cb_binary_size (cobc/cobc.h). *)
Inductive binsize := Bin248 | Bin1248 | Bin1to8.

(** The clauses of one data description entry.  [d_redef]: has a REDEFINES
    clause; after cb_resolve_redefines and the checks of field.c 446-459 it
    names the last preceding sibling without REDEFINES. *)
Record decl := mkDecl {
  d_redef : bool; d_occ : nat (* occurs_max, 1 without OCCURS *);
  d_sync : bool; d_usage : usage;
  d_psize : nat (* pic->size *); d_psign : bool (* pic->have_sign *);
  d_pnum : bool (* pic->category numeric *); d_signsep : bool; d_realbin : bool }.

(** field.c 868-877 (COMP-X). *)
Definition compx_size (size : nat) : nat :=
  if size <=? 2 then 1 else if size <=? 4 then 2 else if size <=? 7 then 3 else if size <=? 9 then 4
  else if size <=? 12 then 5 else if size <=? 14 then 6 else if size <=? 16 then 7 else if size <=? 18 then 8 else 16.
(** field.c 878-917 (BINARY, COMP-5). *)
Definition binary_size (c : binsize) (size : nat) (sign realbin : bool) : nat :=
  match c with
  | Bin248 => if realbin && (size <=? 2) then 1
              else if size <=? 4 then 2 else if size <=? 9 then 4 else if size <=? 18 then 8 else 16
  | Bin1248 => if size <=? 2 then 1 else if size <=? 4 then 2 else if size <=? 9 then 4 else if size <=? 18 then 8 else 16
  | Bin1to8 =>
    if sign then
      if size <=? 2 then 1 else if size <=? 4 then 2 else if size <=? 6 then 3 else if size <=? 9 then 4
      else if size <=? 11 then 5 else if size <=? 14 then 6 else if size <=? 16 then 7 else if size <=? 18 then 8 else 16
    else compx_size size
  end.
(** The elementary part of compute_size, field.c 866-944. *)
Definition elem_size (c : binsize) (d : decl) : nat :=
  match d_usage d with
  | UCompX => compx_size (d_psize d)
  | UBinary | UComp5 => binary_size c (d_psize d) (d_psign d) (d_realbin d)
  | UDisplay => d_psize d + (if d_pnum d && d_psign d && d_signsep d then 1 else 0)
  | UPacked => d_psize d / 2 + 1
  | UIndex => 4 | UFloat => 4 | UDouble => 8 | UPointer => 8
  end.

(** ** Layout *)

Inductive item := Item (d : decl) (cs : list item).   (* elementary: no children *)
(** An item with its address (offset from the level 01) and size. *)
Inductive placed := Placed (d : decl) (off size : nat) (ch : list placed).
Definition it_decl (i : item) := match i with Item d _ => d end.
Definition p_decl (p : placed) := match p with Placed d _ _ _ => d end.
Definition p_off (p : placed) := match p with Placed _ o _ _ => o end.
Definition p_size (p : placed) := match p with Placed _ _ s _ => s end.
Definition p_ch (p : placed) := match p with Placed _ _ _ c => c end.
(** All occurrences. *)
Definition p_ext (p : placed) : nat := p_size p * d_occ (p_decl p).

(** The alignment of a SYNC item, field.c 825-848. *)
Definition sync_align (d : decl) (size : nat) : nat :=
  match d_usage d with
  | UBinary | UComp5 | UCompX | UFloat | UDouble =>
    if (size =? 2) || (size =? 4) || (size =? 8) then size else 1
  | UIndex => 4
  | UPointer => 8
  | UDisplay | UPacked => 1
  end.
(** field.c 849-854: the padding in front of a SYNC item. *)
Definition sync_pad (sync_ok : bool) (d : decl) (size off : nat) : nat :=
  if d_sync d && sync_ok then
    let a := sync_align d size in
    if off mod a =? 0 then 0 else a - off mod a
  else 0.
(** field.c 851: only the offset of the item itself is changed. *)
Definition shift (p : placed) (pad : nat) : placed :=
  match p with Placed d o s ch => Placed d (o + pad) s ch end.

(** The loop over the children, field.c 795-857: [off] the offset of the group,
    [size] its size so far, [boff], [bext] offset and extent of the last item
    without REDEFINES.  Level 66 items are not modelled. *)
Section Children.
  Variable lay : nat -> item -> placed.
  Variable sync_ok : bool.
  Variable off : nat.
  Fixpoint children (cs : list item) (size boff bext : nat) : list placed * nat :=
    match cs with
    | [] => ([], size)
    | c :: r =>
      if d_redef (it_decl c) then
        let p := lay boff c in
        let size' := if bext <? p_ext p then size + (p_ext p - bext) else size in
        let x := children r size' boff bext in
        (p :: fst x, snd x)
      else
        let p := lay (off + size) c in
        let pad := sync_pad sync_ok (it_decl c) (p_size p) (off + size) in
        let p' := shift p pad in
        let x := children r (size + p_ext p + pad) (p_off p') (p_ext p) in
        (p' :: fst x, snd x)
    end.
End Children.

(** compute_size, field.c 773-962, with the offset of the item already set. *)
Fixpoint layout (c : binsize) (sync_ok : bool) (off : nat) (it : item) {struct it} : placed :=
  match it with
  | Item d [] => Placed d off (elem_size c d) []
  | Item d cs =>
    let x := children (fun o i => layout c sync_ok o i) sync_ok off cs 0 off 0 in
    Placed d off (snd x) (fst x)
  end.

(** ** References *)

(** A reference to an item: the levels from the item up to the level 01, each
    with its subscript (1 for a level without OCCURS). *)
Definition level := (placed * Z)%type.
(** output_base and output_data, codegen.c 351-467 (fixed addresses, i.e. no
    OCCURS DEPENDING in front of the item): the address relative to the level
    01, the reference modification offset [ro] included. *)
Definition address (p : placed) (ups : list level) (ro : Z) : Z :=
  fold_left (fun a l => (a + Z.of_nat (p_size (fst l)) * (snd l - 1))%Z) ups (Z.of_nat (p_off p)) + (ro - 1).

(** A run-time check passes, stops the run, or is undefined (int overflow). *)
Inductive verdict := Pass | Stop | Undefined.
Open Scope Z_scope.
(** cob_check_subscript, common.c 1607-1619, and cob_check_odo, 1593-1605. *)
Definition check_range (i lo hi : Z) : verdict := if (i <? lo) || (hi <? i) then Stop else Pass.
(** cob_check_ref_mod, common.c 1669-1693; [off] = the checks are switched off
    by the environment (cob_check_env). *)
Definition check_ref_mod (disabled : bool) (offset length size : Z) : verdict :=
  if disabled then Pass else
  if (offset <? 1) || (size <? offset) then Stop else
  if length <? 1 then Stop else
  if INT_MAX <? offset + length then Undefined else
  if size <? offset + length - 1 then Stop else Pass.
(** cob_check_ref_mod_national, common.c 1637-1667 (Shift-JIS build: byte
    positions, two bytes per character). *)
Definition check_ref_mod_national (disabled : bool) (offset length size : Z) : verdict :=
  if disabled then Pass else
  if INT_MAX <? offset + 1 then Undefined else
  let offset := Z.quot (offset + 1) 2 in
  let length := Z.quot length 2 in
  let size := Z.quot size 2 in
  if (offset <? 1) || (size <? offset) then Stop else
  if length <? 1 then Stop else
  if INT_MAX <? offset + length then Undefined else
  if size <? offset + length - 1 then Stop else Pass.

Definition v_and (a b : verdict) : verdict := match a with Pass => b | _ => a end.
(** The checks generated for one level, typeck.c 957-1022: OCCURS lo TO hi
    DEPENDING ON a value [odo], or OCCURS hi. *)
Definition check_level (odo : option (Z * Z)) (hi : Z) (sub : Z) : verdict :=
  match odo with
  | Some (n, lo) => v_and (check_range n lo hi) (check_range sub 1 n)
  | None => check_range sub 1 hi
  end.
