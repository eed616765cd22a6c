(** System routines on byte areas: libcob/common.c (CBL_AND .. CBL_NOT, X"F4",
    X"F5", X"91", CBL_TOUPPER, CBL_TOLOWER, C$JUSTIFY).
    A program area is a list of bytes; operands are offsets into one area, so
    they may be the same item or overlap.  An access outside the area is UB.
    The COB_CHK_PARMS test on the number of CALL parameters is not modelled. *)
From Verif Require Import Base.

Local Open Scope nat_scope.

(** [data[i]] read, undefined outside the area. *)
Definition rd (mem : list Z) (i : nat) : outcome Z :=
  match nth_error mem i with Some b => Ok b | None => UB end.
(** [data[i] = v]. *)
Definition wr (mem : list Z) (i : nat) (v : Z) : outcome (list Z) :=
  if i <? length mem then Ok (upd i v mem) else UB.
(** memset (data + i, c, n). *)
Definition memset (mem : list Z) (i : nat) (c : Z) (n : nat) : outcome (list Z) :=
  if i + n <=? length mem then Ok (firstn i mem ++ repeat c n ++ skipn (i + n) mem) else UB.
(** memmove (data + d, data + s, n). *)
Definition memmove (mem : list Z) (d s n : nat) : outcome (list Z) :=
  if (d + n <=? length mem) && (s + n <=? length mem)
  then Ok (firstn d mem ++ firstn n (skipn s mem) ++ skipn (d + n) mem) else UB.

(** The loop shared by the two-operand routines:
    for (n = 0; n < length; ++n) data_2[n] = op (data_1[n], data_2[n]). *)
Fixpoint loop2 (op : Z -> Z -> Z) (todo n : nat) (p1 p2 : nat) (mem : list Z) : outcome (list Z) :=
  match todo with
  | O => Ok mem
  | S t =>
    do a <- rd mem (p1 + n);
    do b <- rd mem (p2 + n);
    do mem' <- wr mem (p2 + n) (op a b);
    loop2 op t (S n) p1 p2 mem'
  end.
Fixpoint loop1 (op : Z -> Z) (todo n : nat) (p : nat) (mem : list Z) : outcome (list Z) :=
  match todo with
  | O => Ok mem
  | S t =>
    do a <- rd mem (p + n);
    do mem' <- wr mem (p + n) (op a);
    loop1 op t (S n) p mem'
  end.

(** if (length <= 0) return 0; *)
Definition guarded (len : Z) (mem : list Z) (run : nat -> outcome (list Z)) : outcome (list Z) :=
  if (len <=? 0)%Z then Ok mem else run (Z.to_nat len).

(** The expressions are computed in int and converted to unsigned char. *)
(** CBL_AND, common.c 2292-2306. *)
Definition cbl_and (p1 p2 : nat) (len : Z) (mem : list Z) :=
  guarded len mem (fun n => loop2 (fun a b => u8 (Z.land b a)) n 0 p1 p2 mem).
(** CBL_OR, common.c 2308-2322. *)
Definition cbl_or (p1 p2 : nat) (len : Z) (mem : list Z) :=
  guarded len mem (fun n => loop2 (fun a b => u8 (Z.lor b a)) n 0 p1 p2 mem).
(** CBL_NOR, common.c 2324-2338. *)
Definition cbl_nor (p1 p2 : nat) (len : Z) (mem : list Z) :=
  guarded len mem (fun n => loop2 (fun a b => u8 (Z.lnot (Z.lor a b))) n 0 p1 p2 mem).
(** CBL_XOR, common.c 2340-2354. *)
Definition cbl_xor (p1 p2 : nat) (len : Z) (mem : list Z) :=
  guarded len mem (fun n => loop2 (fun a b => u8 (Z.lxor b a)) n 0 p1 p2 mem).
(** CBL_IMP, common.c 2356-2370. *)
Definition cbl_imp (p1 p2 : nat) (len : Z) (mem : list Z) :=
  guarded len mem (fun n => loop2 (fun a b => u8 (Z.lor (Z.lnot a) b)) n 0 p1 p2 mem).
(** CBL_NIMP, common.c 2372-2386. *)
Definition cbl_nimp (p1 p2 : nat) (len : Z) (mem : list Z) :=
  guarded len mem (fun n => loop2 (fun a b => u8 (Z.land a (Z.lnot b))) n 0 p1 p2 mem).
(** CBL_EQ, common.c 2388-2402. *)
Definition cbl_eq (p1 p2 : nat) (len : Z) (mem : list Z) :=
  guarded len mem (fun n => loop2 (fun a b => u8 (Z.lnot (Z.lxor a b))) n 0 p1 p2 mem).
(** CBL_NOT, common.c 2404-2418. *)
Definition cbl_not (p : nat) (len : Z) (mem : list Z) :=
  guarded len mem (fun n => loop1 (fun a => u8 (Z.lnot a)) n 0 p mem).

(** CBL_TOUPPER, common.c 2487-2502, and CBL_TOLOWER, common.c 2504-2519
    (islower/isupper/toupper/tolower in the "C" locale). *)
Definition to_upper (c : Z) : Z := (if (97 <=? c) && (c <=? 122) then c - 32 else c)%Z.
Definition to_lower (c : Z) : Z := (if (65 <=? c) && (c <=? 90) then c + 32 else c)%Z.
Definition cbl_toupper (p : nat) (len : Z) (mem : list Z) :=
  guarded len mem (fun n => loop1 to_upper n 0 p mem).
Definition cbl_tolower (p : nat) (len : Z) (mem : list Z) :=
  guarded len mem (fun n => loop1 to_lower n 0 p mem).

(** CBL_XF4 (X"F4"), common.c 2420-2432: *data_1 |= (data_2[n] & 1) << (7 - n). *)
Fixpoint xf4_loop (todo n : nat) (p1 p2 : nat) (mem : list Z) : outcome (list Z) :=
  match todo with
  | O => Ok mem
  | S t =>
    do a <- rd mem p1;
    do b <- rd mem (p2 + n);
    do mem' <- wr mem p1 (u8 (Z.lor a (Z.shiftl (Z.land b 1) (7 - Z.of_nat n))));
    xf4_loop t (S n) p1 p2 mem'
  end.
Definition cbl_xf4 (p1 p2 : nat) (mem : list Z) : outcome (list Z) :=
  do mem' <- wr mem p1 0%Z; xf4_loop 8 0 p1 p2 mem'.

(** CBL_XF5 (X"F5"), common.c 2434-2445. *)
Fixpoint xf5_loop (todo n : nat) (p1 p2 : nat) (mem : list Z) : outcome (list Z) :=
  match todo with
  | O => Ok mem
  | S t =>
    do a <- rd mem p1;
    do mem' <- wr mem (p2 + n)
      (if (Z.land a (Z.shiftl 1 (7 - Z.of_nat n)) =? 0)%Z then 0%Z else 1%Z);
    xf5_loop t (S n) p1 p2 mem'
  end.
Definition cbl_xf5 (p1 p2 : nat) (mem : list Z) : outcome (list Z) := xf5_loop 8 0 p1 p2 mem.

(** CBL_X91 (X"91") functions 11 and 12, common.c 2447-2485: the run-unit
    switches (eight values) set from and copied to an area. *)
Fixpoint x91_set (todo i : nat) (p : nat) (mem sw : list Z) : outcome (list Z) :=
  match todo with
  | O => Ok sw
  | S t =>
    do b <- rd mem (p + i);
    x91_set t (S i) p mem (if (b =? 0)%Z then upd i 0%Z sw else if (b =? 1)%Z then upd i 1%Z sw else sw)
  end.
Fixpoint x91_get (todo i : nat) (p : nat) (mem sw : list Z) : outcome (list Z) :=
  match todo with
  | O => Ok mem
  | S t =>
    do mem' <- wr mem (p + i) (nth i sw 0%Z);
    x91_get t (S i) p mem' sw
  end.
(** (result byte, memory, switches). *)
Definition cbl_x91 (func : Z) (p : nat) (nparams : Z) (mem sw : list Z) : outcome (Z * list Z * list Z) :=
  if (func =? 11)%Z then do sw' <- x91_set 8 0 p mem sw; Ok (0%Z, mem, sw')
  else if (func =? 12)%Z then do mem' <- x91_get 8 0 p mem sw; Ok (0%Z, mem', sw)
  else if (func =? 16)%Z then do mem' <- wr mem p (u8 nparams); Ok (0%Z, mem', sw)
  else Ok (1%Z, mem, sw).

(** The two counting loops of cob_acuw_justify, common.c 2647-2660. *)
Fixpoint lead_spaces (l : list Z) : nat :=
  match l with
  | [] => 0
  | c :: r => if (c =? 32)%Z then S (lead_spaces r) else 0
  end.
Inductive direction := JLeft | JCentre | JRight.
(** C$JUSTIFY, common.c 2623-2692, on an item [data]. *)
Definition acuw_justify (data : list Z) (dir : direction) : outcome (list Z) :=
  let datalen := length data in
  if datalen <? 2 then Ok data else
  if negb (nth 0 data 0 =? 32)%Z && negb (nth (datalen - 1) data 0 =? 32)%Z then Ok data else
  let left := lead_spaces data in
  if left =? datalen then Ok data else
  let right := lead_spaces (rev data) in
  let movelen := datalen - left - right in
  match dir with
  | JLeft =>
    do d <- memmove data 0 left movelen;
    memset d movelen 32 (datalen - movelen)
  | JCentre =>
    let centrelen := Nat.div2 (left + right) in
    do d <- memmove data centrelen left movelen;
    do d <- memset d 0 32 centrelen;
    if Nat.odd (left + right) then memset d (centrelen + movelen) 32 (centrelen + 1)
    else memset d (centrelen + movelen) 32 centrelen
  | JRight =>
    do d <- memmove data (left + right) left movelen;
    memset d 0 32 (datalen - movelen)
  end.
