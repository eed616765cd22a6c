(** Specification of arithmetic expressions and statements.  The syntax of
    expressions is shared with the model; nothing else of the code is used. *)
From Coq Require Import QArith Qabs.
From Verif Require Import Base Field Sign Decimal SpecNum Numeric SpecStore Move Edited MoveAll SpecMove SpecEdit Compute.
Local Open Scope Z_scope.

(** What the items of a program hold: item i is a numeric item that holds the
    number [vals i] (times its scale). *)
Definition nil_item : field := mkField alnum_attr [].
Definition num (items : list field) (vals : nat -> Z) (i : nat) : Q :=
  rat (vals i) (a_scale (fa (nth i items nil_item))).

Section Spec.
Variables (items : list field) (vals : nat -> Z).

(** A whole number used as an exponent: a literal without decimal places, or
    an item without. *)
Inductive whole : expr -> Z -> Prop :=
| wh_zero : whole EZero 0
| wh_lit : forall s ds, whole (ELit s ds 0) (signed_value (s <? 0) ds)
| wh_ref : forall i, a_scale (fa (nth i items nil_item)) = 0 -> whole (ERef i) (vals i).

(** The values an expression may take.  Sums, differences, products and powers
    are exact; a quotient is cut at 37 or more decimal places. *)
Inductive computes : expr -> Q -> Prop :=
| co_zero : forall q, (q == 0)%Q -> computes EZero q
| co_lit : forall s ds sc q, (q == rat (signed_value (s <? 0) ds) sc)%Q -> computes (ELit s ds sc) q
| co_ref : forall i q, (q == num items vals i)%Q -> computes (ERef i) q
| co_fun : forall i q, (q == num items vals i)%Q -> computes (EFun i) q
| co_add : forall x y a b q, computes x a -> computes y b -> (q == a + b)%Q -> computes (EBin AAdd x y) q
| co_sub : forall x y a b q, computes x a -> computes y b -> (q == a - b)%Q -> computes (EBin ASub x y) q
| co_mul : forall x y a b q, computes x a -> computes y b -> (q == a * b)%Q -> computes (EBin AMul x y) q
| co_div : forall x y a b q k w, computes x a -> computes y b -> ~ (b == 0)%Q ->
    37 <= k -> trunc_at (a / b) k w -> (q == rat w k)%Q -> computes (EBin ADiv x y) q
| co_pow : forall x y a n q, computes x a -> whole y n -> (q == a ^ n)%Q -> computes (EBin APow x y) q.

(** Expressions that fail: a divisor is zero somewhere. *)
Inductive fails : expr -> Prop :=
| fa_div : forall x y b, computes y b -> (b == 0)%Q -> fails (EBin ADiv x y)
| fa_left : forall op x y, fails x -> fails (EBin op x y)
| fa_right : forall op x y, fails y -> fails (EBin op x y).

(** The exact value (quotients not cut). *)
Fixpoint exact (e : expr) : Q :=
  match e with
  | EZero => 0
  | ELit s ds sc => rat (signed_value (s <? 0) ds) sc
  | ERef i | EFun i => num items vals i
  | EBin AAdd x y => exact x + exact y
  | EBin ASub x y => exact x - exact y
  | EBin AMul x y => exact x * exact y
  | EBin ADiv x y => exact x / exact y
  | EBin APow x y => exact x ^ match y with ELit s ds _ => signed_value (s <? 0) ds | ERef i => vals i | _ => 0 end
  end.
Fixpoint has_div (e : expr) : bool :=
  match e with EBin op x y => match op with ADiv => true | _ => false end || has_div x || has_div y | _ => false end.

(** [within e lo hi]: every intermediate result of [e] has more than -128
    decimal places, the result between [lo] and [hi]; exponents are whole and
    below 2^32 and powers have fewer than 2^31 decimal places. *)
Inductive within : expr -> Z -> Z -> Prop :=
| pl_zero : within EZero 0 0
| pl_lit : forall s ds sc, -128 < sc -> within (ELit s ds sc) sc sc
| pl_ref : forall i sc, sc = a_scale (fa (nth i items nil_item)) -> -128 < sc -> within (ERef i) sc (Z.max 0 sc)
| pl_fun : forall i sc, sc = a_scale (fa (nth i items nil_item)) -> -128 < sc -> within (EFun i) sc sc
| pl_add : forall x y a b c d, within x a b -> within y c d -> within (EBin AAdd x y) (Z.max a c) (Z.max b d)
| pl_sub : forall x y a b c d, within x a b -> within y c d -> within (EBin ASub x y) (Z.max a c) (Z.max b d)
| pl_mul : forall x y a b c d, within x a b -> within y c d -> -128 < a + c -> within (EBin AMul x y) (a + c) (b + d)
| pl_div : forall x y a b c d, within x a b -> within y c d -> within (EBin ADiv x y) 0 (37 + Z.max 0 (b - c))
| pl_pow : forall x y a b c d n, within x a b -> within y c d -> whole y n -> 0 <= n < 2 ^ 32 -> -128 < a * n -> b * n < 2 ^ 31 ->
    within (EBin APow x y) (a * n) (b * n).

(** The operands: items hold numbers; an item with trailing P positions
    (negative scale) must be longer than what the compiler handles as an int,
    or be a DISPLAY item within the int range. *)
Definition operand_ok (m : cfg) (i : nat) : Prop :=
  let f := nth i items nil_item in
  (i < length items)%nat /\ denotes (c_ebcdic m) f (vals i).
Definition direct_ok (i : nat) : Prop :=
  let f := nth i items nil_item in
  let sc := a_scale (fa f) in
  0 <= sc \/ (a_type (fa f) = TDisplay /\ (9 < f_size f)%nat) \/ (a_type (fa f) = TPacked /\ 9 < a_digits (fa f)) \/
  (a_type (fa f) = TBinary /\ (4 < f_size f)%nat) \/
  (a_type (fa f) = TDisplay /\ -10 < sc /\ Z.abs (vals i) * 10 ^ (- sc) < 2 ^ 31).
Inductive operands_ok (m : cfg) : expr -> Prop :=
| ok_zero : operands_ok m EZero
| ok_lit : forall s ds sc, ds <> [] -> Forall is_dig ds -> -1 <= s <= 1 -> operands_ok m (ELit s ds sc)
| ok_ref : forall i, operand_ok m i -> direct_ok i -> operands_ok m (ERef i)
| ok_fun : forall i, operand_ok m i -> operands_ok m (EFun i)
| ok_bin : forall op x y, operands_ok m x -> operands_ok m y -> operands_ok m (EBin op x y).
End Spec.

(** ** Stores *)

(** Item [f'] is the numeric item [f] after the value [q] was stored with
    options [o]: rounded or cut at the item's scale; if it does not fit, the old
    contents are kept with ON SIZE ERROR, the low-order digits stored without. *)
Definition numeric_result (m : cfg) (o : opts) (f : field) (q : Q) (f' : field) : Prop :=
  fa f' = fa f /\ f_size f' = f_size f /\
  forall w, rounded o q (a_scale (fa f)) w ->
    (fits m o f w -> denotes (c_ebcdic m) f' (held f w)) /\
    (~ fits m o f w -> o_keep o = true -> f' = f) /\
    (~ fits m o f w -> o_keep o = false ->
       (forall k, wf_display f k \/ wf_packed f k -> denotes (c_ebcdic m) f' (held f (low_part k w))) /\
       (wf_binary f -> bytes_ok (fd f') /\ bin_unsigned (a_swap (fa f)) (fd f') =
          (if o_trunc o then Z.abs w mod 10 ^ a_digits (fa f) else held f w) mod 2 ^ bits f)).

(** A numeric-edited item declared with picture [p]. *)
Definition edited_target (m : cfg) (p : picture) (f : field) : Prop :=
  edit_cfg m /\ editable p /\ edited_item m p f /\ a_scale (fa f) = decimals (p_body p) /\
  a_digits (fa f) = edit_digits p /\ 1 <= edit_digits p <= 64.
Definition edited_result (m : cfg) (o : opts) (p : picture) (f : field) (q : Q) (f' : field) : Prop :=
  forall w, rounded o q (decimals (p_body p)) w ->
    let shows v := exists neg, sign_of (rat v (decimals (p_body p))) neg /\
                     f' = set_fd f (edited_text m p (Z.abs v) neg (a_bzero (fa f))) in
    (Z.abs w < 10 ^ edit_digits p -> shows w) /\
    (10 ^ edit_digits p <= Z.abs w -> o_keep o = true -> f' = f) /\
    (10 ^ edit_digits p <= Z.abs w -> o_keep o = false -> shows (low_part (Z.to_nat (edit_digits p)) w)).

Definition target_ok (m : cfg) (f : field) : Prop :=
  a_scale (fa f) <= 36 /\ (numeric_item f \/ exists p, edited_target m p f).
Definition result_in (m : cfg) (o : opts) (f : field) (q : Q) (f' : field) : Prop :=
  fa f' = fa f /\
  (numeric_item f -> numeric_result m o f q f') /\ (forall p, edited_target m p f -> edited_result m o p f q f').
(** The value does not fit. *)
Definition overflows (m : cfg) (o : opts) (f : field) (q : Q) : Prop :=
  exists w, rounded o q (a_scale (fa f)) w /\
    ((numeric_item f /\ ~ fits m o f w) \/ (exists p, edited_target m p f /\ 10 ^ edit_digits p <= Z.abs w)).

(** Values that stay within the run-time's conversion buffers. *)
Definition moderate (q : Q) : Prop := (Qabs q < rat (10 ^ 1900) 0)%Q.

(** After the statement [s'], all targets [ts] (item number, options) have
    received the values [val], no other item has changed, and a size exception
    was raised exactly if some value did not fit. *)
Definition targets_ok (m : cfg) (s : mach) (ts : list (nat * opts)) : Prop :=
  NoDup (map fst ts) /\
  forall t, In t ts -> (fst t < length (mi s))%nat /\ target_ok m (item s (fst t)).
Definition stored_all (m : cfg) (ts : list (nat * opts)) (val : nat -> Q) (s s' : mach) : Prop :=
  length (mi s') = length (mi s) /\
  (forall t, In t ts -> result_in m (snd t) (item s (fst t)) (val (fst t)) (item s' (fst t))) /\
  (forall i, ~ In i (map fst ts) -> item s' i = item s i) /\
  ((exists t, In t ts /\ overflows m (snd t) (item s (fst t)) (val (fst t))) -> mx s' = true) /\
  ((forall t, In t ts -> ~ overflows m (snd t) (item s (fst t)) (val (fst t))) -> mx s' = mx s) /\
  (mx s = true -> mx s' = true).

(** The operations of ADD, SUBTRACT, MULTIPLY and DIVIDE on a receiver. *)
Definition opq (k : aop) (a b : Q) : Q :=
  match k with AAdd => a + b | ASub => a - b | AMul => a * b | ADiv => a / b | APow => 0 end.

(** Receivers that are also operands (ADD ... TO and the like). *)
Definition updates (k : aop) (m : cfg) (s : mach) (vals : nat -> Z) (lo : Z) (ts : list (nat * opts)) : Prop :=
  forall t, In t ts -> operand_ok (mi s) vals m (fst t) /\ direct_ok (mi s) vals (fst t) /\
    -128 < a_scale (fa (item s (fst t))) /\ (k = AMul -> -128 < a_scale (fa (item s (fst t))) + lo).

(** The operand is not changed before the last store. *)
Definition reads (e : expr) (i : nat) : Prop := e = ERef i \/ e = EFun i.
Definition undisturbed (e : expr) (ts : list (nat * opts)) : Prop :=
  forall i, reads e i -> ~ In i (map fst (removelast ts)).
Definition general_form (s : mach) (e : expr) (ts : list (nat * opts)) : Prop :=
  forall t, In t ts -> opt_nonzero (snd t) = true \/ fits_operand s e = false.


(** ** Statements *)
Section Meaning.
Variables (items : list field) (vals : nat -> Z).
Fixpoint total (xs : list expr) : Q := match xs with [] => 0%Q | x :: r => (exact items vals x + total r)%Q end.

(** The receivers of a statement, the value each of them gets, and the divisor. *)
Definition receivers (st : stmt) : list (nat * opts) :=
  match st with
  | SAdd _ _ ts | SAddGiving _ _ ts | SSub _ _ ts | SSubGiving _ _ ts | SMul _ ts | SMulGiving _ _ ts
  | SDiv _ ts | SDivGiving _ _ ts | SCompute ts _ => ts
  end.
Definition meaning (st : stmt) (i : nat) : Q :=
  match st with
  | SAdd x xs _ => num items vals i + total (x :: xs)
  | SAddGiving x xs _ => total (x :: xs)
  | SSub x xs _ => num items vals i - total (x :: xs)
  | SSubGiving xs y _ => exact items vals y - total xs
  | SMul x _ => num items vals i * exact items vals x
  | SMulGiving x y _ => exact items vals x * exact items vals y
  | SDiv x _ => num items vals i / exact items vals x
  | SDivGiving x y _ => exact items vals x / exact items vals y
  | SCompute _ e => exact items vals e
  end.
Definition divisor (st : stmt) : Q :=
  match st with SDiv x _ => exact items vals x | SDivGiving _ y _ => exact items vals y | _ => 1 end.
Definition operands (st : stmt) : list expr :=
  match st with
  | SAdd x xs _ | SAddGiving x xs _ | SSub x xs _ => x :: xs
  | SSubGiving xs y _ => y :: xs
  | SMul x _ | SDiv x _ => [x]
  | SMulGiving x y _ | SDivGiving x y _ => [x; y]
  | SCompute _ e => [e]
  end.
(** Which statements compute with their receivers. *)
Definition updating (st : stmt) : bool :=
  match st with SAdd _ _ _ | SSub _ _ _ | SMul _ _ | SDiv _ _ => true | _ => false end.
End Meaning.

(** What is assumed of the operands: literals and items (COMPUTE: an expression
    without division), holding numbers. *)
Definition operand_fine (items : list field) (vals : nat -> Z) (m : cfg) (e : expr) : Prop :=
  operands_ok items vals m e /\ (exists lo hi, within items vals e lo hi /\ -63 <= lo).
Definition fine (m : cfg) (s : mach) (vals : nat -> Z) (st : stmt) : Prop :=
  (forall e, In e (operands st) -> operand_fine (mi s) vals m e /\
     match st with SCompute _ _ => has_div e = false | _ => is_op e = false end) /\
  targets_ok m s (receivers st) /\
  (updating st = true -> forall t, In t (receivers st) ->
     operand_ok (mi s) vals m (fst t) /\ direct_ok (mi s) vals (fst t) /\ -63 <= a_scale (fa (item s (fst t)))) /\
  (* a single operand of ADD or SUBTRACT: not ZERO, not changed by the statement before it is used again,
     and added by the general routine *)
  match st with
  | SAdd x [] ts | SSub x [] ts => x <> EZero /\ undisturbed x ts /\ general_form s x ts
  | _ => True
  end.
