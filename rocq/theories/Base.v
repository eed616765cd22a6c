(** Basic vocabulary shared by the model: bytes, lists, outcomes, C integers.
    Not tied to one source function; the C types referred to are those of
    libcob/common.h (unsigned char, int 32 bit, long long 64 bit, x86-64). *)
From Coq Require Export ZArith List Bool Lia Permutation Sorted.
From Coq Require Export ZifyBool ZifyNat.
Export ListNotations.
Open Scope Z_scope.

Ltac Zify.zify_post_hook ::= Z.div_mod_to_equations.

(** A byte of storage. *)
Definition byte := Z.
Definition is_byte (b : Z) : Prop := 0 <= b <= 255.
Definition bytes_ok (l : list Z) : Prop := Forall is_byte l.

(** Outcome of running C code: a result, undefined behaviour (out-of-range
    access, signed overflow, dangling pointer, ...), or a case that this model
    does not describe (floating point, unparsable digit strings given to GMP). *)
Inductive outcome (A : Type) : Type :=
| Ok : A -> outcome A
| UB : outcome A
| NotModelled : outcome A.
Arguments Ok {A} _.
Arguments UB {A}.
Arguments NotModelled {A}.

Definition obind {A B} (x : outcome A) (f : A -> outcome B) : outcome B :=
  match x with Ok a => f a | UB => UB | NotModelled => NotModelled end.
Notation "'do' x <- e ; f" := (obind e (fun x => f))
  (at level 200, x name, e at level 100, f at level 200, right associativity).

(** C integer ranges (x86-64). *)
Definition INT_MIN : Z := -2147483648.
Definition INT_MAX : Z := 2147483647.
Definition is_int (n : Z) : Prop := INT_MIN <= n <= INT_MAX.
Definition LL_MIN : Z := -9223372036854775808.
Definition LL_MAX : Z := 9223372036854775807.
Definition is_ll (n : Z) : Prop := LL_MIN <= n <= LL_MAX.
Definition is_llb (n : Z) : bool := (LL_MIN <=? n) && (n <=? LL_MAX).
Definition is_intb (n : Z) : bool := (INT_MIN <=? n) && (n <=? INT_MAX).

(** Conversion to unsigned char. *)
Definition u8 (x : Z) : Z := x mod 256.

(** In-place modification of one byte ([data[i] = v]). *)
Fixpoint upd (i : nat) (v : Z) (l : list Z) {struct l} : list Z :=
  match l with
  | [] => []
  | x :: r => match i with O => v :: r | S j => x :: upd j v r end
  end.

(** ASCII codes used in the sources. *)
Definition c_sp : Z := 32.    (* ' ' *)
Definition c_plus : Z := 43.  (* '+' *)
Definition c_comma : Z := 44.
Definition c_minus : Z := 45. (* '-' *)
Definition c_dot : Z := 46.
Definition c_0 : Z := 48.     (* '0' *)
Definition c_9 : Z := 57.     (* '9' *)

(** isdigit-style test on a byte: [c >= '0' && c <= '9']. *)
Definition is_digitb (c : Z) : bool := (48 <=? c) && (c <=? 57).
Definition is_digit (c : Z) : Prop := 48 <= c <= 57.
Definition digits_ok (l : list Z) : Prop := Forall is_digit l.

(** Sign of an integer as -1/0/1 (mpz_sgn). *)
Definition sgn (z : Z) : Z := Z.sgn z.
