(** Specification vocabulary for the intrinsic functions. *)
From Coq Require Import QArith Qround.
From Verif Require Import Base Field SpecNum Numeric SpecStore.
Local Open Scope Z_scope.

(** The item [f] holds the number [q]. *)
Definition number_in (ebc : bool) (f : field) (q : Q) : Prop :=
  exists v, denotes ebc f v /\ (rat v (a_scale (fa f)) == q)%Q.

(** The first decimal digit of the number v * 10^(-s), s >= 1. *)
Definition first_decimal (v s : Z) : Z := Z.abs v / 10 ^ (s - 1) mod 10.

(** The sum of a list of numbers. *)
Fixpoint Qsum (l : list Q) : Q := match l with [] => 0 | q :: r => (q + Qsum r)%Q end.

(** [k] is the position of the first of the best elements: no element is better
    than it, and it is better than every one in front of it. *)
Definition first_best {A : Type} (better : A -> A -> Prop) (l : list A) (k : nat) : Prop :=
  exists x, nth_error l k = Some x /\
    (forall i y, nth_error l i = Some y -> ~ better y x) /\
    (forall i y, (i < k)%nat -> nth_error l i = Some y -> better x y).
