(** Specification vocabulary for the statistical functions: numbers only. *)
From Coq Require Import QArith Qabs.
From Verif Require Import Base SpecIntr.
Local Open Scope Z_scope.

(** [q] is the number at position [k] (counted from 0) when [l] is written in
    ascending order: it is one of the numbers, at most [k] of them are smaller,
    and more than [k] of them are not greater. *)
Definition ranked (l : list Q) (k : nat) (q : Q) : Prop :=
  (exists x, In x l /\ (x == q)%Q) /\
  (length (filter (fun x => negb (Qle_bool q x)) l) <= k)%nat /\
  (k < length (filter (fun x => Qle_bool x q) l))%nat.

Definition least (l : list Q) (q : Q) : Prop := (exists x, In x l /\ (x == q)%Q) /\ forall x, In x l -> (q <= x)%Q.
Definition greatest (l : list Q) (q : Q) : Prop := (exists x, In x l /\ (x == q)%Q) /\ forall x, In x l -> (x <= q)%Q.

(** The mean and the variance (of the whole population). *)

Definition meanQ (l : list Q) : Q := (Qsum l / inject_Z (Z.of_nat (length l)))%Q.
Definition varianceQ (l : list Q) : Q := meanQ (map (fun x => (x - meanQ l) * (x - meanQ l))%Q l).

(** [i] is how many digits the integer [w] is written with (none for 0). *)
Definition digit_count (w i : Z) : Prop := 0 <= i /\ Z.abs w < 10 ^ i /\ (0 < i -> 10 ^ (i - 1) <= Z.abs w).
