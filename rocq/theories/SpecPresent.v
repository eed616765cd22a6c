(** The present value of amounts paid at the ends of periods. *)
From Coq Require Import QArith.
From Verif Require Import Base.
Local Open Scope Z_scope.

(** a1 / (1 + r)^i + a2 / (1 + r)^(i+1) + ... *)
Fixpoint present_from (r : Q) (i : Z) (amounts : list Q) : Q :=
  match amounts with [] => 0%Q | a :: rest => (a / (1 + r) ^ i + present_from r (i + 1) rest)%Q end.
