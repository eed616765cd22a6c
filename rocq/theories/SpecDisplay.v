(** What DISPLAY shows (specification; independent of the run-time code). *)
From Coq Require Import QArith Qabs.
From Verif Require Import Base Field SpecNum SpecEdit.
Local Open Scope Z_scope.

(** The [n] low-order decimal figures of [N]. *)
Fixpoint figures (n : nat) (N : Z) : list Z :=
  match n with
  | O => []
  | S k => figures k (N / 10) ++ [48 + N mod 10]
  end.

(** The sign is shown in front of the number. *)
Definition signed_text (signed neg : bool) (t : list Z) : list Z :=
  (if signed then [if neg then 45 else 43] else []) ++ t.

(** A number with [n] digit positions, [s] of them decimals. *)
Definition number_shown (m : cfg) (n s : Z) (N : Z) : list Z :=
  if 0 <? s then figures (Z.to_nat (n - s)) (N / 10 ^ s) ++ [c_decpoint m] ++ figures (Z.to_nat s) N
  else figures (Z.to_nat n) N.

(** [t] shows the item [f] holding the number [q]: all digit positions of its
    picture, the decimal point where the picture has it, and the sign if the
    picture has one. *)
Definition shown_as (m : cfg) (f : field) (q : Q) (t : list Z) : Prop :=
  exists N neg,
    0 <= N < 10 ^ a_digits (fa f) /\
    (Qabs q == rat N (Z.max 0 (a_scale (fa f))))%Q /\ sign_of q neg /\
    t = signed_text (a_sign (fa f)) neg (number_shown m (a_digits (fa f)) (a_scale (fa f)) N).

(** Digits enough for every number of a binary item of this many bytes. *)
Definition binary_figures (n : nat) : nat := nth n [1; 3; 5; 8; 10; 13; 15; 17; 20]%nat 0%nat.

(** Without pretty printing: the digits of the item as they are held, without a
    decimal point; the sign in front for SIGN IS LEADING and binary items, behind
    otherwise. *)
Definition digits_shown (f : field) (n : nat) (v : Z) (neg : bool) : list Z :=
  let ds := figures n (Z.abs v) in
  if a_sign (fa f) then
    if a_lead (fa f) || match a_type (fa f) with TBinary => true | _ => false end
    then [if neg then 45 else 43] ++ ds else ds ++ [if neg then 45 else 43]
  else ds.
Definition held_as (f : field) (n : nat) (v : Z) (t : list Z) : Prop :=
  exists neg, (v < 0 -> neg = true) /\ (0 < v -> neg = false) /\ Z.abs v < 10 ^ Z.of_nat n /\
    t = digits_shown f n v neg.
