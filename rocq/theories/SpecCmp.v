(** Specification of text comparison: the order of the character sequences,
    each continued with spaces for ever, under a collating sequence. *)
From Verif Require Import Base.

(** Rank of character [i] (0-based) of a text, spaces after its end;
    [col] = the table of the collating sequence, if any. *)
Definition rank (col : option (list Z)) (c : Z) : Z :=
  match col with None => c | Some t => nth (Z.to_nat c) t 0 end.
Definition char_rank (col : option (list Z)) (t : list Z) (i : nat) : Z := rank col (nth i t 32).

Definition text_lt (col : option (list Z)) (t u : list Z) : Prop :=
  exists i, (forall j, (j < i)%nat -> char_rank col t j = char_rank col u j) /\
            char_rank col t i < char_rank col u i.
Definition text_eq (col : option (list Z)) (t u : list Z) : Prop :=
  forall i, char_rank col t i = char_rank col u i.

(** A three-way result [c] agrees with the order of the texts. *)
Definition cmp_agrees (col : option (list Z)) (t u : list Z) (c : Z) : Prop :=
  (c < 0 <-> text_lt col t u) /\ (c = 0 <-> text_eq col t u) /\ (0 < c <-> text_lt col u t).
