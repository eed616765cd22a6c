(** Corresponding items, from the level numbers and names. *)
From Verif Require Import Base SpecNames.
Local Open Scope Z_scope.

(** [part es i g]: item i is directly in the group g. *)
Definition part (es : list entry) (i g : nat) : Prop := parent_of es i g /\ ~ is_cond (level es i).
Definition group (es : list entry) (g : nat) : Prop := exists i, part es i g.

(** From group [a] the names [p] lead to the item [i], and no item on the way
    (the item itself included) has REDEFINES or OCCURS ([skip]). *)
Inductive leads (es : list entry) (skip : nat -> bool) : nat -> list Z -> nat -> Prop :=
  | leads_part : forall a i, part es i a -> skip i = false -> leads es skip a [named es i] i
  | leads_in : forall a g p i, part es g a -> skip g = false -> leads es skip g p i ->
      leads es skip a (named es g :: p) i.

(** [i] of group [a] corresponds to [j] of group [b]. *)
Definition corresponds (es1 es2 : list entry) (skip1 skip2 : nat -> bool) (a b i j : nat) : Prop :=
  (exists p, leads es1 skip1 a p i /\ leads es2 skip2 b p j) /\ ~ (group es1 i /\ group es2 j).
