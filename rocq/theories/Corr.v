(** Model of CORRESPONDING (cobc/typeck.c 386-407 cb_check_group_name,
    3046-3135 emit_corresponding, cb_emit_corresponding,
    emit_move_corresponding, cb_emit_move_corresponding).
    An item is its number in a record section (Names.v); the subscripts of the
    groups are kept for every item and are left out. *)
From Verif Require Import Base Names.
Local Open Scope Z_scope.

(** A section: the tree, and the items with REDEFINES or OCCURS. *)
Definition csec := (list node * (nat -> bool))%type.
Definition has_children (ns : list node) (i : nat) : bool :=
  match n_child (get ns i) with Some _ => true | None => false end.

(** emit_corresponding and emit_move_corresponding, the statements in order;
    the two functions differ in the call that is emitted for a pair. *)
Fixpoint emit_corr (fuel : nat) (s1 s2 : csec) (a b : nat) : list (nat * nat) :=
  match fuel with
  | O => []
  | S k =>
    flat_map (fun i =>
      if snd s1 i then [] else
      flat_map (fun j =>
        if snd s2 j then [] else
        if n_name (get (fst s1) i) =? n_name (get (fst s2) j) then
          if has_children (fst s1) i && has_children (fst s2) j then emit_corr k s1 s2 i j
          else [(i, j)]
        else []) (children (fst s2) b)) (children (fst s1) a)
  end.

(** MOVE CORRESPONDING a TO b1 b2 ... (the targets are groups of [s2]). *)
Fixpoint move_targets (s1 s2 : csec) (a : nat) (bs : list nat) : option (list (nat * nat)) :=
  match bs with
  | [] => Some []
  | b :: r =>
    if has_children (fst s2) b then
      match move_targets s1 s2 a r with
      | None => None
      | Some l => Some (emit_corr (length (fst s1)) s1 s2 a b ++ l)
      end
    else None
  end.
Definition move_corresponding (s1 s2 : csec) (a : nat) (bs : list nat) : option (list (nat * nat)) :=
  if has_children (fst s1) a then move_targets s1 s2 a bs else None.

(** ADD or SUBTRACT CORRESPONDING b TO/FROM a: pairs (item of a changed, item of
    b used); parser.y 4277-4280, 6114-6117 pass the target first. *)
Definition arith_corresponding (s1 s2 : csec) (a b : nat) : option (list (nat * nat)) :=
  if has_children (fst s1) a && has_children (fst s2) b
  then Some (emit_corr (length (fst s1)) s1 s2 a b) else None.
