(** The hierarchy of data items and qualified names as the user reads them off
    the level numbers. *)
From Verif Require Import Base.
Local Open Scope Z_scope.

(** An entry: level number and name.  Entries are numbered from 0. *)
Definition entry := (Z * Z)%type.
Definition level (es : list entry) (i : nat) : Z := fst (nth i es (0, 0)).
Definition named (es : list entry) (i : nat) : Z := snd (nth i es (0, 0)).

(** 01 and 77 start a new record; 88 is a condition name. *)
Definition is_top (lv : Z) : Prop := lv = 1 \/ lv = 77.
Definition is_cond (lv : Z) : Prop := lv = 88.
Definition depth (lv : Z) : Z := if lv =? 77 then 1 else lv.

(** [p] is the item that [i] belongs to: a condition belongs to the item before
    it, an item to the nearest item before it with a smaller level number. *)
Definition parent_of (es : list entry) (i p : nat) : Prop :=
  (i < length es)%nat /\ ~ is_top (level es i) /\ (p < i)%nat /\ ~ is_cond (level es p) /\
  (is_cond (level es i) \/ depth (level es p) < level es i) /\
  (forall j, (p < j < i)%nat -> ~ is_cond (level es j) ->
     ~ is_cond (level es i) /\ level es i <= depth (level es j)).

(** A correct section of entries. *)
Record valid (es : list entry) : Prop := mkValid {
  v_first : es <> [] -> is_top (level es 0);
  v_level : forall i, (i < length es)%nat ->
      1 <= level es i <= 49 \/ level es i = 77 \/ level es i = 88;
  (* a 77 has no parts *)
  v_77 : forall i p, parent_of es i p -> ~ is_cond (level es i) -> level es p <> 77;
  (* the parts of an item have the same level number *)
  v_parts : forall i j p, parent_of es i p -> parent_of es j p ->
      ~ is_cond (level es i) -> ~ is_cond (level es j) -> level es i = level es j }.

(** The parts of item [p], in the order of the source. *)
Definition parts (es : list entry) (p : nat) (l : list nat) : Prop :=
  Sorted lt l /\ (forall i, In i l <-> parent_of es i p /\ ~ is_cond (level es i)).
Definition records (es : list entry) (l : list nat) : Prop :=
  Sorted lt l /\ (forall i, In i l <-> (i < length es)%nat /\ is_top (level es i)).

(** The names of the items [i] belongs to, from the inside out. *)
Inductive owners (es : list entry) : nat -> list Z -> Prop :=
  | owners_top : forall i, (i < length es)%nat -> is_top (level es i) -> owners es i []
  | owners_in : forall i p l, parent_of es i p -> owners es p l -> owners es i (named es p :: l).

(** Some of them, in order. *)
Inductive some_of : list Z -> list Z -> Prop :=
  | some_nil : forall l, some_of [] l
  | some_take : forall a c l, some_of c l -> some_of (a :: c) (a :: l)
  | some_skip : forall a c l, some_of c l -> some_of c (a :: l).

(** "n OF c1 OF c2 ..." can mean item [i]: the c are some of its owners from
    the inside out, or all but the last are and the last names the file that
    the record belongs to. *)
Definition can_mean (es : list entry) (file : Z -> Prop) (i : nat) (c : list Z) : Prop :=
  exists l, owners es i l /\
    (some_of c l \/ exists c' q, c = c' ++ [q] /\ file q /\ some_of c' l).

(** References to paragraphs and sections.  [where_ p] is the section of the
    paragraph p. *)
Definition only (P : nat -> Prop) (v : nat) : Prop := P v /\ forall w, P w -> w = v.
Definition several (P : nat -> Prop) : Prop := exists v w, v <> w /\ P v /\ P w.
(** Procedure names: a list of paragraphs and sections with the name and, for
    a paragraph, the section it is in. *)
Definition proc := (Z * option nat)%type.
Definition is_named (l : list proc) (n : Z) (p : nat) : Prop := exists s, nth_error l p = Some (n, s).
Definition lies_in (l : list proc) (s : nat) (p : nat) : Prop := exists n, nth_error l p = Some (n, Some s).
Definition of_section (l : list proc) (q : Z) (p : nat) : Prop := exists s t, lies_in l s p /\ nth_error l s = Some (q, t).
