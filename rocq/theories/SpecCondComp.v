(** Conditional compilation as its user sees it: blocks, not a stack. *)
From Verif Require Import Base SpecFixedSrc.
Local Open Scope Z_scope.

(** Source with $IF blocks: [BIf d th e rest] is the line d ($IF), the lines th,
    the line e ($END) and what follows; [BIfElse] has the line m ($ELSE) and
    the lines el as well. *)
Inductive block :=
  | BNil
  | BLine (l : list Z) (rest : block)
  | BIf (d : list Z) (th : block) (e : list Z) (rest : block)
  | BIfElse (d : list Z) (th : block) (m : list Z) (el : block) (e : list Z) (rest : block).

Fixpoint source (b : block) : list (list Z) :=
  match b with
  | BNil => []
  | BLine l r => l :: source r
  | BIf d th e r => d :: source th ++ e :: source r
  | BIfElse d th m el e r => d :: source th ++ m :: source el ++ e :: source r
  end.
Fixpoint nesting (b : block) : nat :=
  match b with
  | BNil => 0
  | BLine _ r => nesting r
  | BIf _ th _ r => Nat.max (S (nesting th)) (nesting r)
  | BIfElse _ th _ el _ r => Nat.max (Nat.max (S (nesting th)) (S (nesting el))) (nesting r)
  end.

(** Words are separated by blanks. *)
Inductive split : list Z -> list (list Z) -> Prop :=
  | split_nil : forall k, split (repeat 32 k) []
  | split_last : forall k w, w <> [] -> Forall (fun c => 32 < c) w -> split (repeat 32 k ++ w) [w]
  | split_cons : forall k w l ws, w <> [] -> Forall (fun c => 32 < c) w -> split l ws ->
      split (repeat 32 k ++ w ++ 32 :: l) (w :: ws).

(** Equal but for the case of letters. *)
Definition letter_case (a b : Z) : Prop :=
  a = b \/ (65 <= a <= 90 /\ b = a + 32) \/ (65 <= b <= 90 /\ a = b + 32).
Definition word_eq : list Z -> list Z -> Prop := Forall2 letter_case.

(** The words of the directive in a line: from column 7 to 72. *)
Definition says (l : list Z) (ws : list (list Z)) : Prop :=
  ~ In 0 l /\ ~ has_inline l /\ (7 <= length l)%nat /\ indicator l = 36 /\
  split (skipn 6 (firstn 72 l)) ws.

(** The constants: option NAME defines a name, NAME"text" also gives it a
    text.  The first definition of a name counts. *)
Inductive option_for : list Z -> list Z * option (list Z) -> Prop :=
  | of_name : forall n, ~ In 34 n -> ~ In 40 n -> option_for n (n, None)
  | of_text : forall n v, n <> [] -> v <> [] -> ~ In 34 n -> ~ In 40 n -> ~ In 34 v -> ~ In 40 v ->
      option_for (n ++ 34 :: v ++ [34]) (n, Some v).

Inductive lookup_const : list (list Z * option (list Z)) -> list Z -> option (option (list Z)) -> Prop :=
  | lc_nil : forall n, lookup_const [] n None
  | lc_here : forall m v r n, word_eq m n -> lookup_const ((m, v) :: r) n (Some v)
  | lc_next : forall m v r n x, ~ word_eq m n -> lookup_const r n x -> lookup_const ((m, v) :: r) n x.

(** "$IF" "$ELSE" "$END" "NOT" "DEFINED" "=" *)
Definition s_if : list Z := [36; 73; 70].
Definition s_else : list Z := [36; 69; 76; 83; 69].
Definition s_end : list Z := [36; 69; 78; 68].
Definition s_not : list Z := [78; 79; 84].
Definition s_defined : list Z := [68; 69; 70; 73; 78; 69; 68].

(** The test itself, without $IF, the name and NOT. *)
Inductive test (v : option (option (list Z))) : list (list Z) -> Prop -> Prop :=
  | t_defined : forall w, word_eq w s_defined -> test v [w] (v <> None)
  | t_equal : forall u, u <> [] -> ~ In 34 u ->
      test v [[61]; 34 :: u ++ [34]] (exists t, v = Some (Some t) /\ word_eq u t).

(** $IF name test and $IF name NOT test. *)
Inductive condition (cs : list (list Z * option (list Z))) : list (list Z) -> Prop -> Prop :=
  | c_plain : forall i n v ws P, word_eq i s_if -> lookup_const cs n v -> test v ws P ->
      condition cs (i :: n :: ws) P
  | c_not : forall i n o v ws P, word_eq i s_if -> word_eq o s_not -> lookup_const cs n v -> test v ws P ->
      condition cs (i :: n :: o :: ws) (~ P).

(** A line that is left out may contain anything but a directive. *)
Definition inert (l : list Z) : Prop := ~ In 0 l /\ ~ directive l.

(** [selected cs on b ls]: the block is well formed, and [ls] are its lines
    that are compiled; [on] says whether the block as a whole is. *)
Inductive selected (cs : list (list Z * option (list Z))) : bool -> block -> list (list Z) -> Prop :=
  | sel_nil : forall on, selected cs on BNil []
  | sel_line : forall l b ls, plain l -> selected cs true b ls -> selected cs true (BLine l b) (l :: ls)
  | sel_skip : forall l b ls, inert l -> selected cs false b ls -> selected cs false (BLine l b) ls
  | sel_if : forall on d th e b ws P (c : bool) we t1 t2,
      says d ws -> condition cs ws P -> (if c then P else ~ P) ->
      says e [we] -> word_eq we s_end ->
      selected cs (on && c) th t1 -> selected cs on b t2 ->
      selected cs on (BIf d th e b) (t1 ++ t2)
  | sel_else : forall on d th m el e b ws P (c : bool) we wm t1 t2 t3,
      says d ws -> condition cs ws P -> (if c then P else ~ P) ->
      says m [wm] -> word_eq wm s_else -> says e [we] -> word_eq we s_end ->
      selected cs (on && c) th t1 -> selected cs (on && negb c) el t2 -> selected cs on b t3 ->
      selected cs on (BIfElse d th m el e b) (t1 ++ t2 ++ t3).

(** The lines of a text that are not empty. *)
Definition emit (cur : list Z) (ls : list (list Z)) : list (list Z) :=
  match cur with [] => ls | _ => cur :: ls end.
Fixpoint lines_from (cur : list Z) (l : list Z) : list (list Z) :=
  match l with
  | [] => emit cur []
  | c :: r => if c =? 10 then emit cur (lines_from [] r) else lines_from (cur ++ [c]) r
  end.
Definition text_lines (l : list Z) : list (list Z) := lines_from [] l.
