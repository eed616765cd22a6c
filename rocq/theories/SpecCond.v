(** Specification of conditions: when a condition is true.  Shared with the
    model: the syntax (trees, expressions, condition-names) and what items hold
    (SpecNum, SpecCompute). *)
From Coq Require Import QArith.
From Verif Require Import Base Field SpecNum Move SpecCmp Compute SpecCompute ExprParse Cond.
Local Open Scope Z_scope.

Section Spec.
Variables (items : list field) (vals : nat -> Z) (m : cfg) (col : option (list Z)) (names : nat -> name88).

Definition text_item (i : nat) : Prop :=
  (i < length items)%nat /\
  match a_type (fa (nth i items nil_item)) with TAlnum | TAlnumEdited | TNumEdited | TGroup => True | _ => False end.
Definition text (i : nat) : list Z := fd (nth i items nil_item).

(** ** Comparison of two operands: numbers by value, texts by the collating
    sequence, the shorter one continued with spaces. *)
Inductive compares : tree -> tree -> comparison -> Prop :=
| cp_num : forall x y a b p q, expr_of x = Some a -> expr_of y = Some b -> computes items vals a p -> computes items vals b q ->
    compares x y (p ?= q)%Q
| cp_lt : forall i j, text_lt col (text i) (text j) -> compares (TLeaf (OText i)) (TLeaf (OText j)) Lt
| cp_eq : forall i j, text_eq col (text i) (text j) -> compares (TLeaf (OText i)) (TLeaf (OText j)) Eq
| cp_gt : forall i j, text_lt col (text j) (text i) -> compares (TLeaf (OText i)) (TLeaf (OText j)) Gt.

Definition holds (r : rel) (c : comparison) : bool :=
  match r, c with
  | REq, Eq => true | RNe, Lt => true | RNe, Gt => true | RLt, Lt => true | RGt, Gt => true
  | RLe, Lt => true | RLe, Eq => true | RGe, Gt => true | RGe, Eq => true
  | _, _ => false
  end.

(** ** Class tests of texts and unsigned DISPLAY items *)
Definition class_holds (c : cname) (i : nat) : Prop :=
  let letter k := 65 <= k <= 90 \/ 97 <= k <= 122 in
  let blank k := k = 32 \/ 9 <= k <= 13 in
  match c with
  | CNumeric => Forall (fun k => 48 <= k <= 57) (text i)
  | CAlpha => Forall (fun k => blank k \/ letter k) (text i)
  | CUpper => Forall (fun k => blank k \/ 65 <= k <= 90) (text i)
  | CLower => Forall (fun k => blank k \/ 97 <= k <= 122) (text i)
  | _ => False
  end.
Definition index_of (o : operand) : option nat :=
  match o with OText i => Some i | ONum (ERef i) => Some i | _ => None end.

(** ** Condition-names: one of the values, or a range with both ends *)
Definition is_one_of (x : operand) (v : value88) : Prop :=
  match v with
  | VOne y => compares (TLeaf x) (TLeaf y) Eq
  | VThru lo hi => (exists c, compares (TLeaf lo) (TLeaf x) c /\ c <> Gt) /\ (exists c, compares (TLeaf x) (TLeaf hi) c /\ c <> Gt)
  end.
Definition is_none_of (x : operand) (v : value88) : Prop :=
  match v with
  | VOne y => exists c, compares (TLeaf x) (TLeaf y) c /\ c <> Eq
  | VThru lo hi => compares (TLeaf lo) (TLeaf x) Gt \/ compares (TLeaf x) (TLeaf hi) Gt
  end.

(** ** Truth *)
Inductive truth : tree -> bool -> Prop :=
| tr_rel : forall r x y c, compares x y c -> truth (TRel r x y) (holds r c)
| tr_class : forall c o i b, index_of o = Some i -> (b = true <-> class_holds c i) -> truth (TClass c (TLeaf o)) b
| tr_not : forall x b, truth x b -> truth (TNot x) (negb b)
| tr_and_false : forall x y, truth x false -> truth (TAnd x y) false
| tr_and : forall x y b, truth x true -> truth y b -> truth (TAnd x y) b
| tr_or_true : forall x y, truth x true -> truth (TOr x y) true
| tr_or : forall x y b, truth x false -> truth y b -> truth (TOr x y) b
| tr_name_true : forall k v, In v (n_values (names k)) -> is_one_of (n_parent (names k)) v -> truth (TLeaf (OCond k)) true
| tr_name_false : forall k, (forall v, In v (n_values (names k)) -> is_none_of (n_parent (names k)) v) -> truth (TLeaf (OCond k)) false.

(** ** Conditions that can be evaluated: the operands hold what their
    descriptions say and no divisor is zero. *)

(** A packed item: at most 38 digits, not a negative zero; one of ten or more
    digits may not be compared with the int -2^31. *)
Definition packed_ok (a b : expr) : Prop :=
  forall i, a = ERef i -> a_type (fa (nth i items nil_item)) = TPacked ->
    a_digits (fa (nth i items nil_item)) <= 38 /\
    (vals i = 0 -> Z.land (last (text i) 0) 15 <> 13) /\
    (forall j, b = ERef j -> vals j <> - 2 ^ 31).
Definition literal (e : expr) : Prop := match e with ELit _ _ _ => True | _ => False end.
(** A written literal has no negative scale. *)
Definition literal_ok (e : expr) : Prop := match e with ELit _ _ sc => 0 <= sc | _ => True end.
Inductive comparable : tree -> tree -> Prop :=
| ca_num : forall x y a b lo hi lo' hi', expr_of x = Some a -> expr_of y = Some b ->
    within items vals a lo hi -> within items vals b lo' hi' -> operands_ok items vals m a -> operands_ok items vals m b ->
    ~ fails items vals a -> ~ fails items vals b -> packed_ok a b -> literal_ok b ->
    ~ (literal a /\ literal b) -> comparable x y
| ca_text : forall i j, text_item i -> text_item j -> comparable (TLeaf (OText i)) (TLeaf (OText j)).
Definition class_testable (c : cname) (o : operand) : Prop :=
  match c with COmitted | CUser _ => False | _ => True end /\
  match o with
  | OText i => text_item i
  | ONum (ERef i) => (i < length items)%nat /\ a_type (fa (nth i items nil_item)) = TDisplay /\
      a_sign (fa (nth i items nil_item)) = false /\ a_sep (fa (nth i items nil_item)) = false
  | _ => False
  end.
Definition value_comparable (x : operand) (v : value88) : Prop :=
  match v with
  | VOne y => comparable (TLeaf x) (TLeaf y)
  | VThru lo hi => comparable (TLeaf lo) (TLeaf x) /\ comparable (TLeaf x) (TLeaf hi)
  end.
Fixpoint ready (t : tree) : Prop :=
  match t with
  | TRel _ x y => comparable x y
  | TClass c (TLeaf o) => class_testable c o
  | TNot x => ready x
  | TAnd x y => ready x /\ (truth x true -> ready y)
  | TOr x y => ready x /\ (truth x false -> ready y)
  | TLeaf (OCond k) => n_values (names k) <> [] /\ Forall (value_comparable (n_parent (names k))) (n_values (names k))
  | _ => False
  end.

(** No quotient occurs: the values of all operands are exact. *)
Definition exact_operand (o : operand) : Prop := match o with ONum e => has_div e = false | _ => True end.
Definition exact_value (v : value88) : Prop :=
  match v with VOne y => exact_operand y | VThru lo hi => exact_operand lo /\ exact_operand hi end.
Fixpoint exact_tree (t : tree) : Prop :=
  match t with
  | TLeaf (OCond k) => exact_operand (n_parent (names k)) /\ Forall exact_value (n_values (names k))
  | TLeaf o => exact_operand o
  | TArith op x y => op <> ADiv /\ exact_tree x /\ exact_tree y
  | TRel _ x y | TAnd x y | TOr x y => exact_tree x /\ exact_tree y
  | TNot x | TClass _ x | TPar x => exact_tree x
  | _ => True
  end.
End Spec.
