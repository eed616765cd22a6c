(** Specification of SEARCH: sorted tables and matching entries.  Shared with
    the model: the description of tables. *)
From Coq Require Import QArith.
From Verif Require Import Base Field SpecNum Move SpecCmp Compute SpecCompute ExprParse Cond SpecCond Search.
Local Open Scope Z_scope.

Section Spec.
Variables (items : list field) (vals : nat -> Z) (m : cfg) (col : option (list Z)).

(** How two operands compare. *)
Definition order (x y : operand) (c : comparison) : Prop := compares items vals col (TLeaf x) (TLeaf y) c.

(** The entries i and j are in the order of the keys: by the first key, those
    equal there by the next, and so on. *)
Fixpoint in_order (ks : list tkey) (i j : Z) : Prop :=
  match ks with
  | [] => True
  | k :: r => order (tk_item k i) (tk_item k j) (if tk_asc k then Lt else Gt) \/
              (order (tk_item k i) (tk_item k j) Eq /\ in_order r i j)
  end.
Definition sorted_table (ks : list tkey) (n : Z) : Prop := forall i j, 1 <= i -> i < j -> j <= n -> in_order ks i j.

(** The WHEN phrase gives a value for the first keys of the table, one each. *)
Definition entry_matches (ks : list tkey) (whens : list (nat * svalue)) (i : Z) : Prop :=
  forall k v, In (k, SVal v) whens -> exists x, nth_error ks k = Some x /\ order (tk_item x i) v Eq.
Definition when_ok (ks : list tkey) (whens : list (nat * svalue)) : Prop :=
  NoDup (map fst whens) /\ (forall k v, In (k, v) whens -> (k < length ks)%nat /\ exists o, v = SVal o) /\
  (forall k j, In k (map fst whens) -> (j < k)%nat -> In j (map fst whens)).

(** The keys of the entries and the values can be compared. *)
Definition keys_comparable (ks : list tkey) (whens : list (nat * svalue)) (n : Z) : Prop :=
  forall k x v i, nth_error ks k = Some x -> In (k, SVal v) whens -> 1 <= i <= n ->
    exact_operand (tk_item x i) /\ exact_operand v /\
    if tk_asc x then comparable items vals m (TLeaf (tk_item x i)) (TLeaf v) else comparable items vals m (TLeaf v) (TLeaf (tk_item x i)).
End Spec.

(** SEARCH: the WHEN phrases are tried in the order written, entry by entry. *)
Section Serial.
Variables (items : list field) (vals : nat -> Z) (col : option (list Z)) (names : nat -> name88).
Definition no_when (ws : list tree) : Prop := forall w, In w ws -> truth items vals col names w false.
Definition when_is (ws : list tree) (k : nat) : Prop :=
  exists l1 w l2, ws = l1 ++ w :: l2 /\ length l1 = k /\ truth items vals col names w true /\ no_when l1.
End Serial.
