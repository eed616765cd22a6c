(** Specification of the syntax of arithmetic expressions and conditions: a
    grammar that relates token sequences to abstract syntax (COBOL 2002, 8.8.1
    and 8.8.4).  The types of tokens and abstract syntax are shared with the
    model; nothing else of the parser is used. *)
From Verif Require Import Base Compute ExprParse.

(** Operands of relations and arithmetic: anything but a condition-name. *)
Definition data (o : operand) : Prop := match o with OCond _ => False | _ => True end.
Definition numeric (e : tree) : Prop :=
  match e with TLeaf OZero | TLeaf (ONum _) | TArith _ _ _ => True | _ => False end.

(** ** Arithmetic expressions.  [phrase n]: 0 an operand or a parenthesised
    expression, 1 with a unary sign, 2 a power, 3 a product, 4 a sum.  All binary
    operators associate to the left.  "- x" is "0 - x". *)
Definition level (op : aop) : nat := match op with APow => 2 | AMul | ADiv => 3 | AAdd | ASub => 4 end%nat.
Inductive phrase : nat -> list inp -> tree -> Prop :=
| ph_operand : forall o, data o -> phrase 0 [IX o] (TLeaf o)
| ph_paren : forall ts e, phrase 4 ts e -> phrase 0 (IOpen :: ts ++ [IClose]) e
| ph_plus : forall ts e, phrase 0 ts e -> numeric e -> phrase 1 (IArith AAdd :: ts) e
| ph_minus : forall ts e, phrase 0 ts e -> numeric e -> phrase 1 (IArith ASub :: ts) (TArith ASub (TLeaf OZero) e)
| ph_binary : forall op ts1 e1 ts2 e2, phrase (level op) ts1 e1 -> phrase (Nat.pred (level op)) ts2 e2 ->
    numeric e1 -> numeric e2 -> phrase (level op) (ts1 ++ IArith op :: ts2) (TArith op e1 e2)
| ph_up : forall n ts e, phrase n ts e -> (n < 4)%nat -> phrase (S n) ts e.

(** ** Relational operators, sign and class tests, with or without NOT *)
Definition opposite (r : rel) : rel :=
  match r with REq => RNe | RNe => REq | RLt => RGe | RGe => RLt | RGt => RLe | RLe => RGt end.
Inductive relop : bool -> list inp -> rel -> Prop :=
| ro_plain : forall r, relop false [IRel r] r
| ro_not : forall r, relop true [INot; IRel r] (opposite r)
| ro_le : relop false [IRel RLt; IOr; IRel REq] RLe
| ro_ge : relop false [IRel RGt; IOr; IRel REq] RGe.
Inductive signtest : list inp -> rel -> Prop :=
| st_positive : signtest [IPositive] RGt
| st_negative : signtest [INegative] RLt
| st_zero : signtest [IX OZero] REq.
Definition opt_not (n : bool) (ts : list inp) : list inp := if n then INot :: ts else ts.
Definition negate_if (n : bool) (t : tree) : tree := if n then TNot t else t.

(** The first word is ZERO. *)
Definition zero_first (ts : list inp) : Prop := match ts with IX OZero :: _ => True | _ => False end.

(** ** Conditions.  [sub] is the subject and operator of the relation just
    before, if any: an abbreviated relation takes its missing parts from there.
    The first argument of [simple]: the condition follows NOT (then it may not
    itself start with an operator, contain a NOT of its own, or start with
    ZERO: see the refutations in P_Expr.v).  [cond n]: 1 a simple condition or
    its negation, 2 a conjunction, 3 a disjunction. *)
Inductive simple : bool -> option (tree * rel) -> list inp -> tree -> option (tree * rel) -> Prop :=
| s_relation : forall u sub l el n rs r o eo, phrase 4 l el -> relop n rs r -> phrase 4 o eo ->
    (u = true -> n = false /\ ~ zero_first l) ->
    simple u sub (l ++ rs ++ o) (TRel r el eo) (Some (el, r))
| s_object : forall u el r o eo, phrase 4 o eo -> (u = true -> ~ zero_first o) ->
    simple u (Some (el, r)) o (TRel r el eo) (Some (el, r))
| s_operator : forall el r0 n rs r o eo, relop n rs r -> phrase 4 o eo ->
    simple false (Some (el, r0)) (rs ++ o) (TRel r el eo) (Some (el, r))
| s_sign : forall u sub l el n ss r, phrase 4 l el -> signtest ss r -> (u = true -> n = false /\ ~ zero_first l) ->
    simple u sub (l ++ opt_not n ss) (negate_if n (TRel r el (TLeaf OZero))) None
| s_class : forall u sub o n c, data o -> (u = true -> n = false /\ o <> OZero) ->
    simple u sub (IX o :: opt_not n [IClass c]) (negate_if n (TClass c (TLeaf o))) None
| s_name : forall u sub k, simple u sub [IX (OCond k)] (TLeaf (OCond k)) None
| s_paren : forall u sub ts t sub', cond 3 None ts t sub' -> simple u sub (IOpen :: ts ++ [IClose]) t None
with cond : nat -> option (tree * rel) -> list inp -> tree -> option (tree * rel) -> Prop :=
| c_simple : forall sub ts t sub', simple false sub ts t sub' -> cond 1 sub ts t sub'
| c_not : forall sub ts t sub', simple true sub ts t sub' -> cond 1 sub (INot :: ts) (TNot t) sub'
| c_and : forall sub ts1 t1 sub1 ts2 t2 sub2, cond 2 sub ts1 t1 sub1 -> cond 1 sub1 ts2 t2 sub2 ->
    cond 2 sub (ts1 ++ IAnd :: ts2) (TAnd t1 t2) sub2
| c_or : forall sub ts1 t1 sub1 ts2 t2 sub2, cond 3 sub ts1 t1 sub1 -> cond 2 sub1 ts2 t2 sub2 ->
    cond 3 sub (ts1 ++ IOr :: ts2) (TOr t1 t2) sub2
| c_up : forall n sub ts t sub', cond n sub ts t sub' -> (n < 3)%nat -> cond (S n) sub ts t sub'.

(** The sentences. *)
Definition arithmetic (ts : list inp) (e : tree) : Prop := phrase 4 ts e /\ numeric e.
Definition condition (ts : list inp) (t : tree) : Prop := exists sub, cond 3 None ts t sub.
