(** Specification of EVALUATE: which statements are executed, from the phrases
    as written.  Uses the grammar of conditions (SpecExpr) and their truth
    (SpecCond), and the written form of the phrases (Evaluate). *)
From Verif Require Import Base Field SpecNum Move SpecCmp Compute SpecCompute ExprParse SpecExpr Cond SpecCond Evaluate.

Section Spec.
Variables (items : list field) (vals : nat -> Z) (m : cfg) (col : option (list Z)) (names : nat -> name88).
Notation truth := (truth items vals col names).
Notation compares := (compares items vals col).
Notation comparable := (comparable items vals m).
Notation ready := (ready items vals m col names).

Inductive between (lo x hi : tree) : bool -> Prop :=
| bt_in : forall c d, compares lo x c -> c <> Gt -> compares x hi d -> d <> Gt -> between lo x hi true
| bt_low : compares lo x Gt -> between lo x hi false
| bt_high : compares x hi Gt -> between lo x hi false.
Definition is_eq (c : comparison) : bool := match c with Eq => true | _ => false end.

(** ** One subject and one object *)
Definition with_not (n : bool) (ts : list inp) : list inp := if n then INot :: ts else ts.
Inductive test_value : wsubject -> wobject -> bool -> Prop :=
| tv_any : forall s, test_value s WAny true
| tv_tt : test_value WSTrue WTrue true
| tv_tf : test_value WSTrue WFalse false
| tv_ft : test_value WSFalse WTrue false
| tv_ff : test_value WSFalse WFalse true
| tv_when_true : forall ts t b, condition ts t -> truth t b -> test_value (WSExpr ts) WTrue b
| tv_when_false : forall ts t b, condition ts t -> truth t b -> test_value (WSExpr ts) WFalse (negb b)
| tv_true : forall ts t b, condition ts t -> truth t b -> test_value WSTrue (WExpr ts None) b
| tv_false : forall ts t b, condition ts t -> truth t b -> test_value WSFalse (WExpr ts None) (negb b)
| tv_value : forall ss s n ts x c, phrase 4 ss s -> phrase 4 ts x -> compares s x c ->
    test_value (WSExpr ss) (WExpr (with_not n ts) None) (xorb n (is_eq c))
| tv_range : forall ss s n ts lo us hi b, phrase 4 ss s -> phrase 4 ts lo -> phrase 4 us hi -> between lo s hi b ->
    test_value (WSExpr ss) (WExpr (with_not n ts) (Some us)) (xorb n b).

(** ** One WHEN phrase: all its objects; several before the same statements: one
    of them; the first such group, or WHEN OTHER. *)
Definition when_is (ss : list wsubject) (os : list wobject) (b : bool) : Prop :=
  if b then Forall2 (fun s o => test_value s o true) ss os
  else exists i s o, nth_error ss i = Some s /\ nth_error os i = Some o /\ test_value s o false.
Definition case_is (ss : list wsubject) (c : wcase) (b : bool) : Prop :=
  if b then Exists (fun os => when_is ss os true) (w_whens c) else Forall (fun os => when_is ss os false) (w_whens c).
(** The statements of a case; an empty last one before WHEN OTHER has those of
    WHEN OTHER. *)
Definition effective (w : wevaluate) (i : nat) (c : wcase) : option nat :=
  match w_stmts c, w_other w with
  | None, Some o => if (S i =? length (w_cases w))%nat then o else None
  | k, _ => k
  end.
Inductive selects (w : wevaluate) : option nat -> Prop :=
| sel_case : forall i c, nth_error (w_cases w) i = Some c -> case_is (w_subjects w) c true ->
    (forall j d, (j < i)%nat -> nth_error (w_cases w) j = Some d -> case_is (w_subjects w) d false) ->
    selects w (effective w i c)
| sel_other : (forall j d, nth_error (w_cases w) j = Some d -> case_is (w_subjects w) d false) ->
    selects w (match w_other w with Some o => o | None => None end).

(** ** Tests that can be carried out *)
Inductive testable : wsubject -> wobject -> Prop :=
| ta_any : forall s, testable s WAny
| ta_const : forall s o, (s = WSTrue \/ s = WSFalse) -> (o = WTrue \/ o = WFalse) -> testable s o
| ta_when : forall ts t o, condition ts t -> ready t -> (o = WTrue \/ o = WFalse) -> testable (WSExpr ts) o
| ta_cond : forall s ts t, (s = WSTrue \/ s = WSFalse) -> condition ts t -> ready t -> testable s (WExpr ts None)
| ta_value : forall ss s n ts x, phrase 4 ss s -> phrase 4 ts x -> comparable s x -> testable (WSExpr ss) (WExpr (with_not n ts) None)
| ta_range : forall ss s n ts lo us hi, phrase 4 ss s -> phrase 4 ts lo -> phrase 4 us hi -> comparable lo s -> comparable s hi ->
    testable (WSExpr ss) (WExpr (with_not n ts) (Some us)).

(** What cobc misreads: a NOT at the start of a condition in the second or a
    later WHEN phrase of a group is applied to all of the condition.  It does no
    harm if the condition is the negation of what follows NOT. *)
Definition not_ok (s : wsubject) (o : wobject) : Prop :=
  match s, o with
  | WSTrue, WExpr (INot :: r) _ | WSFalse, WExpr (INot :: r) _ => exists t, condition r t /\ condition (INot :: r) (TNot t)
  | _, _ => True
  end.

(** An EVALUATE statement whose tests can be carried out: as many objects as
    subjects in each WHEN phrase, at most 64 objects before the same
    statements. *)
Definition subject_ok (s : wsubject) : Prop :=
  match s with WSExpr ts => (exists t, condition ts t) \/ (exists e, phrase 4 ts e) | _ => True end.
Definition well_formed (w : wevaluate) : Prop :=
  w_subjects w <> [] /\ Forall subject_ok (w_subjects w) /\
  Forall (fun c => w_whens c <> [] /\
     Forall (fun os => Forall2 testable (w_subjects w) os) (w_whens c) /\
     Forall (fun os => Forall2 not_ok (w_subjects w) os) (tl (w_whens c)) /\
     (length (w_whens c) * length (w_subjects w) <= 64)%nat) (w_cases w).
(** No empty statement list, unless allowed. *)
Definition stmts_ok (empty_ok : bool) (w : wevaluate) : Prop :=
  empty_ok = true \/ (Forall (fun c => w_stmts c <> None) (w_cases w) /\ w_other w <> Some None).
End Spec.
