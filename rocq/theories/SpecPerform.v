(** Specification of the flow of control: structured execution of statements
    and of ranges of paragraphs, without jumps, frames or loop counters.  Shared
    with the model: the syntax of statements and programs, and how a run ends. *)
From Coq Require Import List ZArith Bool.
From Verif Require Import Perform.
Import ListNotations.
Local Open Scope Z_scope.

Section Spec.
Variables (St Ex : Type).
Notation stmt := (stmt St Ex). Notation item := (item St Ex). Notation phrase := (phrase St Ex). Notation varying := (varying St Ex).
Notation final := (final St Ex).
Variables (check osvs : bool) (items : list item).

(** How a statement can end: normally; with GO TO; with EXIT PERFORM or EXIT
    PERFORM CYCLE; at the end of the range of the j-th PERFORM that is active
    (the innermost is number 0); with the run.  [Reentered]: a PERFORM TIMES was
    executed again while it was being executed. *)
Inductive result :=
| Normal (s : St) | Goes (l : nat) (s : St) | Breaks (s : St) | Cycles (s : St)
| Returns (j : nat) (s : St) | Ends (f : final) | Reentered.
Definition normal (r : result) : bool := match r with Normal _ => true | _ => false end.

(** What is executed: a statement; a PERFORM phrase around a body; a body; the
    rest of the loops; the program from a point on. *)
Inductive body := BIn (b : stmt) | BOut (lb le : nat).
Inductive task :=
| TStmt (s : stmt) | TPhrase (p : phrase) (b : body) | TBody (b : body)
| TTimes (k : nat) (b : body) (n : Z) | TForever (b : body) | TUntil (before : bool) (b : body) (vs : list varying)
| TRun (rest : list item).

Fixpoint from_label (l : nat) (is : list item) : list item :=
  match is with
  | Lab k :: r => if Nat.eqb k l then is else from_label l r
  | _ :: r => from_label l r
  | [] => []
  end.
(** Which of the active PERFORMs ends at [l]: the innermost one only, or any one
    with perform-osvs. *)
Fixpoint index_of (l : nat) (es : list nat) : option nat :=
  match es with
  | [] => None
  | e :: r => if Nat.eqb e l then Some 0%nat else option_map S (index_of l r)
  end.
Definition ends_at (l : nat) (es : list nat) : option nat :=
  if osvs then index_of l es else index_of l (firstn 1 es).

Definition of_op (r : St + Ex) : result := match r with inl s => Normal s | inr e => Ends (Ended e) end.
Definition opt (o : option (op St Ex)) (s : St) : St + Ex := match o with Some f => f s | None => inl s end.
Definition uncycle (r : result) : result := match r with Cycles s => Normal s | _ => r end.
Definition unbreak (r : result) : result := match r with Breaks s => Normal s | _ => r end.
Definition pop (r : result) : result :=
  match r with Returns 0 s => Normal s | Returns (S j) s => Returns j s | _ => r end.

(** [es]: the ends of the active PERFORMs, innermost first; [act]: the active
    PERFORM TIMES. *)
Inductive ev : list nat -> list nat -> task -> St -> result -> Prop :=
| ev_skip : forall es act s, ev es act (TStmt Skip) s (Normal s)
| ev_seq : forall es act a b s s' r, ev es act (TStmt a) s (Normal s') -> ev es act (TStmt b) s' r -> ev es act (TStmt (Seq a b)) s r
| ev_seq_out : forall es act a b s r, ev es act (TStmt a) s r -> normal r = false -> ev es act (TStmt (Seq a b)) s r
| ev_do : forall es act (o : op St Ex) s, ev es act (TStmt (Do o)) s (of_op (o s))
| ev_if : forall es act (c : test St Ex) a b s v s' r, c s = inl (v, s') -> ev es act (TStmt (if v then a else b)) s' r -> ev es act (TStmt (If c a b)) s r
| ev_if_end : forall es act (c : test St Ex) a b s e, c s = inr e -> ev es act (TStmt (If c a b)) s (Ends (Ended e))
| ev_goto : forall es act l s, ev es act (TStmt (Goto l)) s (Goes l s)
| ev_dep : forall es act (n : int_of St Ex) ls s v s' l, n s = inl (v, s') -> 1 <= v -> nth_error ls (Z.to_nat (v - 1)) = Some l -> ev es act (TStmt (GotoDep n ls)) s (Goes l s')
| ev_dep_out : forall es act (n : int_of St Ex) ls s v s', n s = inl (v, s') -> v < 1 \/ Z.of_nat (length ls) < v -> ev es act (TStmt (GotoDep n ls)) s (Normal s')
| ev_dep_end : forall es act (n : int_of St Ex) ls s e, n s = inr e -> ev es act (TStmt (GotoDep n ls)) s (Ends (Ended e))
| ev_stop : forall es act s, ev es act (TStmt Stop) s (Ends (Finished s))
| ev_exit : forall es act s, ev es act (TStmt ExitPerform) s (Breaks s)
| ev_cycle : forall es act s, ev es act (TStmt ExitCycle) s (Cycles s)
| ev_inline : forall es act p b s r, ev es act (TPhrase p (BIn b)) s r -> ev es act (TStmt (Inline p b)) s (unbreak r)
| ev_outline : forall es act p lb le s r, ev es act (TPhrase p (BOut lb le)) s r -> ev es act (TStmt (Outline p lb le)) s r
(* PERFORM: once, for ever, n times (n is read once), until *)
| ev_once : forall es act b s r, ev es act (TBody b) s r -> ev es act (TPhrase POnce b) s r
| ev_forever : forall es act b s r, ev es act (TForever b) s r -> ev es act (TPhrase PForever b) s r
| ev_times : forall es act k (n : int_of St Ex) b s v s' r, n s = inl (v, s') -> ~ In k act -> ev es (k :: act) (TTimes k b v) s' r -> ev es act (TPhrase (PTimes k n) b) s r
| ev_times_again : forall es act k (n : int_of St Ex) b s v s', n s = inl (v, s') -> In k act -> ev es act (TPhrase (PTimes k n) b) s Reentered
| ev_times_end : forall es act k (n : int_of St Ex) b s e, n s = inr e -> ev es act (TPhrase (PTimes k n) b) s (Ends (Ended e))
| ev_until : forall es act before vs b s s' r, opt (next_from vs) s = inl s' -> ev es act (TUntil before b vs) s' r -> ev es act (TPhrase (PUntil before vs) b) s r
| ev_until_end : forall es act before vs b s e, opt (next_from vs) s = inr e -> ev es act (TPhrase (PUntil before vs) b) s (Ends (Ended e))
| ev_f_next : forall es act b s s' r, ev es act (TBody b) s (Normal s') -> ev es act (TForever b) s' r -> ev es act (TForever b) s r
| ev_f_out : forall es act b s r, ev es act (TBody b) s r -> normal r = false -> ev es act (TForever b) s r
| ev_t_done : forall es act k b n s, n <= 0 -> ev es act (TTimes k b n) s (Normal s)
| ev_t_next : forall es act k b n s s' r, 0 < n -> ev es act (TBody b) s (Normal s') -> ev es act (TTimes k b (n - 1)) s' r -> ev es act (TTimes k b n) s r
| ev_t_out : forall es act k b n s r, 0 < n -> ev es act (TBody b) s r -> normal r = false -> ev es act (TTimes k b n) s r
(* UNTIL: each item after the first starts again at its FROM value whenever the
   one before it is tested for the first time or has been stepped *)
| ev_u_body : forall es act before b s r, ev es act (TBody b) s r -> ev es act (TUntil before b []) s r
| ev_u_from_end : forall es act before b v vs s e, opt (next_from vs) s = inr e -> ev es act (TUntil before b (v :: vs)) s (Ends (Ended e))
| ev_ub_done : forall es act b v vs s s1 s2, opt (next_from vs) s = inl s1 -> v_until v s1 = inl (true, s2) ->
    ev es act (TUntil true b (v :: vs)) s (Normal s2)
| ev_ub_end : forall es act b v vs s s1 e, opt (next_from vs) s = inl s1 -> v_until v s1 = inr e ->
    ev es act (TUntil true b (v :: vs)) s (Ends (Ended e))
| ev_ub_out : forall es act b v vs s s1 s2 r, opt (next_from vs) s = inl s1 -> v_until v s1 = inl (false, s2) ->
    ev es act (TUntil true b vs) s2 r -> normal r = false -> ev es act (TUntil true b (v :: vs)) s r
| ev_ub_next : forall es act b v vs s s1 s2 s3 s4 r, opt (next_from vs) s = inl s1 -> v_until v s1 = inl (false, s2) ->
    ev es act (TUntil true b vs) s2 (Normal s3) -> opt (v_step v) s3 = inl s4 -> ev es act (TUntil true b (v :: vs)) s4 r ->
    ev es act (TUntil true b (v :: vs)) s r
| ev_ub_step_end : forall es act b v vs s s1 s2 s3 e, opt (next_from vs) s = inl s1 -> v_until v s1 = inl (false, s2) ->
    ev es act (TUntil true b vs) s2 (Normal s3) -> opt (v_step v) s3 = inr e -> ev es act (TUntil true b (v :: vs)) s (Ends (Ended e))
| ev_ua_out : forall es act b v vs s s1 r, opt (next_from vs) s = inl s1 ->
    ev es act (TUntil false b vs) s1 r -> normal r = false -> ev es act (TUntil false b (v :: vs)) s r
| ev_ua_done : forall es act b v vs s s1 s2 s3, opt (next_from vs) s = inl s1 ->
    ev es act (TUntil false b vs) s1 (Normal s2) -> v_until v s2 = inl (true, s3) -> ev es act (TUntil false b (v :: vs)) s (Normal s3)
| ev_ua_end : forall es act b v vs s s1 s2 e, opt (next_from vs) s = inl s1 ->
    ev es act (TUntil false b vs) s1 (Normal s2) -> v_until v s2 = inr e -> ev es act (TUntil false b (v :: vs)) s (Ends (Ended e))
| ev_ua_next : forall es act b v vs s s1 s2 s3 s4 r, opt (next_from vs) s = inl s1 ->
    ev es act (TUntil false b vs) s1 (Normal s2) -> v_until v s2 = inl (false, s3) -> opt (v_step v) s3 = inl s4 ->
    ev es act (TUntil false b (v :: vs)) s4 r -> ev es act (TUntil false b (v :: vs)) s r
| ev_ua_step_end : forall es act b v vs s s1 s2 s3 e, opt (next_from vs) s = inl s1 ->
    ev es act (TUntil false b vs) s1 (Normal s2) -> v_until v s2 = inl (false, s3) -> opt (v_step v) s3 = inr e ->
    ev es act (TUntil false b (v :: vs)) s (Ends (Ended e))
(* the body: statements, or the range from the start of lb to the end of le; up
   to 254 PERFORMs can be active, 253 with -fstack-check *)
| ev_in : forall es act b s r, ev es act (TStmt b) s r -> ev es act (TBody (BIn b)) s (uncycle r)
| ev_out : forall es act lb le s r, (length es < 254)%nat -> (check = true -> length es <> 253%nat) ->
    ev (le :: es) act (TRun (from_label lb items)) s r -> ev es act (TBody (BOut lb le)) s (pop r)
| ev_out_ub : forall es act lb le s, (254 <= length es)%nat -> ev es act (TBody (BOut lb le)) s (Ends StackUB)
| ev_out_fatal : forall es act lb le s, length es = 253%nat -> check = true -> ev es act (TBody (BOut lb le)) s (Ends StackFatal)
(* the program from a point on: falling through the labels, up to the end of a
   range that is being performed *)
| ev_end : forall es act s, ev es act (TRun []) s (Ends (Finished s))
| ev_lab : forall es act l is s r, ev es act (TRun is) s r -> ev es act (TRun (Lab l :: is)) s r
| ev_return : forall es act l is s j, ends_at l es = Some j -> ev es act (TRun (End l :: is)) s (Returns j s)
| ev_pass : forall es act l is s r, ends_at l es = None -> ev es act (TRun is) s r -> ev es act (TRun (End l :: is)) s r
| ev_stmt : forall es act a is s s' r, ev es act (TStmt a) s (Normal s') -> ev es act (TRun is) s' r -> ev es act (TRun (Code a :: is)) s r
| ev_jump : forall es act a is s l s' r, ev es act (TStmt a) s (Goes l s') -> ev es act (TRun (from_label l items)) s' r -> ev es act (TRun (Code a :: is)) s r
| ev_leave : forall es act a is s r, ev es act (TStmt a) s r ->
    match r with Returns _ _ | Ends _ | Reentered => True | _ => False end -> ev es act (TRun (Code a :: is)) s r.

(** What cobc checks: the labels exist, EXIT PERFORM is inside an inline
    PERFORM. *)
Fixpoint labels_ok (s : stmt) : Prop :=
  match s with
  | Seq a b | If _ a b => labels_ok a /\ labels_ok b
  | Goto l => In (Lab l) items
  | GotoDep _ ls => forall l, In l ls -> In (Lab l) items
  | Inline _ b => labels_ok b
  | Outline _ lb le => In (Lab lb) items /\ In (Lab le) items
  | _ => True
  end.
Fixpoint exits_ok (inside : bool) (s : stmt) : Prop :=
  match s with
  | Seq a b | If _ a b => exits_ok inside a /\ exits_ok inside b
  | ExitPerform | ExitCycle => inside = true
  | Inline _ b => exits_ok true b
  | _ => True
  end.
Definition well_formed : Prop := forall s, In (Code s) items -> labels_ok s /\ exits_ok false s.
End Spec.
Arguments Normal {St Ex} _. Arguments Goes {St Ex} _ _. Arguments Breaks {St Ex} _. Arguments Cycles {St Ex} _. Arguments Returns {St Ex} _ _.
Arguments Ends {St Ex} _. Arguments Reentered {St Ex}. Arguments normal {St Ex} _.
Arguments BIn {St Ex} _. Arguments BOut {St Ex} _ _.
Arguments TStmt {St Ex} _. Arguments TPhrase {St Ex} _ _. Arguments TBody {St Ex} _. Arguments TTimes {St Ex} _ _ _. Arguments TForever {St Ex} _.
Arguments TUntil {St Ex} _ _ _. Arguments TRun {St Ex} _.
Arguments from_label {St Ex} _ _. Arguments of_op {St Ex} _. Arguments opt {St Ex} _ _. Arguments uncycle {St Ex} _. Arguments unbreak {St Ex} _. Arguments pop {St Ex} _.
Arguments ev {St Ex} _ _ _ _ _ _ _ _. Arguments labels_ok {St Ex} _ _. Arguments exits_ok {St Ex} _ _. Arguments well_formed {St Ex} _.
