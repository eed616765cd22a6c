(** Proofs about the expression parser (C62). *)
From Verif Require Import Base Compute ExprParse SpecExpr.

(** ** The loop *)
Lemma shorter : forall s s', reduce_1 s = Go s' -> (length (stk s') < length (stk s))%nat.
Proof.
  intros s s' H. unfold reduce_1 in H. destruct (stk s) as [|[t1 v1] [|[t2 v2] rest]] eqn:E; try discriminate.
  destruct t2; try discriminate.
  - destruct t1; try discriminate. destruct rest as [|[[] v3] rest']; try discriminate. unfold reduce_arith in H.
    destruct (build_arith o v3 v1) as [t e]. injection H as <-. cbn. lia.
  - destruct t1; try discriminate. destruct rest as [|[[] v3] rest']; try discriminate.
    + destruct (is_err v3 || is_err v1); [injection H as <-; cbn; lia|].
      destruct (is_88 v3 || is_88 v1); [discriminate|]. injection H as <-. cbn. lia.
    + destruct (is_err v1); injection H as <-; cbn; lia.
    + destruct (is_err v1); injection H as <-; cbn; lia.
  - destruct t1; try discriminate.
    destruct (if has_lh s && negb (is_bool v1) then build_abbr s v1 else (s, v1)) as [s1 w].
    destruct (build_not w) as [t e]. injection H as <-. cbn. lia.
  - destruct t1; try discriminate. destruct rest as [|[[] v3] rest']; try discriminate.
    destruct (if has_lh s && negb (is_bool v1) then build_abbr s v1 else (s, v1)) as [s1 w].
    destruct (if has_lh s && negb (is_bool v3) then build_abbr s1 v3 else (s1, v3)) as [s2 w3].
    destruct (build_log true w3 w) as [t e]. injection H as <-. cbn. lia.
  - destruct t1; try discriminate. destruct rest as [|[[] v3] rest']; try discriminate.
    destruct (if has_lh s && negb (is_bool v1) then build_abbr s v1 else (s, v1)) as [s1 w].
    destruct (if has_lh s && negb (is_bool v3) then build_abbr s1 v3 else (s1, v3)) as [s2 w3].
    destruct (build_log false w3 w) as [t e]. injection H as <-. cbn. lia.
Qed.

Lemma fuel_free : forall n m t s, (length (stk s) <= n)%nat -> (length (stk s) <= m)%nat -> reduce_loop n t s = reduce_loop m t s.
Proof.
  assert (Z0 : forall s, length (stk s) = 0%nat -> reduce_1 s = Leave s)
    by (intros s H; unfold reduce_1; destruct (stk s); [reflexivity|discriminate]).
  induction n as [|n IH]; intros [|m] t s Hn Hm.
  - reflexivity.
  - cbn [reduce_loop]. rewrite Z0 by lia. destruct (prio (tok2 s) <=? prio t)%nat; reflexivity.
  - cbn [reduce_loop]. rewrite Z0 by lia. destruct (prio (tok2 s) <=? prio t)%nat; reflexivity.
  - cbn [reduce_loop]. destruct (prio (tok2 s) <=? prio t)%nat; [|reflexivity].
    destruct (reduce_1 s) as [s'|s'] eqn:E; [|reflexivity]. apply shorter in E. apply IH; lia.
Qed.

Lemma reduce_go : forall t s s', (prio (tok2 s) <= prio t)%nat -> reduce_1 s = Go s' -> reduce t s = reduce t s'.
Proof.
  intros t s s' P E. pose proof (shorter _ _ E) as L. unfold reduce at 1.
  destruct (length (stk s)) as [|n] eqn:N; [lia|]. cbn [reduce_loop]. apply Nat.leb_le in P. rewrite P, E.
  apply fuel_free; lia.
Qed.
Lemma reduce_leave : forall t s s', (prio (tok2 s) <= prio t)%nat -> reduce_1 s = Leave s' -> (0 < length (stk s))%nat -> reduce t s = s'.
Proof.
  intros t s s' P E L. unfold reduce. destruct (length (stk s)) as [|n]; [lia|]. cbn [reduce_loop].
  apply Nat.leb_le in P. now rewrite P, E.
Qed.
Lemma reduce_stop : forall t s, (prio t < prio (tok2 s))%nat -> reduce t s = op_or_x_and s t.
Proof.
  intros t s P. unfold reduce. destruct (length (stk s)); cbn [reduce_loop]; apply Nat.leb_gt in P; now rewrite P.
Qed.

(** On a stack that does not end in an operand nothing happens. *)
Lemma reduce_op_top : forall t s, tok1 s <> KX -> t <> KAnd -> reduce t s = s.
Proof.
  intros t s H T. assert (O : op_or_x_and s t = s) by (destruct t; try reflexivity; contradiction).
  assert (R : reduce_1 s = Leave s).
  { unfold reduce_1. unfold tok1 in H. destruct (stk s) as [|[t1 v1] [|[t2 v2] rest]]; try reflexivity.
    destruct t2; try reflexivity; destruct t1; try reflexivity; contradiction. }
  unfold reduce. destruct (length (stk s)); cbn [reduce_loop]; [|rewrite R];
    destruct (prio (tok2 s) <=? prio t)%nat; auto.
Qed.

(** ** States *)
Definition S4 (S : list (tok * tree)) (h : tree) (o : option rel) : st := mkSt S h o false false.
Definition top (S : list (tok * tree)) : tok := match S with (t, _) :: _ => t | _ => K0 end.

(** [s] behaves as [s2] for every later token of priority at least [p] in [P]. *)
Definition agree (P : tok -> Prop) (p : nat) (s s2 : st) : Prop :=
  tok1 s = KX /\ tok1 s2 = KX /\ forall t, P t -> (p <= prio t)%nat -> reduce t s = reduce t s2.
Definition any (t : tok) : Prop := True.
Lemma agree_refl : forall P p s, tok1 s = KX -> agree P p s s.
Proof. intros. repeat split; auto. Qed.
Lemma agree_trans : forall P p a b c, agree P p a b -> agree P p b c -> agree P p a c.
Proof. intros P p a b c (A1 & A2 & A3) (B1 & B2 & B3). split; [exact A1|]. split; [exact B2|]. intros t Ht Hp. rewrite A3, B3; auto. Qed.
Lemma agree_weak : forall (P Q : tok -> Prop) p q a b, agree P p a b -> (forall t, Q t -> P t) -> (p <= q)%nat -> agree Q q a b.
Proof. intros P Q p q a b (A1 & A2 & A3) H L. split; [exact A1|]. split; [exact A2|]. intros t Ht Hp. apply A3; [auto|lia]. Qed.

Lemma is_num_expand : forall v, is_num (expand_par v) = is_num v.
Proof. induction v; try reflexivity. exact IHv. Qed.
Lemma is_bool_expand : forall v, is_bool (expand_par v) = is_bool v.
Proof. induction v; try reflexivity. exact IHv. Qed.

(** Operands of relations and arithmetic. *)
Definition opnd (e : tree) : Prop := match e with TLeaf o => data o | TArith _ _ _ => True | _ => False end.
Lemma opnd_raw : forall v, opnd (expand_par v) -> is_err v = false /\ is_88 v = false /\ is_bool v = false /\ v <> TNull.
Proof.
  intros v. induction v as [| |o|op x _ y _|r x _ y _|x _|x _ y _|x _ y _|c x _|x IH]; intros H; cbn in H; try contradiction.
  - destruct o; try contradiction; repeat split; discriminate.
  - repeat split; discriminate.
  - destruct (IH H) as (_ & _ & B & _). cbn [is_bool]. repeat split; [exact B|discriminate].
Qed.
Lemma phrase_opnd : forall n ts e, phrase n ts e -> opnd e.
Proof. induction 1; cbn; auto. Qed.
Lemma numeric_is : forall e, numeric e -> is_num e = true.
Proof. intros [| |[]|? ? ?| | | | | |]; cbn; intros H; try contradiction; reflexivity. Qed.

(** ** Arithmetic *)
Definition unary_end (S : list (tok * tree)) : Prop :=
  match S with (KA AAdd, _) :: r | (KA ASub, _) :: r => top r <> KX | _ => False end.
(** What '(' does to expr_lh and expr_op. *)
Definition par_lh (S : list (tok * tree)) (h : tree) : tree :=
  match S with (KR r, _) :: (KX, v) :: _ => v | _ => h end.
Definition par_op (S : list (tok * tree)) (o : option rel) : option rel :=
  match S with (KR r, _) :: _ => Some r | _ => o end.
Definition subj_after (S : list (tok * tree)) (h h' : tree) (o o' : option rel) : Prop :=
  (h' = h /\ o' = o) \/ (h' = par_lh S h /\ o' = par_op S o).

Lemma shift_open_eq : forall S h o, top S <> KX ->
  shift_open (S4 S h o) = S4 ((KOpen, TNull) :: S) (par_lh S h) (par_op S o).
Proof.
  intros S h o H. unfold shift_open.
  assert (E : match tok1 (S4 S h o) with
     | KR r => let s' := set_eop (S4 S h o) r in match stk (S4 S h o) with _ :: (KX, v) :: _ => set_lh s' v | _ => s' end
     | _ => S4 S h o end = S4 S (par_lh S h) (par_op S o)).
  { unfold tok1, S4 at 1. cbn [stk]. destruct S as [|[t1 v1] r]; [reflexivity|]. destruct t1; try reflexivity.
    cbn [S4 stk]. destruct r as [|[t2 v2] r']; [reflexivity|]. destruct t2; reflexivity. }
  cbv zeta. cbv zeta in E. rewrite E. rewrite reduce_op_top; [reflexivity|exact H|discriminate].
Qed.

Lemma put_x_plain : forall v S h o, top S <> KX -> ~ unary_end S -> put_x v (S4 S h o) = S4 ((KX, v) :: S) h o.
Proof.
  intros v S h o H U. unfold put_x.
  assert (R : push KX v (reduce KX (S4 S h o)) = S4 ((KX, v) :: S) h o)
    by (rewrite reduce_op_top; [reflexivity|exact H|discriminate]).
  unfold tok1, tok2. cbn [S4 stk]. destruct S as [|[t1 v1] r]; [exact R|].
  destruct t1 as [|op| | | | | | |]; try exact R. destruct op; try exact R;
    cbn [unary_end] in U; destruct r as [|[t2 v2] r']; cbn [top] in U;
    try (exfalso; apply U; discriminate); destruct t2; try exact R; exfalso; apply U; discriminate.
Qed.
Lemma put_x_plus : forall v u S h o, top S <> KX -> put_x v (S4 ((KA AAdd, u) :: S) h o) = S4 ((KX, v) :: S) h o.
Proof.
  intros v u S h o H. assert (R : push KX v (reduce KX (S4 S h o)) = S4 ((KX, v) :: S) h o)
    by (rewrite reduce_op_top; [reflexivity|exact H|discriminate]).
  unfold put_x. cbn [tok1 tok2 S4 stk]. destruct S as [|[t1 v1] r]; [exact R|]. cbn [top] in H. destruct t1; try exact R. contradiction.
Qed.
Lemma put_x_minus : forall v u S h o, top S <> KX -> is_num v = true ->
  put_x v (S4 ((KA ASub, u) :: S) h o) = S4 ((KX, TArith ASub (TLeaf OZero) v) :: S) h o.
Proof.
  intros v u S h o H N. assert (R : push KX (TArith ASub (TLeaf OZero) v) (reduce KX (S4 S h o)) = S4 ((KX, TArith ASub (TLeaf OZero) v) :: S) h o)
    by (rewrite reduce_op_top; [reflexivity|exact H|discriminate]).
  assert (B : build_arith ASub (TLeaf OZero) v = (TArith ASub (TLeaf OZero) v, false)) by (unfold build_arith; cbn [is_num]; now rewrite N).
  unfold put_x. cbn [tok1 tok2 S4 stk]. rewrite B. destruct S as [|[t1 v1] r]; [exact R|]. cbn [top] in H. destruct t1; try exact R. contradiction.
Qed.

Lemma arith_step : forall t op vl u vr S h o, is_num vl = true -> is_num vr = true -> (prio (KA op) <= prio t)%nat ->
  reduce t (S4 ((KX, vr) :: (KA op, u) :: (KX, vl) :: S) h o) = reduce t (S4 ((KX, TArith op vl vr) :: S) h o).
Proof.
  intros t op vl u vr S h o Nl Nr P. apply reduce_go; [exact P|].
  unfold reduce_1. cbn [S4 stk]. unfold reduce_arith, build_arith. rewrite Nl, Nr. reflexivity.
Qed.

Lemma x_stop : forall t v S h o, (prio t < prio (top S))%nat -> t <> KAnd -> reduce t (S4 ((KX, v) :: S) h o) = S4 ((KX, v) :: S) h o.
Proof.
  intros t v S h o P T. rewrite reduce_stop.
  - destruct t; try reflexivity. contradiction.
  - cbn [tok2 S4 stk]. destruct S as [|[t1 v1] r]; exact P.
Qed.

Definition feed (ts : list inp) (s : st) : st := fold_left shift ts s.
Lemma feed_app : forall a b s, feed (a ++ b) s = feed b (feed a s).
Proof. intros. apply fold_left_app. Qed.
Lemma feed_cons : forall i ts s, feed (i :: ts) s = feed ts (shift s i).
Proof. reflexivity. Qed.

(** The result of an operand or a parenthesised expression, before a unary sign
    is attached. *)
Definition atom_claim (ts : list inp) (e : tree) : Prop :=
  forall S h o, top S <> KX -> (top S = KNot -> ~ zero_first ts) ->
  exists v h' o', feed ts (S4 S h o) = put_x v (S4 S h' o') /\ expand_par v = e /\ subj_after S h h' o o'.
Definition phrase_claim (n : nat) (ts : list inp) (e : tree) : Prop :=
  forall S h o, top S <> KX -> ~ unary_end S -> (n <= prio (top S))%nat -> (top S = KNot -> ~ zero_first ts) ->
  exists v h' o', agree any (Nat.pred n) (feed ts (S4 S h o)) (S4 ((KX, v) :: S) h' o') /\ expand_par v = e /\ subj_after S h h' o o'.

Lemma level_prio : forall op, level op = S (prio (KA op)).
Proof. destruct op; reflexivity. Qed.
Lemma same_subj : forall S h h' o o', (forall r, top S <> KR r) -> subj_after S h h' o o' -> h' = h /\ o' = o.
Proof.
  intros S h h' o o' T [H|[-> ->]]; [exact H|]. destruct S as [|[t v] r]; [split; reflexivity|].
  cbn [top] in T. destruct t; try (split; reflexivity). exfalso. now apply (T r0).
Qed.
Lemma zero_first_app : forall a b, a <> [] -> ~ zero_first (a ++ b) -> ~ zero_first a.
Proof. intros [|i a] b H Z; [contradiction|]. exact Z. Qed.
Lemma phrase_nonempty : forall n ts e, phrase n ts e -> ts <> [].
Proof. induction 1; try discriminate; auto. intros E. apply app_eq_nil in E. now destruct E. Qed.

Lemma phrase_ok : forall n ts e, phrase n ts e -> (n = 0%nat -> atom_claim ts e) /\ ((0 < n)%nat -> phrase_claim n ts e).
Proof.
  intros n ts e H. induction H as [o D|ts e H [_ IH]|ts e H [IH _] N|ts e H [IH _] N|op ts1 e1 ts2 e2 H1 [_ IH1] H2 [_ IH2] N1 N2|n ts e H [IH0 IH] L].
  - split; [|lia]. intros _ S h oo T Z. exists (TLeaf o), h, oo. split; [|split; [reflexivity|left; split; reflexivity]].
    change (feed [IX o] (S4 S h oo)) with (shift_x o (S4 S h oo)). unfold shift_x.
    destruct o; try reflexivity. unfold tok1. cbn [S4 stk]. destruct S as [|[t v] r]; [reflexivity|].
    cbn [top] in T, Z. destruct t; try reflexivity; [contradiction|]. exfalso. now apply Z.
  - split; [|lia]. intros _ S h o T _. specialize (IH ltac:(lia)).
    rewrite feed_cons. change (shift (S4 S h o) IOpen) with (shift_open (S4 S h o)).
    rewrite shift_open_eq by exact T. rewrite feed_app.
    destruct (IH ((KOpen, TNull) :: S) (par_lh S h) (par_op S o)) as (v & h' & o' & A & E & SJ).
    { discriminate. } { intros U; exact U. } { cbn [top prio]; lia. } { discriminate. }
    apply same_subj in SJ; [|discriminate]. destruct SJ as [-> ->].
    exists (TPar v), (par_lh S h), (par_op S o). split; [|split; [exact E|right; split; reflexivity]].
    change (feed [IClose] (feed ts (S4 ((KOpen, TNull) :: S) (par_lh S h) (par_op S o))))
      with (shift_close (feed ts (S4 ((KOpen, TNull) :: S) (par_lh S h) (par_op S o)))).
    unfold shift_close. destruct A as (_ & _ & A). rewrite A by (try exact I; cbn; lia).
    rewrite x_stop by (try discriminate; cbn; lia). cbn [tok2 S4 stk val1].
    assert (VN : v <> TNull). { apply phrase_opnd in H. rewrite <- E in H. now apply opnd_raw in H. }
    destruct v; try reflexivity. contradiction.
  - split; [discriminate|]. intros _ S h o T U P _. specialize (IH eq_refl).
    rewrite feed_cons. change (shift (S4 S h o) (IArith AAdd)) with (shift_op (KA AAdd) (S4 S h o)).
    unfold shift_op. rewrite reduce_op_top by (try exact T; discriminate). change (push (KA AAdd) TNull (S4 S h o)) with (S4 ((KA AAdd, TNull) :: S) h o).
    destruct (IH ((KA AAdd, TNull) :: S) h o) as (v & h' & o' & A & E & SJ); [discriminate|discriminate|].
    apply same_subj in SJ; [|discriminate]. destruct SJ as [-> ->].
    exists v, h, o. rewrite A, put_x_plus by exact T. split; [apply agree_refl; reflexivity|]. split; [exact E|left; split; reflexivity].
  - split; [discriminate|]. intros _ S h o T U P _. specialize (IH eq_refl).
    rewrite feed_cons. change (shift (S4 S h o) (IArith ASub)) with (shift_op (KA ASub) (S4 S h o)).
    unfold shift_op. rewrite reduce_op_top by (try exact T; discriminate). change (push (KA ASub) TNull (S4 S h o)) with (S4 ((KA ASub, TNull) :: S) h o).
    destruct (IH ((KA ASub, TNull) :: S) h o) as (v & h' & o' & A & E & SJ); [discriminate|discriminate|].
    apply same_subj in SJ; [|discriminate]. destruct SJ as [-> ->].
    exists (TArith ASub (TLeaf OZero) v), h, o. rewrite A, put_x_minus; [|exact T|].
    + split; [apply agree_refl; reflexivity|]. split; [cbn [expand_par]; now rewrite E|left; split; reflexivity].
    + rewrite <- is_num_expand, E. now apply numeric_is.
  - split; [destruct op; discriminate|]. intros _ S h o T U P Z.
    assert (L1 : (0 < level op)%nat) by (destruct op; cbn; lia).
    assert (L2 : (0 < Nat.pred (level op))%nat) by (destruct op; cbn; lia).
    specialize (IH1 L1). specialize (IH2 L2).
    destruct (IH1 S h o T U P) as (v1 & h1 & o1 & (_ & _ & A1) & E1 & SJ1).
    { intros Q. apply (zero_first_app ts1 (IArith op :: ts2)); [eapply phrase_nonempty; exact H1|now apply Z]. }
    rewrite feed_app, feed_cons. change (shift (feed ts1 (S4 S h o)) (IArith op)) with (shift_op (KA op) (feed ts1 (S4 S h o))).
    unfold shift_op. rewrite A1 by (try exact I; rewrite level_prio; cbn [Nat.pred]; lia).
    rewrite x_stop by (try discriminate; rewrite level_prio in P; lia).
    change (push (KA op) TNull (S4 ((KX, v1) :: S) h1 o1)) with (S4 ((KA op, TNull) :: (KX, v1) :: S) h1 o1).
    destruct (IH2 ((KA op, TNull) :: (KX, v1) :: S) h1 o1) as (v2 & h2 & o2 & A2 & E2 & SJ2).
    { discriminate. } { cbn. destruct op; auto. } { rewrite level_prio. cbn [Nat.pred top]. lia. } { discriminate. }
    apply same_subj in SJ2; [|discriminate]. destruct SJ2 as [-> ->].
    exists (TArith op v1 v2), h1, o1. split; [|split; [cbn [expand_par]; now rewrite E1, E2|exact SJ1]].
    eapply agree_trans; [eapply agree_weak; [exact A2|auto|lia]|].
    split; [reflexivity|]. split; [reflexivity|]. intros t _ Pt. apply arith_step.
    + rewrite <- is_num_expand, E1. now apply numeric_is.
    + rewrite <- is_num_expand, E2. now apply numeric_is.
    + rewrite level_prio in Pt. exact Pt.
  - split; [discriminate|]. intros _ S h o T U P Z. destruct n as [|n].
    + destruct (IH0 eq_refl S h o T Z) as (v & h' & o' & A & E & SJ). exists v, h', o'.
      rewrite A, put_x_plain by assumption. split; [apply agree_refl; reflexivity|]. split; assumption.
    + destruct (IH ltac:(lia) S h o T U ltac:(lia) Z) as (v & h' & o' & A & E & SJ). exists v, h', o'.
      split; [|split; assumption]. eapply agree_weak; [exact A|auto|cbn; lia].
Qed.
