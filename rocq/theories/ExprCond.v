(** Proofs about the expression parser: conditions (C62). *)
From Verif Require Import Base Compute ExprParse SpecExpr ExprProofs.

(** Tokens that may follow a condition. *)
Definition joint (t : tok) : Prop := match t with KAnd | KOr | KClose | K0 => True | _ => False end.
Lemma joint_prio : forall t, joint t -> (6 <= prio t)%nat.
Proof. destruct t; cbn; intros; try contradiction; lia. Qed.

(** expr_lh and expr_op describe the previous relation. *)
Definition compat (sub : option (tree * rel)) (h : tree) (o : option rel) : Prop :=
  match sub with None => True | Some (e, r) => expand_par h = e /\ opnd e /\ o = Some r end.
Lemma compat_lh : forall e r h o S, compat (Some (e, r)) h o -> has_lh (S4 S h o) = true.
Proof. intros e r h o S (E & D & _). rewrite <- E in D. apply opnd_raw in D as (_ & _ & _ & N). unfold has_lh. cbn [S4 lh]. destruct h; try reflexivity. contradiction. Qed.

(** Where a condition may begin. *)
Definition cstack (u : bool) (n : nat) (sub : option (tree * rel)) (S : list (tok * tree)) : Prop :=
  match top S with
  | KNot => u = true
  | KAnd => u = false /\ (n <= 1)%nat
  | KOr => u = false /\ (n <= 2)%nat
  | KOpen | K0 => u = false
  | _ => False
  end /\
  (sub <> None -> match S with (KNot, _) :: _ => True | (KAnd, _) :: (KX, _) :: _ | (KOr, _) :: (KX, _) :: _ => True | _ => False end).

Definition cond_claim (u : bool) (n : nat) (sub : option (tree * rel)) (ts : list inp) (t : tree) (sub' : option (tree * rel)) : Prop :=
  forall S h o, cstack u n sub S -> compat sub h o ->
  exists v h' o', agree joint (n + 4) (feed ts (S4 S h o)) (S4 ((KX, v) :: S) h' o') /\ expand_par v = t /\ is_bool v = true /\ compat sub' h' o'.

(** A condition may begin with an operand. *)
Lemma cstack_operand : forall u n sub S, cstack u n sub S ->
  top S <> KX /\ ~ unary_end S /\ (5 <= prio (top S))%nat /\ (forall r, top S <> KR r) /\ (top S = KNot <-> u = true).
Proof.
  intros u n sub S [H _]. destruct S as [|[t v] r]; cbn [top unary_end] in *.
  - repeat split; intros; try discriminate; auto; try (subst; discriminate). cbn; lia.
  - destruct t; try contradiction; repeat split; intros; try discriminate; auto; try tauto; try (cbn; lia);
      try (destruct H as [H _]; congruence); try congruence.
Qed.

Lemma opposite_is : forall r, opposite r = negated r.
Proof. destruct r; reflexivity. Qed.

(** Relational operators after an operand. *)
Lemma relop_ok : forall n rs r, relop n rs r -> forall s v S h o, agree any 3 s (S4 ((KX, v) :: S) h o) ->
  (4 < prio (top S))%nat -> (n = true -> top S <> KNot) ->
  feed rs s = S4 ((KR r, TNull) :: (KX, v) :: S) h o.
Proof.
  intros n rs r R s v S h o (T & _ & A) P N.
  assert (Q : forall r0, reduce (KR r0) s = S4 ((KX, v) :: S) h o)
    by (intros r0; rewrite A by (try exact I; cbn; lia); apply x_stop; [cbn [prio]; lia|discriminate]).
  assert (HN : have_not s = false) by (unfold have_not; now rewrite T).
  assert (PL : forall r0, shift_rel r0 s = S4 ((KR r0, TNull) :: (KX, v) :: S) h o).
  { intros r0. unfold shift_rel. unfold tok1 in T. destruct (stk s) as [|[t1 v1] r'] eqn:E; [discriminate|]. subst t1.
    assert (E2 : match r0 with REq => (r0, s) | _ => (r0, s) end = (r0, s)) by (destruct r0; reflexivity).
    destruct r0; rewrite HN, Q; reflexivity. }
  destruct R as [r|r| |].
  - exact (PL r).
  - rewrite opposite_is. rewrite feed_cons. change (shift s INot) with (shift_op KNot s). unfold shift_op.
    assert (Q5 : reduce KNot s = S4 ((KX, v) :: S) h o).
    { rewrite A by (try exact I; cbn; lia). apply x_stop; [|discriminate]. specialize (N eq_refl).
      cbn [prio]. destruct (top S) eqn:TS; cbn [prio] in P |- *; try lia; try contradiction. destruct o0; cbn in P; lia. }
    rewrite Q5. change (push KNot TNull (S4 ((KX, v) :: S) h o)) with (S4 ((KNot, TNull) :: (KX, v) :: S) h o).
    change (feed [IRel r] ?x) with (shift_rel r x). unfold shift_rel. cbn [S4 stk].
    replace (match r with REq => (r, mkSt ((KNot, TNull) :: (KX, v) :: S) h o false false) | _ => (r, mkSt ((KNot, TNull) :: (KX, v) :: S) h o false false) end)
      with (r, S4 ((KNot, TNull) :: (KX, v) :: S) h o) by (destruct r; reflexivity).
    destruct r; cbn [have_not tok1 S4 stk negated];
      match goal with |- push (KR ?k) TNull (reduce (KR ?k) ?z) = _ => change z with (S4 ((KX, v) :: S) h o); rewrite (x_stop (KR k)) by (try discriminate; cbn [prio]; lia) end; reflexivity.
  - rewrite feed_cons. change (shift s (IRel RLt)) with (shift_rel RLt s). rewrite PL.
    rewrite feed_cons. change (shift ?x IOr) with (shift_op KOr x). unfold shift_op. rewrite reduce_op_top by discriminate.
    change (feed [IRel REq] ?x) with (shift_rel REq x). unfold shift_rel. cbn [push set_stk S4 stk lh eop bad dead have_not tok1].
    match goal with |- context [reduce _ (set_stk ?a ?b)] => change (set_stk a b) with (S4 b h o) end. rewrite x_stop by (try discriminate; cbn [prio]; lia). reflexivity.
  - rewrite feed_cons. change (shift s (IRel RGt)) with (shift_rel RGt s). rewrite PL.
    rewrite feed_cons. change (shift ?x IOr) with (shift_op KOr x). unfold shift_op. rewrite reduce_op_top by discriminate.
    change (feed [IRel REq] ?x) with (shift_rel REq x). unfold shift_rel. cbn [push set_stk S4 stk lh eop bad dead have_not tok1].
    match goal with |- context [reduce _ (set_stk ?a ?b)] => change (set_stk a b) with (S4 b h o) end. rewrite x_stop by (try discriminate; cbn [prio]; lia). reflexivity.
Qed.

(** Relational operators after AND or OR. *)
Lemma relop_abbr : forall n rs r, relop n rs r -> forall S h o, (top S = KAnd \/ top S = KOr) -> (match S with (KOr, _) :: (KR _, _) :: _ => False | _ => True end) ->
  feed rs (S4 S h o) = S4 ((KR r, TNull) :: S) h o.
Proof.
  intros n rs r R S h o T NM.
  assert (TX : top S <> KX) by (destruct T as [-> | ->]; discriminate).
  assert (TN : top S <> KNot) by (destruct T as [-> | ->]; discriminate).
  assert (PL : forall r0, shift_rel r0 (S4 S h o) = S4 ((KR r0, TNull) :: S) h o).
  { intros r0. unfold shift_rel. cbn [S4 stk].
    match goal with |- (let '(r1, s1) := ?q in _) = _ => assert (EQ : q = (r0, S4 S h o)) end.
    { destruct r0; try reflexivity. destruct S as [|[t1 v1] S1]; [reflexivity|]. destruct t1; try reflexivity.
      destruct S1 as [|[t2 v2] S2]; [reflexivity|]. destruct t2; try reflexivity. contradiction. }
    rewrite EQ. clear EQ.
    assert (HN : have_not (S4 S h o) = false).
    { unfold have_not, tok1. cbn [S4 stk]. destruct S as [|[t1 v1] S1]; [reflexivity|]. cbn [top] in TN. destruct t1; try reflexivity. contradiction. }
    rewrite HN. rewrite reduce_op_top; [reflexivity| |discriminate]. unfold tok1. cbn [S4 stk]. exact TX. }
  destruct R as [r|r| |].
  - exact (PL r).
  - rewrite feed_cons. change (shift (S4 S h o) INot) with (shift_op KNot (S4 S h o)). unfold shift_op.
    rewrite reduce_op_top; [|exact TX|discriminate].
    change (push KNot TNull (S4 S h o)) with (S4 ((KNot, TNull) :: S) h o).
    rewrite opposite_is. change (feed [IRel r] ?x) with (shift_rel r x).
    unfold shift_rel. cbn [S4 stk].
    destruct r; cbn [have_not tok1 S4 stk negated];
      match goal with |- push (KR ?k) TNull (reduce (KR ?k) ?z) = _ => change z with (S4 S h o); rewrite (reduce_op_top (KR k)) by (try exact TX; discriminate) end; reflexivity.
  - rewrite feed_cons. change (shift (S4 S h o) (IRel RLt)) with (shift_rel RLt (S4 S h o)). rewrite PL.
    rewrite feed_cons. change (shift ?x IOr) with (shift_op KOr x). unfold shift_op. rewrite reduce_op_top by discriminate.
    change (feed [IRel REq] ?x) with (shift_rel REq x). unfold shift_rel. cbn [push set_stk S4 stk lh eop bad dead].
    match goal with |- context [set_stk ?a ?b] => change (set_stk a b) with (S4 b h o) end.
    assert (HN : have_not (S4 S h o) = false).
    { unfold have_not, tok1. cbn [S4 stk]. destruct S as [|[t1 v1] S1]; [reflexivity|]. cbn [top] in TN. destruct t1; try reflexivity. contradiction. }
    rewrite HN. rewrite reduce_op_top by (try exact TX; discriminate). reflexivity.
  - rewrite feed_cons. change (shift (S4 S h o) (IRel RGt)) with (shift_rel RGt (S4 S h o)). rewrite PL.
    rewrite feed_cons. change (shift ?x IOr) with (shift_op KOr x). unfold shift_op. rewrite reduce_op_top by discriminate.
    change (feed [IRel REq] ?x) with (shift_rel REq x). unfold shift_rel. cbn [push set_stk S4 stk lh eop bad dead].
    match goal with |- context [set_stk ?a ?b] => change (set_stk a b) with (S4 b h o) end.
    assert (HN : have_not (S4 S h o) = false).
    { unfold have_not, tok1. cbn [S4 stk]. destruct S as [|[t1 v1] S1]; [reflexivity|]. cbn [top] in TN. destruct t1; try reflexivity. contradiction. }
    rewrite HN. rewrite reduce_op_top by (try exact TX; discriminate). reflexivity.
Qed.

(** ** Steps of the loop *)
Lemma rel_step : forall t r vl u vr S h o, opnd (expand_par vl) -> opnd (expand_par vr) -> (4 <= prio t)%nat ->
  reduce t (S4 ((KX, vr) :: (KR r, u) :: (KX, vl) :: S) h o) = reduce t (S4 ((KX, TRel r vl vr) :: S) vl (Some r)).
Proof.
  intros t r vl u vr S h o Dl Dr P. apply opnd_raw in Dl as (El & Ll & _ & _). apply opnd_raw in Dr as (Er & Lr & Br & _).
  apply reduce_go; [exact P|]. unfold reduce_1. cbn [S4 stk]. rewrite El, Er, Ll, Lr, Br. reflexivity.
Qed.
Lemma rel_step_abbr : forall t r k u u2 vr S h o, opnd (expand_par vr) -> (k = KAnd \/ k = KOr) -> (4 <= prio t)%nat ->
  reduce t (S4 ((KX, vr) :: (KR r, u) :: (k, u2) :: S) h o) = reduce t (S4 ((KX, TRel r h vr) :: (k, u2) :: S) h (Some r)).
Proof.
  intros t r k u u2 vr S h o Dr K P. apply opnd_raw in Dr as (Er & Lr & Br & _).
  apply reduce_go; [exact P|]. unfold reduce_1. cbn [S4 stk]. destruct K as [-> | ->]; rewrite Er, Br; reflexivity.
Qed.
Lemma not_step : forall t v u S h o, is_bool v = true -> (5 <= prio t)%nat ->
  reduce t (S4 ((KX, v) :: (KNot, u) :: S) h o) = reduce t (S4 ((KX, TNot v) :: S) h o).
Proof.
  intros t v u S h o B P. apply reduce_go; [exact P|]. unfold reduce_1. cbn [S4 stk].
  rewrite B. rewrite andb_false_r. unfold build_not. rewrite B. reflexivity.
Qed.
Lemma log_step : forall t k v1 v2 u S h o, is_bool v1 = true -> is_bool v2 = true -> (k = KAnd \/ k = KOr) -> (prio k <= prio t)%nat ->
  reduce t (S4 ((KX, v2) :: (k, u) :: (KX, v1) :: S) h o) = reduce t (S4 ((KX, match k with KAnd => TAnd v1 v2 | _ => TOr v1 v2 end) :: S) h o).
Proof.
  intros t k v1 v2 u S h o B1 B2 K P. destruct K as [-> | ->]; (apply reduce_go; [exact P|]); unfold reduce_1; cbn [S4 stk];
    rewrite B1, B2, !andb_false_r; unfold build_log; rewrite B1, B2; reflexivity.
Qed.

(** An object alone, after AND, OR or NOT: it is completed when the next AND, OR,
    ')' or the end comes. *)
Lemma object_step : forall t v S h o r, joint t -> is_bool v = false -> v <> TNull -> o = Some r -> has_lh (S4 S h o) = true ->
  match S with (KNot, _) :: _ => True | (KAnd, _) :: (KX, _) :: _ | (KOr, _) :: (KX, _) :: _ => True | _ => False end ->
  reduce t (S4 ((KX, v) :: S) h o) = reduce t (S4 ((KX, TRel r h v) :: S) h o).
Proof.
  intros t v S h o r J B NV -> HL C. apply joint_prio in J as PJ.
  assert (HL' : forall l, has_lh (S4 l h (Some r)) = true) by (intros l; exact HL).
  destruct S as [|[t1 v1] S1]; [contradiction|]. destruct t1; try contradiction.
  - transitivity (reduce t (S4 ((KX, TNot (TRel r h v)) :: S1) h (Some r))).
    + apply reduce_go; [cbn [tok2 S4 stk prio]; lia|]. unfold reduce_1. cbn [S4 stk].
      change (mkSt ((KX, v) :: (KNot, v1) :: S1) h (Some r) false false) with (S4 ((KX, v) :: (KNot, v1) :: S1) h (Some r)).
      rewrite HL', B. reflexivity.
    + symmetry. now apply not_step; [|lia].
  - destruct S1 as [|[t2 v2] S2]; [contradiction|]. destruct t2; try contradiction.
    set (w2 := if is_bool v2 then v2 else TRel r h v2).
    assert (BW : is_bool w2 = true) by (unfold w2; destruct (is_bool v2) eqn:E; [exact E|reflexivity]).
    transitivity (reduce t (S4 ((KX, TAnd w2 (TRel r h v)) :: S2) h (Some r))).
    + apply reduce_go; [cbn [tok2 S4 stk prio]; lia|]. unfold reduce_1. cbn [S4 stk].
      change (mkSt ((KX, v) :: (KAnd, v1) :: (KX, v2) :: S2) h (Some r) false false) with (S4 ((KX, v) :: (KAnd, v1) :: (KX, v2) :: S2) h (Some r)).
      rewrite HL', B. unfold w2 in *. destruct (is_bool v2) eqn:E2; cbn [negb andb build_abbr S4 eop lh]; unfold build_log; [rewrite E2|]; reflexivity.
    + symmetry. apply reduce_go; [cbn [tok2 S4 stk prio]; lia|]. unfold reduce_1. cbn [S4 stk].
      change (mkSt ((KX, TRel r h v) :: (KAnd, v1) :: (KX, v2) :: S2) h (Some r) false false) with (S4 ((KX, TRel r h v) :: (KAnd, v1) :: (KX, v2) :: S2) h (Some r)).
      rewrite HL'. unfold w2 in *. cbn [is_bool negb andb]. destruct (is_bool v2) eqn:E2; cbn [negb andb build_abbr S4 eop lh]; unfold build_log; [rewrite E2|]; reflexivity.
  - destruct S1 as [|[t2 v2] S2]; [contradiction|]. destruct t2; try contradiction.
    destruct (Nat.le_gt_cases 7 (prio t)) as [P7|P7].
    + set (w2 := if is_bool v2 then v2 else TRel r h v2).
      assert (BW : is_bool w2 = true) by (unfold w2; destruct (is_bool v2) eqn:E; [exact E|reflexivity]).
      transitivity (reduce t (S4 ((KX, TOr w2 (TRel r h v)) :: S2) h (Some r))).
      * apply reduce_go; [cbn [tok2 S4 stk prio]; lia|]. unfold reduce_1. cbn [S4 stk].
        change (mkSt ((KX, v) :: (KOr, v1) :: (KX, v2) :: S2) h (Some r) false false) with (S4 ((KX, v) :: (KOr, v1) :: (KX, v2) :: S2) h (Some r)).
        rewrite HL', B. unfold w2 in *. destruct (is_bool v2) eqn:E2; cbn [negb andb build_abbr S4 eop lh]; unfold build_log; [rewrite E2|]; reflexivity.
      * symmetry. apply reduce_go; [cbn [tok2 S4 stk prio]; lia|]. unfold reduce_1. cbn [S4 stk].
        change (mkSt ((KX, TRel r h v) :: (KOr, v1) :: (KX, v2) :: S2) h (Some r) false false) with (S4 ((KX, TRel r h v) :: (KOr, v1) :: (KX, v2) :: S2) h (Some r)).
        rewrite HL'. unfold w2 in *. cbn [is_bool negb andb]. destruct (is_bool v2) eqn:E2; cbn [negb andb build_abbr S4 eop lh]; unfold build_log; [rewrite E2|]; reflexivity.
    + assert (t = KAnd) as -> by (destruct t; cbn in J, P7; try contradiction; try lia; reflexivity).
      rewrite !reduce_stop by (cbn; lia). unfold op_or_x_and. cbn [S4 stk]. rewrite B. cbn [is_bool].
      destruct v; try reflexivity. contradiction.
Qed.

Lemma x_stop_and : forall v S h o, (6 < prio (top S))%nat -> is_bool v = true -> reduce KAnd (S4 ((KX, v) :: S) h o) = S4 ((KX, v) :: S) h o.
Proof.
  intros v S h o P B. rewrite reduce_stop.
  - unfold op_or_x_and. cbn [S4 stk]. destruct S as [|[t1 v1] S1]; [reflexivity|]. destruct t1; try reflexivity. rewrite B.
    destruct v; try reflexivity. discriminate.
  - cbn [tok2 S4 stk]. destruct S as [|[t1 v1] S1]; exact P.
Qed.

(** Sign and class tests after an operand. *)
Lemma test_ok : forall mk n s v S h o, agree any 3 s (S4 ((KX, v) :: S) h o) -> (4 < prio (top S))%nat -> (n = true -> top S <> KNot) ->
  (forall x, is_bool (mk x) = true) ->
  shift_test mk (feed (opt_not n []) s) = S4 ((KX, negate_if n (mk v)) :: S) h o.
Proof.
  intros mk n s v S h o (T & _ & A) P N B.
  assert (Q : reduce (KR REq) s = S4 ((KX, v) :: S) h o)
    by (rewrite A by (try exact I; cbn; lia); apply x_stop; [cbn [prio]; lia|discriminate]).
  destruct n; cbn [opt_not].
  - change (feed [INot] s) with (shift_op KNot s). unfold shift_op.
    assert (Q5 : reduce KNot s = S4 ((KX, v) :: S) h o).
    { rewrite A by (try exact I; cbn; lia). apply x_stop; [|discriminate]. specialize (N eq_refl).
      cbn [prio]. destruct (top S) eqn:TS; cbn [prio] in P |- *; try lia; try contradiction. destruct o0; cbn in P; lia. }
    rewrite Q5. unfold shift_test. change (have_not (push KNot TNull (S4 ((KX, v) :: S) h o))) with true. cbv iota.
    change (pop (push KNot TNull (S4 ((KX, v) :: S) h o))) with (S4 ((KX, v) :: S) h o).
    cbv zeta. rewrite x_stop by (try discriminate; cbn [prio]; lia). cbn [tok1 S4 stk]. unfold negate, build_not. cbn [val1 set_val1 set_stk S4 stk]. rewrite B. reflexivity.
  - change (feed [] s) with s. unfold shift_test.
    assert (HN : have_not s = false) by (unfold have_not; now rewrite T). rewrite HN. cbv zeta. rewrite Q. reflexivity.
Qed.

Lemma signtest_shift : forall ss r, signtest ss r -> exists i, ss = [i] /\ forall s, tok1 s = KX \/ tok1 s = KNot -> shift s i = shift_sign r s.
Proof.
  intros ss r [| |]; eexists; (split; [reflexivity|]); intros s H; try reflexivity.
  cbn [shift]. unfold shift_x. destruct H as [-> | ->]; reflexivity.
Qed.
Lemma tok1_opt_not : forall n s, tok1 s = KX -> tok1 (feed (opt_not n []) s) = KX \/ tok1 (feed (opt_not n []) s) = KNot.
Proof. intros [] s H; [right|left]; [reflexivity|exact H]. Qed.
Lemma opt_not_snoc : forall n i, opt_not n [i] = opt_not n [] ++ [i].
Proof. destruct n; reflexivity. Qed.

Scheme simple_mind := Minimality for simple Sort Prop with cond_mind := Minimality for cond Sort Prop.
Combined Scheme cond_both from simple_mind, cond_mind.

Lemma cond_ok_both :
  (forall u sub ts t sub', simple u sub ts t sub' -> cond_claim u 1 sub ts t sub') /\
  (forall n sub ts t sub', cond n sub ts t sub' -> (1 <= n <= 3)%nat /\ cond_claim false n sub ts t sub').
Proof.
  apply (cond_both (fun u sub ts t sub' => cond_claim u 1 sub ts t sub')
                   (fun n sub ts t sub' => (1 <= n <= 3)%nat /\ cond_claim false n sub ts t sub')).
  - (* relation *)
    intros u sub l el n rs r ob eo Hl Hr Ho HU S h o C K.
    destruct (cstack_operand _ _ _ _ C) as (T & U & P & TR & TN).
    destruct (proj2 (phrase_ok _ _ _ Hl) ltac:(lia) S h o T U ltac:(lia)) as (vl & h1 & o1 & A1 & E1 & SJ1).
    { intros Q. apply HU. now apply TN. }
    rewrite !feed_app. rewrite (relop_ok n rs r Hr _ vl S h1 o1); [|exact A1|lia|].
    2:{ intros -> Q. apply TN in Q. destruct (HU Q). discriminate. }
    destruct (proj2 (phrase_ok _ _ _ Ho) ltac:(lia) ((KR r, TNull) :: (KX, vl) :: S) h1 o1 ltac:(discriminate) ltac:(cbn; tauto) ltac:(cbn; lia) ltac:(discriminate))
      as (vr & h2 & o2 & A2 & E2 & SJ2).
    assert (Dl : opnd (expand_par vl)) by (rewrite E1; eapply phrase_opnd; exact Hl).
    assert (Dr : opnd (expand_par vr)) by (rewrite E2; eapply phrase_opnd; exact Ho).
    exists (TRel r vl vr), vl, (Some r). split.
    + eapply agree_trans; [eapply agree_weak; [exact A2|intros; exact I|cbn; lia]|].
      split; [reflexivity|]. split; [reflexivity|]. intros t J _. apply rel_step; [exact Dl|exact Dr|]. apply joint_prio in J. lia.
    + split; [cbn [expand_par]; now rewrite E1, E2|]. split; [reflexivity|]. split; [exact E1|]. split; [rewrite <- E1; exact Dl|reflexivity].
  - (* object *)
    intros u el r ob eo Ho HU S h o C K.
    destruct (cstack_operand _ _ _ _ C) as (T & U & P & TR & TN).
    destruct (proj2 (phrase_ok _ _ _ Ho) ltac:(lia) S h o T U ltac:(lia)) as (v & h1 & o1 & A1 & E1 & SJ1).
    { intros Q. apply HU. now apply TN. }
    apply same_subj in SJ1; [|exact TR]. destruct SJ1 as [-> ->].
    assert (D : opnd (expand_par v)) by (rewrite E1; eapply phrase_opnd; exact Ho).
    destruct (opnd_raw _ D) as (_ & _ & BV & NV).
    exists (TRel r h v), h, o. split.
    + eapply agree_trans; [eapply agree_weak; [exact A1|intros; exact I|cbn; lia]|].
      split; [reflexivity|]. split; [reflexivity|]. intros t J _. apply object_step; auto.
      * apply K.
      * eapply compat_lh. exact K.
      * apply C. discriminate.
    + destruct K as (K1 & K2 & K3). split; [cbn [expand_par]; now rewrite K1, E1|]. split; [reflexivity|]. repeat split; assumption.
  - (* operator and object *)
    intros el r0 n rs r ob eo Hr Ho S h o C K.
    destruct (cstack_operand _ _ _ _ C) as (T & U & P & TR & TN).
    destruct C as [C1 C2]. specialize (C2 ltac:(discriminate)).
    assert (exists k u2 S2, S = (k, u2) :: S2 /\ (k = KAnd \/ k = KOr) /\ match S with (KOr, _) :: (KR _, _) :: _ => False | _ => True end) as (k & u2 & S2 & ES & HK & NM).
    { destruct S as [|[k u2] S2]; [contradiction|]. exists k, u2, S2. split; [reflexivity|].
      destruct k; try contradiction.
      - cbn [top] in C1. discriminate.
      - split; [left; reflexivity|exact I].
      - split; [right; reflexivity|]. destruct S2 as [|[t2 v2] S3]; [exact I|]. destruct t2; try exact I. contradiction. }
    rewrite feed_app. rewrite (relop_abbr n rs r Hr S h o).
    2:{ rewrite ES. cbn [top]. exact HK. } 2:{ exact NM. }
    destruct (proj2 (phrase_ok _ _ _ Ho) ltac:(lia) ((KR r, TNull) :: S) h o ltac:(discriminate) ltac:(cbn; tauto) ltac:(cbn; lia) ltac:(discriminate))
      as (vr & h2 & o2 & A2 & E2 & SJ2).
    assert (Dr : opnd (expand_par vr)) by (rewrite E2; eapply phrase_opnd; exact Ho).
    assert (h2 = h) as ->.
    { destruct SJ2 as [[-> _]|[-> _]]; [reflexivity|]. rewrite ES. cbn [par_lh]. destruct HK as [-> | ->]; reflexivity. }
    exists (TRel r h vr), h, (Some r). split.
    + eapply agree_trans; [eapply agree_weak; [exact A2|intros; exact I|cbn; lia]|].
      split; [reflexivity|]. split; [reflexivity|]. intros t J _. rewrite ES. apply rel_step_abbr; [exact Dr|exact HK|]. apply joint_prio in J. lia.
    + destruct K as (K1 & K2 & K3). split; [cbn [expand_par]; now rewrite K1, E2|]. split; [reflexivity|]. repeat split; assumption.
  - (* sign *)
    intros u sub l el n ss r Hl Hs HU S h o C K.
    destruct (cstack_operand _ _ _ _ C) as (T & U & P & TR & TN).
    destruct (proj2 (phrase_ok _ _ _ Hl) ltac:(lia) S h o T U ltac:(lia)) as (vl & h1 & o1 & A1 & E1 & SJ1).
    { intros Q. apply HU. now apply TN. }
    destruct (signtest_shift _ _ Hs) as (i & -> & SH).
    rewrite opt_not_snoc, !feed_app.
    change (feed [i] ?x) with (shift x i).
    rewrite SH by (apply tok1_opt_not; apply A1). unfold shift_sign.
    rewrite (test_ok (fun v => TRel r v (TLeaf OZero)) n _ vl S h1 o1); [|exact A1|lia| |reflexivity].
    2:{ intros -> Q. apply TN in Q. destruct (HU Q). discriminate. }
    exists (negate_if n (TRel r vl (TLeaf OZero))), h1, o1. split; [apply agree_refl; reflexivity|].
    destruct n; cbn [negate_if expand_par is_bool]; rewrite E1; repeat split.
  - (* class *)
    intros u sub ob n c D HU S h o C K.
    destruct (cstack_operand _ _ _ _ C) as (T & U & P & TR & TN).
    assert (A1 : agree any 3 (feed [IX ob] (S4 S h o)) (S4 ((KX, TLeaf ob) :: S) h o)).
    { change (feed [IX ob] (S4 S h o)) with (shift_x ob (S4 S h o)).
      assert (E : shift_x ob (S4 S h o) = put_x (TLeaf ob) (S4 S h o)).
      { unfold shift_x. destruct ob; try reflexivity. unfold tok1. cbn [S4 stk]. destruct S as [|[t v] r]; [reflexivity|].
        cbn [top] in T, TN. destruct t; try reflexivity; [contradiction|]. exfalso. destruct (HU (proj1 TN eq_refl)) as [_ Z]. now apply Z. }
      rewrite E, put_x_plain by assumption. apply agree_refl. reflexivity. }
    rewrite feed_cons. change (shift (S4 S h o) (IX ob)) with (feed [IX ob] (S4 S h o)).
    rewrite opt_not_snoc, feed_app. change (feed [IClass c] ?x) with (shift_test (TClass c) x).
    rewrite (test_ok (TClass c) n _ (TLeaf ob) S h o); [|exact A1|lia| |reflexivity].
    2:{ intros -> Q. apply TN in Q. destruct (HU Q). discriminate. }
    exists (negate_if n (TClass c (TLeaf ob))), h, o. split; [apply agree_refl; reflexivity|].
    destruct n; cbn [negate_if expand_par is_bool]; repeat split.
  - (* condition-name *)
    intros u sub k S h o C K.
    destruct (cstack_operand _ _ _ _ C) as (T & U & P & TR & TN).
    exists (TLeaf (OCond k)), h, o.
    change (feed [IX (OCond k)] (S4 S h o)) with (put_x (TLeaf (OCond k)) (S4 S h o)).
    rewrite put_x_plain by assumption. split; [apply agree_refl; reflexivity|]. repeat split.
  - (* parentheses *)
    intros u sub ts t sub' H [_ IH] S h o C K.
    destruct (cstack_operand _ _ _ _ C) as (T & U & P & TR & TN).
    rewrite feed_cons. change (shift (S4 S h o) IOpen) with (shift_open (S4 S h o)).
    rewrite shift_open_eq by exact T. rewrite feed_app.
    destruct (IH ((KOpen, TNull) :: S) (par_lh S h) (par_op S o)) as (v & h' & o' & A & E & B & _).
    { split; [reflexivity|]. intros Q. now contradiction Q. } { exact I. }
    change (feed [IClose] ?x) with (shift_close x).
    unfold shift_close. destruct A as (_ & _ & A). rewrite A by (try exact I; cbn; lia).
    rewrite x_stop by (try discriminate; cbn; lia). cbn [tok2 S4 stk val1].
    assert (VN : v <> TNull) by (intros ->; discriminate).
    exists (TPar v), h', o'. split; [|split; [exact E|split; [exact B|exact I]]].
    assert (Q : put_x (TPar v) (S4 S h' o') = S4 ((KX, TPar v) :: S) h' o') by (apply put_x_plain; assumption).
    change (pop (pop (S4 ((KX, v) :: (KOpen, TNull) :: S) h' o'))) with (S4 S h' o').
    match goal with |- agree _ _ ?x _ => assert (Q2 : x = S4 ((KX, TPar v) :: S) h' o') by (destruct v; try exact Q; contradiction) end.
    rewrite Q2. apply agree_refl. reflexivity.
  - (* simple *)
    intros sub ts t sub' H IH. split; [lia|]. exact IH.
  - (* not *)
    intros sub ts t sub' H IH. split; [lia|]. intros S h o C K.
    destruct (cstack_operand _ _ _ _ C) as (T & U & P & TR & TN).
    rewrite feed_cons. change (shift (S4 S h o) INot) with (shift_op KNot (S4 S h o)). unfold shift_op.
    rewrite reduce_op_top by (try exact T; discriminate).
    change (push KNot TNull (S4 S h o)) with (S4 ((KNot, TNull) :: S) h o).
    destruct (IH ((KNot, TNull) :: S) h o) as (v & h' & o' & A & E & B & K').
    { split; [reflexivity|]. intros _. exact I. } { exact K. }
    exists (TNot v), h', o'. split; [|split; [cbn [expand_par]; now rewrite E|split; [reflexivity|exact K']]].
    eapply agree_trans; [exact A|]. split; [reflexivity|]. split; [reflexivity|]. intros t0 J Pt. apply not_step; [exact B|]. lia.
  - (* and *)
    intros sub ts1 t1 sub1 ts2 t2 sub2 H1 [_ IH1] H2 [_ IH2]. split; [lia|]. intros S h o C K.
    destruct (IH1 S h o C K) as (v1 & h1 & o1 & (_ & _ & A1) & E1 & B1 & K1).
    rewrite feed_app, feed_cons. change (shift ?x IAnd) with (shift_op KAnd x). unfold shift_op.
    rewrite A1 by (try exact I; cbn; lia). rewrite x_stop_and; [|destruct C as [C _]; destruct (top S); try contradiction; cbn; try lia|exact B1].
    change (push KAnd TNull (S4 ((KX, v1) :: S) h1 o1)) with (S4 ((KAnd, TNull) :: (KX, v1) :: S) h1 o1).
    destruct (IH2 ((KAnd, TNull) :: (KX, v1) :: S) h1 o1) as (v2 & h2 & o2 & A2 & E2 & B2 & K2).
    { split; [split; [reflexivity|lia]|]. intros _. exact I. } { exact K1. }
    exists (TAnd v1 v2), h2, o2. split; [|split; [cbn [expand_par]; now rewrite E1, E2|split; [reflexivity|exact K2]]].
    eapply agree_trans; [eapply agree_weak; [exact A2|auto|lia]|]. split; [reflexivity|]. split; [reflexivity|]. intros t0 J Pt.
    apply (log_step t0 KAnd); auto.
  - (* or *)
    intros sub ts1 t1 sub1 ts2 t2 sub2 H1 [_ IH1] H2 [_ IH2]. split; [lia|]. intros S h o C K.
    destruct (IH1 S h o C K) as (v1 & h1 & o1 & (_ & _ & A1) & E1 & B1 & K1).
    rewrite feed_app, feed_cons. change (shift ?x IOr) with (shift_op KOr x). unfold shift_op.
    rewrite A1 by (try exact I; cbn; lia). rewrite x_stop; [|destruct C as [C _]; destruct (top S); try contradiction; cbn; try lia|discriminate].
    change (push KOr TNull (S4 ((KX, v1) :: S) h1 o1)) with (S4 ((KOr, TNull) :: (KX, v1) :: S) h1 o1).
    destruct (IH2 ((KOr, TNull) :: (KX, v1) :: S) h1 o1) as (v2 & h2 & o2 & A2 & E2 & B2 & K2).
    { split; [split; [reflexivity|lia]|]. intros _. exact I. } { exact K1. }
    exists (TOr v1 v2), h2, o2. split; [|split; [cbn [expand_par]; now rewrite E1, E2|split; [reflexivity|exact K2]]].
    eapply agree_trans; [eapply agree_weak; [exact A2|auto|lia]|]. split; [reflexivity|]. split; [reflexivity|]. intros t0 J Pt.
    apply (log_step t0 KOr); auto.
  - (* weaker level *)
    intros n sub ts t sub' H [L IH] Hn. split; [lia|]. intros S h o [C C2] K.
    destruct (IH S h o) as (v & h' & o' & A & E & B & K').
    { split; [|exact C2]. destruct (top S); try contradiction; try exact C; destruct C; (split; [assumption|lia]). } { exact K. }
    exists v, h', o'. split; [|split; [exact E|split; [exact B|exact K']]]. eapply agree_weak; [exact A|auto|lia].
Qed.

(** ** The whole parser *)
Lemma finish_ok : forall s v h o, agree joint 7 s (S4 [(KX, v); (K0, TNull); (K0, TNull); (K0, TNull)] h o) ->
  is_err (expand_par v) = false -> v <> TNull -> finish s = Accepted (expand_par v).
Proof.
  intros s v h o (_ & _ & A) E N. unfold finish. rewrite A by (try exact I; cbn; lia).
  rewrite (reduce_leave K0 _ (S4 [(KX, v); (K0, TNull); (K0, TNull); (K0, TNull)] h o)); [|cbn; lia|reflexivity|cbn; lia].
  cbn [S4 dead bad stk orb]. rewrite E. destruct v; try reflexivity. contradiction.
Qed.

Theorem parse_arithmetic : forall ts e, phrase 4 ts e -> parse ts = Accepted e.
Proof.
  intros ts e H.
  destruct (proj2 (phrase_ok _ _ _ H) ltac:(lia) (stk start) TNull None ltac:(discriminate) ltac:(cbn; tauto) ltac:(cbn; lia) ltac:(discriminate))
    as (v & h & o & A & E & _).
  apply phrase_opnd in H. rewrite <- E in H. destruct (opnd_raw _ H) as (_ & _ & _ & N).
  unfold parse. rewrite <- E. apply (finish_ok _ v h o); [eapply agree_weak; [exact A|intros; exact I|cbn; lia]| |exact N].
  destruct (expand_par v); try reflexivity. destruct H.
Qed.
Theorem parse_condition : forall ts t, condition ts t -> parse ts = Accepted t.
Proof.
  intros ts t [sub H]. destruct (proj2 cond_ok_both _ _ _ _ _ H) as [_ C].
  destruct (C (stk start) TNull None) as (v & h & o & A & E & B & _).
  { split; [reflexivity|]. intros Q. now contradiction Q. } { exact I. }
  unfold parse. rewrite <- E. apply (finish_ok _ v h o); [exact A| |intros ->; discriminate].
  rewrite <- is_bool_expand in B. destruct (expand_par v); try reflexivity. discriminate.
Qed.
