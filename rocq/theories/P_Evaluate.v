(** Theorems C66: EVALUATE. *)
From Coq Require Import QArith.
From Verif Require Import Base Field SpecNum Move SpecCmp PackedInt P_Int Compute SpecCompute ComputeProofs ExprParse SpecExpr ExprProofs ExprCond P_Expr.
From Verif Require Import MoveAll CmpProofs Cond SpecCond CondProofs P_Cond Evaluate SpecEvaluate EvaluateProofs.
Local Open Scope Z_scope.

Lemma subjects_read : forall ss, Forall subject_ok ss -> exists ss', read_subjects ss = Some ss'.
Proof.
  intros ss H. induction H as [|s ss S1 S2 (ss' & IH)]; [now exists []|]. destruct (subject_read s S1) as (s' & E).
  exists (s' :: ss'). cbn [read_subjects]. now rewrite E, IH.
Qed.
Lemma stmts_some : forall (cs : list wcase) (cs' : list (list (list object) * option nat)), Forall2 (fun c c' => snd c' = w_stmts c) cs cs' ->
  Forall (fun c => w_stmts c <> None) cs -> existsb (fun c => match snd c with None => true | _ => false end) cs' = false.
Proof.
  intros cs cs' H. induction H as [|c c' cs cs' E H IH]; intros F; [reflexivity|]. inversion F as [|? ? F1 F2]; subst. cbn [existsb]. rewrite E.
  destruct (w_stmts c); [now apply IH|now elim F1].
Qed.
Lemma F2_nth2 : forall A B (R : A -> B -> Prop) l l', Forall2 R l l' -> forall j a b, nth_error l j = Some a -> nth_error l' j = Some b -> R a b.
Proof. intros A B R l l' H. induction H; intros [|j] a b E E'; try discriminate; cbn [nth_error] in *; [congruence|now apply (IHForall2 j)]. Qed.

(** C66.  EVALUATE executes the statements of the first group of WHEN phrases
    one of which is true, otherwise those of WHEN OTHER, otherwise none, and the
    tests change no item. *)
Theorem C66_evaluate : forall m debug alpha col nibble_c names vals empty_ok beyond w s,
  (col <> None -> alpha = true) -> cmp_history (cpack s) ->
  well_formed (citems s) vals m col names w -> stmts_ok empty_ok w ->
  exists e k s', compile_evaluate empty_ok beyond w = Some e /\ run_evaluate m debug alpha col nibble_c names e s = Ok (k, s') /\
    selects (citems s) vals col names w k /\ citems s' = citems s /\ cmp_history (cpack s').
Proof.
  intros m debug alpha col nibble_c names vals empty_ok beyond w s HC H (NE & SK & WF) SO.
  destruct (subjects_read _ SK) as (ss' & RS).
  assert (RC : exists cs', read_cases (eval_check beyond (w_subjects w)) (w_cases w) = Some cs' /\
    Forall2 (fun c c' => fst c' <> [] /\ Forall2 (fun os os' => rows m debug alpha col nibble_c names vals (citems s) (w_subjects w) os ss' os') (w_whens c) (fst c') /\ snd c' = w_stmts c) (w_cases w) cs').
  { clear SO. induction WF as [|c cs (NW & T & N & L) WF (cs' & IH & F)]; [exists []; split; [reflexivity|constructor]|].
    destruct (w_whens c) as [|w0 ws] eqn:EW; [now elim NW|]. cbn [tl length] in *.
    destruct (read_all m debug alpha col nibble_c names vals (citems s) HC beyond (w_subjects w) w0 ws ss' NE SK RS T N L) as (w' & ws' & RW & RR).
    exists ((w' :: ws', w_stmts c) :: cs'). cbn [read_cases]. rewrite EW, RW, IH. split; [reflexivity|]. constructor; [|exact F]. cbn [fst snd]. rewrite EW. split; [discriminate|auto]. }
  destruct RC as (cs' & RC & F). unfold compile_evaluate. rewrite RS, RC.
  assert (F3 : Forall2 (fun c c' => snd c' = w_stmts c) (w_cases w) cs') by (clear - F; induction F as [|c c' ? ? (_ & _ & E)]; constructor; auto).
  assert (LEN : length (w_cases w) = length cs') by exact (F2_length _ _ _ _ _ F).
  (* the cases as they are built *)
  assert (CO : exists cs2, collect empty_ok cs' (w_other w) = Some (cs2 ++ match w_other w with Some o => [([], o)] | None => [] end) /\
     Forall2 (matched m debug alpha col nibble_c names vals (citems s) (w_subjects w) ss') (w_cases w) cs2 /\
     (forall i c c', nth_error (w_cases w) i = Some c -> nth_error cs2 i = Some c' -> snd c' = effective w i c)).
  { unfold collect, stmts_ok in *.
    assert (MA : Forall2 (matched m debug alpha col nibble_c names vals (citems s) (w_subjects w) ss') (w_cases w) cs') by (clear - F; induction F as [|c c' ? ? (A & B & _)]; constructor; auto; split; assumption).
    destruct SO as [-> |[S1 S2]].
    - cbn [negb andb]. destruct (w_other w) as [o|] eqn:EO.
      + exists (fill_last cs' o). split; [reflexivity|]. split.
        * clear - MA. induction MA as [|c c' cs cs' M MA IH]; [constructor|]. destruct c' as [w' [k|]].
          -- cbn [fill_last]. destruct cs'; (constructor; [exact M|exact IH]).
          -- cbn [fill_last]. destruct cs' as [|c2 cs']; constructor; auto; inversion MA; subst; constructor.
        * intros i c c' X Y. rewrite fill_nth in Y. destruct (nth_error cs' i) as [[w' k]|] eqn:EN; [|discriminate Y]. pose proof (F2_nth2 _ _ _ _ _ F3 i c _ X EN) as E. cbn [snd] in E. subst k.
          unfold effective. rewrite EO, LEN. destruct (w_stmts c) as [k|]; injection Y as <-; reflexivity.
      + exists cs'. rewrite app_nil_r. split; [reflexivity|]. split; [exact MA|]. intros i c c' X Y. unfold effective. rewrite EO, (F2_nth2 _ _ _ _ _ F3 i c _ X Y). now destruct (w_stmts c).
    - exists cs'.
      assert (EX : existsb (fun c => match snd c with None => true | _ => false end) (cs' ++ match w_other w with Some o => [([], o)] | None => [] end) = false).
      { rewrite existsb_app, (stmts_some _ _ F3 S1). destruct (w_other w) as [[o|]|]; try reflexivity. now elim S2. }
      assert (EFF : forall i c c', nth_error (w_cases w) i = Some c -> nth_error cs' i = Some c' -> snd c' = effective w i c).
      { intros i c c' X Y. rewrite (F2_nth2 _ _ _ _ _ F3 i c _ X Y). unfold effective. rewrite Forall_forall in S1. specialize (S1 c (nth_error_In _ _ X)). destruct (w_stmts c); [reflexivity|now elim S1]. }
      destruct empty_ok.
      + cbn [negb andb]. destruct (w_other w) as [o|] eqn:EO; [|rewrite app_nil_r; auto]. split; [|auto]. f_equal. f_equal.
        clear - F3 S1. induction F3 as [|c c' cs cs' E F3 IH]; [reflexivity|]. inversion S1 as [|? ? N1 N2]; subst. destruct c' as [w' k]. cbn [snd] in E. subst k.
        destruct (w_stmts c) as [k|]; [|now elim N1]. cbn [fill_last]. destruct cs'; rewrite (IH N2); reflexivity.
      + rewrite EX, andb_false_r. destruct (w_other w) as [o|]; [auto|rewrite app_nil_r; auto]. }
  destruct CO as (cs2 & -> & M & EFF).
  destruct (cases_ok m debug alpha col nibble_c names vals (citems s) beyond (w_subjects w) ss' (w_cases w) cs2 NE M
    (match w_other w with Some o => [([], o)] | None => [] end)) as (e & EB & RUN); [destruct (w_other w) as [o|]; [right; now exists o|now left]|].
  destruct (RUN s eq_refl H) as (k & s' & R & ES & K & SEL). exists e, k, s'. split; [exact EB|]. split; [exact R|]. split; [|auto].
  destruct SEL as [(i & c & c' & A1 & A2 & -> & A4 & A5)|[A1 ->]].
  - rewrite (EFF i c c' A1 A2). now apply sel_case.
  - replace (match match w_other w with Some o => [([], o)] | None => @nil (list (list object) * option nat) end with (_, o) :: _ => o | [] => None end)
      with (match w_other w with Some o => o | None => None end) by (destruct (w_other w); reflexivity). now apply sel_other.
Qed.
Print Assumptions C66_evaluate.

(** ** Without quotients there is one answer *)
Section Exact.
Variables (items : list field) (vals : nat -> Z) (col : option (list Z)) (names : nat -> name88).
(** No operand of a test contains a quotient. *)
Definition exact_words (ts : list inp) : Prop := forall t, condition ts t \/ phrase 4 ts t -> exact_tree names t.
Definition exact_object (o : wobject) : Prop :=
  match o with
  | WExpr ts thru => exact_words ts /\ (forall r, ts = INot :: r -> exact_words r) /\ (forall us, thru = Some us -> exact_words us)
  | _ => True
  end.
Definition exact_subject (s : wsubject) : Prop := match s with WSExpr ts => exact_words ts | _ => True end.
Definition exact_evaluate (w : wevaluate) : Prop :=
  Forall exact_subject (w_subjects w) /\ Forall (fun c => Forall (Forall exact_object) (w_whens c)) (w_cases w).
Notation tv := (test_value items vals col names).

Lemma with_not_inj : forall n ts n' ts' x x', phrase 4 ts x -> phrase 4 ts' x' -> with_not n ts = with_not n' ts' -> n = n' /\ ts = ts'.
Proof.
  intros n ts n' ts' x x' P P' E. apply phrase_head in P, P'. destruct n, n'; cbn [with_not] in E; [injection E as ->; auto| | |auto]; subst.
  - contradiction.
  - contradiction.
Qed.
Lemma phrase_one : forall ts x x', phrase 4 ts x -> phrase 4 ts x' -> x = x'.
Proof. intros ts x x' P P'. apply parse_arithmetic in P, P'. congruence. Qed.
Ltac same P := match type of P with phrase 4 ?t ?x => match goal with B : phrase 4 t ?y |- _ => assert_fails (constr_eq x y); pose proof (phrase_one _ _ _ P B); subst y end end.
Lemma tv_one : forall s o b b', exact_subject s -> exact_object o -> tv s o b -> tv s o b' -> b = b'.
Proof.
  intros s o b b' XS XO T T'. destruct T as [s| | | | |ts t b HC TR|ts t b HC TR|ts t b HC TR|ts t b HC TR|ss s n ts x c P1 P2 C|ss s n ts lo us hi b P1 P2 P3 B];
    inversion T'; subst; auto.
  - pose proof (proj1 (C62_unambiguous ts) t t0 HC ltac:(assumption)) as <-. apply (truth_unique _ _ _ _ t b (XS t (or_introl HC)) TR). assumption.
  - f_equal. pose proof (proj1 (C62_unambiguous ts) t t0 HC ltac:(assumption)) as <-. apply (truth_unique _ _ _ _ t b (XS t (or_introl HC)) TR). assumption.
  - pose proof (proj1 (C62_unambiguous ts) t t0 HC ltac:(assumption)) as <-. apply (truth_unique _ _ _ _ t b (proj1 XO t (or_introl HC)) TR). assumption.
  - f_equal. pose proof (proj1 (C62_unambiguous ts) t t0 HC ltac:(assumption)) as <-. apply (truth_unique _ _ _ _ t b (proj1 XO t (or_introl HC)) TR). assumption.
  - match goal with A : with_not ?n' ?ts' = with_not n ts, B : phrase 4 ?ts' ?x' |- _ => destruct (with_not_inj n' ts' n ts _ _ B P2 A) as [-> ->] end. same P1. same P2.
    f_equal. f_equal. apply (compares_unique items vals col names s x); [apply XS; now right| |exact C|assumption].
    destruct XO as (X1 & X2 & _). destruct n; [apply (X2 ts eq_refl); now right|apply X1; now right].
  - match goal with A : with_not ?n' ?ts' = with_not n ts, B : phrase 4 ?ts' ?x' |- _ => destruct (with_not_inj n' ts' n ts _ _ B P2 A) as [-> ->] end. same P1. same P2. same P3. f_equal.
    assert (E1 : exact_tree names s) by (apply XS; now right). destruct XO as (X1 & X2 & X3).
    assert (E2 : exact_tree names lo) by (destruct n; [apply (X2 ts eq_refl); now right|apply X1; now right]).
    assert (E3 : exact_tree names hi) by (apply (X3 us eq_refl); now right).
    match goal with B' : between _ _ _ _ _ _ _ |- _ => destruct B as [c d A1 A2 A3 A4|A|A], B' as [c' d' A1' A2' A3' A4'|A'|A']; auto; exfalso end;
      first [apply A2; now apply (compares_unique items vals col names lo s) | apply A4; now apply (compares_unique items vals col names s hi)
            |apply A2'; now apply (compares_unique items vals col names lo s) | apply A4'; now apply (compares_unique items vals col names s hi)].
Qed.
Lemma when_one : forall ss os, Forall exact_subject ss -> Forall exact_object os -> when_is items vals col names ss os true -> when_is items vals col names ss os false -> False.
Proof.
  intros ss os XS XO A (i & s & o & E1 & E2 & B). cbn [when_is] in A. pose proof (F2_nth2 _ _ _ _ _ A i s o E1 E2) as T.
  rewrite Forall_forall in XS, XO. discriminate (tv_one s o true false (XS s (nth_error_In _ _ E1)) (XO o (nth_error_In _ _ E2)) T B).
Qed.
Lemma case_one : forall ss c, Forall exact_subject ss -> Forall (Forall exact_object) (w_whens c) -> case_is items vals col names ss c true -> case_is items vals col names ss c false -> False.
Proof.
  intros ss c XS XO A B. cbn [case_is] in A, B. apply Exists_exists in A. destruct A as (os & IN & A). rewrite Forall_forall in XO, B.
  exact (when_one ss os XS (XO os IN) A (B os IN)).
Qed.
End Exact.
Theorem C66_one : forall items vals col names w k k', exact_evaluate names w -> selects items vals col names w k -> selects items vals col names w k' -> k = k'.
Proof.
  intros items vals col names w k k' [XS XC] A B. rewrite Forall_forall in XC.
  assert (X : forall i c j d, nth_error (w_cases w) i = Some c -> case_is items vals col names (w_subjects w) c true ->
    nth_error (w_cases w) j = Some d -> case_is items vals col names (w_subjects w) d true ->
    (forall j d, (j < i)%nat -> nth_error (w_cases w) j = Some d -> case_is items vals col names (w_subjects w) d false) -> (j < i)%nat -> False).
  { intros i c j d _ _ J1 J2 F L. exact (case_one items vals col names (w_subjects w) d XS (XC d (nth_error_In _ _ J1)) J2 (F j d L J1)). }
  destruct A as [i c I1 I2 I3|A], B as [j d J1 J2 J3|B]; auto.
  - destruct (lt_eq_lt_dec i j) as [[L|E]|L].
    + exfalso. exact (X j d i c J1 J2 I1 I2 J3 L).
    + subst j. rewrite I1 in J1. now injection J1 as <-.
    + exfalso. exact (X i c j d I1 I2 J1 J2 I3 L).
  - exfalso. exact (case_one items vals col names _ c XS (XC c (nth_error_In _ _ I1)) I2 (B i c I1)).
  - exfalso. exact (case_one items vals col names _ d XS (XC d (nth_error_In _ _ J1)) J2 (A j d J1)).
Qed.
Print Assumptions C66_one.
Theorem C66_exact : forall m debug alpha col nibble_c names vals empty_ok beyond w s k,
  (col <> None -> alpha = true) -> cmp_history (cpack s) ->
  well_formed (citems s) vals m col names w -> stmts_ok empty_ok w -> exact_evaluate names w -> selects (citems s) vals col names w k ->
  exists e s', compile_evaluate empty_ok beyond w = Some e /\ run_evaluate m debug alpha col nibble_c names e s = Ok (k, s').
Proof.
  intros m debug alpha col nibble_c names vals empty_ok beyond w s k HC H WF SO X SEL.
  destruct (C66_evaluate m debug alpha col nibble_c names vals empty_ok beyond w s HC H WF SO) as (e & k' & s' & C & R & S & _).
  exists e, s'. split; [exact C|]. now rewrite (C66_one _ _ _ _ w k k' X SEL S).
Qed.
Print Assumptions C66_exact.

(** ** Examples: texts of one byte *)
Definition tx (c : Z) : field := mkField alnum_attr [c].
Definition X_ (i : nat) : list inp := [IX (OText i)].
Definition eq_ts (i j : nat) : list inp := [IX (OText i); IRel REq; IX (OText j)].
(** EVALUATE T0 ALSO TRUE WHEN T1 THRU T2 ALSO T3 = T4 WHEN NOT T5 ALSO ANY ...
    WHEN OTHER ..., for any six bytes. *)
Definition ex_ev : wevaluate := mkEval [WSExpr (X_ 0); WSTrue]
  [mkCase [[WExpr (X_ 1) (Some (X_ 2)); WExpr (eq_ts 3 4) None]; [WExpr (INot :: X_ 5) None; WAny]] (Some 7%nat)] (Some (Some 8%nat)).
Definition six (a b c d e f : Z) : list field := [tx a; tx b; tx c; tx d; tx e; tx f].
Lemma six_text : forall a b c d e f i, (i < 6)%nat -> text_item (six a b c d e f) i.
Proof. intros a b c d e f i L. do 6 (destruct i as [|i]; [split; [cbn; lia|exact I]|]). lia. Qed.
Lemma X_phrase : forall i, phrase 4 (X_ i) (TLeaf (OText i)).
Proof. intros i. do 4 (apply ph_up; [|lia]). apply ph_operand. exact I. Qed.
Lemma eq_cond : forall i j, condition (eq_ts i j) (TRel REq (TLeaf (OText i)) (TLeaf (OText j))).
Proof.
  intros i j. exists (Some (TLeaf (OText i), REq)). apply c_up; [|lia]. apply c_up; [|lia]. apply c_simple.
  exact (s_relation false None (X_ i) (TLeaf (OText i)) false [IRel REq] REq (X_ j) (TLeaf (OText j)) (X_phrase i) (ro_plain REq) (X_phrase j) ltac:(discriminate)).
Qed.
Example C66_ex : forall m a b c d e f, exists es k s',
  compile_evaluate false (fun _ => 9%nat) ex_ev = Some es /\ run_evaluate m true false None false no_names es (start_state (six a b c d e f)) = Ok (k, s') /\
  selects (six a b c d e f) (fun _ => 0) None no_names ex_ev k.
Proof.
  intros m a b c d e f.
  destruct (C66_evaluate m true false None false no_names (fun _ => 0) false (fun _ => 9%nat) ex_ev (start_state (six a b c d e f))) as (es & k & s' & C & R & S & _); [intros X; now elim X|apply ch_start| | |exists es, k, s'; split; [exact C|split; [exact R|exact S]]].
  - split; [discriminate|]. split; [constructor; [right; eexists; apply X_phrase|constructor; [exact I|constructor]]|]. constructor; [|constructor]. split; [discriminate|]. split; [|split; [|cbn; lia]].
    + assert (CT : forall i j, (i < 6)%nat -> (j < 6)%nat -> comparable (six a b c d e f) (fun _ => 0) m (TLeaf (OText i)) (TLeaf (OText j))) by (intros i j Li Lj; apply ca_text; now apply six_text).
      constructor; [|constructor; [|constructor]]; (constructor; [|constructor; [|constructor]]).
      * apply (ta_range _ _ _ _ _ (X_ 0) _ false (X_ 1) _ (X_ 2) _ (X_phrase 0) (X_phrase 1) (X_phrase 2)); apply CT; lia.
      * eapply ta_cond; [now left|apply eq_cond|]. apply CT; lia.
      * apply (ta_value _ _ _ _ _ (X_ 0) _ true (X_ 5) _ (X_phrase 0) (X_phrase 5)). apply CT; lia.
      * apply ta_any.
    + constructor; [|constructor]. constructor; [exact I|]. constructor; [exact I|constructor].
  - right. split; [constructor; [discriminate|constructor]|discriminate].
Qed.
(** Which statements are executed. *)
Definition executed (m : cfg) (debug empty_ok : bool) (beyond : nat -> nat) (w : wevaluate) (items : list field) : option (option nat) :=
  match compile_evaluate empty_ok beyond w with
  | Some e => match run_evaluate m debug false None false no_names e (start_state items) with Ok (k, _) => Some k | _ => None end
  | None => None
  end.
(** T0 = 2 is between 1 and 3; T3 = T4 or not. *)
Example C66_ex_run : forall m, executed m false false (fun _ => 9%nat) ex_ev (six 50 49 51 65 65 50) = Some (Some 7%nat) /\
  executed m false false (fun _ => 9%nat) ex_ev (six 50 49 51 65 66 50) = Some (Some 8%nat).
Proof. intros m. split; vm_compute; reflexivity. Qed.
(** WHEN T1 with no statements, then WHEN OTHER. *)
Example C66_ex_empty : forall m,
  executed m false true (fun _ => 9%nat) (mkEval [WSExpr (X_ 0)] [mkCase [[WExpr (X_ 2) None]] (Some 7%nat); mkCase [[WExpr (X_ 1) None]] None] (Some (Some 8%nat)))
    (six 50 50 51 65 65 50) = Some (Some 8%nat).
Proof. intros m. vm_compute. reflexivity. Qed.

(** ** Refuted *)

(** EVALUATE TRUE WHEN T0 = T1 WHEN NOT T2 = T3 OR T4 = T5: when only T2 = T3 and
    T4 = T5 hold, the second phrase is true but nothing is executed: it is read
    as NOT (T2 = T3 OR T4 = T5).  As the only WHEN phrase it is read right. *)
Definition not_or : list inp := INot :: eq_ts 2 3 ++ IOr :: eq_ts 4 5.
Definition ex_not : wevaluate := mkEval [WSTrue] [mkCase [[WExpr (eq_ts 0 1) None]; [WExpr not_or None]] (Some 7%nat)] None.
Definition ex_not1 : wevaluate := mkEval [WSTrue] [mkCase [[WExpr not_or None]] (Some 7%nat)] None.
Lemma not_or_cond : condition not_or (TOr (TNot (TRel REq (TLeaf (OText 2)) (TLeaf (OText 3)))) (TRel REq (TLeaf (OText 4)) (TLeaf (OText 5)))).
Proof.
  exists (Some (TLeaf (OText 4), REq)). unfold not_or. apply (SpecExpr.c_or None (INot :: eq_ts 2 3) _ (Some (TLeaf (OText 2), REq))).
  - apply c_up; [|lia]. apply c_up; [|lia]. apply SpecExpr.c_not.
    apply (s_relation true None (X_ 2) (TLeaf (OText 2)) false [IRel REq] REq (X_ 3) (TLeaf (OText 3)) (X_phrase 2) (ro_plain REq) (X_phrase 3)). intros _. split; [reflexivity|intros []].
  - apply c_up; [|lia]. apply c_simple.
    exact (s_relation false _ (X_ 4) (TLeaf (OText 4)) false [IRel REq] REq (X_ 5) (TLeaf (OText 5)) (X_phrase 4) (ro_plain REq) (X_phrase 5) ltac:(discriminate)).
Qed.
Theorem C66_not_refuted : forall m beyond,
  selects (six 65 66 67 67 68 68) (fun _ => 0) None no_names ex_not (Some 7%nat) /\
  executed m false false beyond ex_not (six 65 66 67 67 68 68) = Some None /\ executed m false false beyond ex_not1 (six 65 66 67 67 68 68) = Some (Some 7%nat).
Proof.
  intros m beyond. split.
  - apply (sel_case _ _ _ _ ex_not 0 (mkCase [[WExpr (eq_ts 0 1) None]; [WExpr not_or None]] (Some 7%nat)) eq_refl); [|intros j d L; lia].
    apply Exists_cons_tl, Exists_cons_hd. constructor; [|constructor]. eapply tv_true; [apply not_or_cond|].
    apply tr_or; [change false with (negb (holds REq Eq)); apply tr_not, tr_rel, cp_eq|change true with (holds REq Eq) at 1; apply tr_rel, cp_eq].
    all: apply text_eq_refl.
  - split; vm_compute; reflexivity.
Qed.
Print Assumptions C66_not_refuted.
