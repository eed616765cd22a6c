(** SEARCH and SEARCH ALL (proof file). *)
From Coq Require Import QArith Qabs.
From Verif Require Import Base BaseFacts Field Sign Decimal SpecNum Numeric SpecStore PackedInt P_Int Move MoveAll.
From Verif Require Import Compute SpecCompute ComputeProofs ComputeMain Compare SpecCmp CmpProofs ExprParse Cond SpecCond CondProofs Search SpecSearch.
Local Open Scope Z_scope.

Section Order.
Variables (items : list field) (vals : nat -> Z) (col : option (list Z)).
Notation order := (order items vals col).

Lemma order_sym : forall a b c, order a b c -> order b a (CompOpp c).
Proof.
  intros a b c C. unfold SpecSearch.order in *. inversion C as [x y ea eb p q EX EY CA CB|i j T|i j T|i j T]; subst.
  - rewrite Qcompare_antisym. now apply (cp_num _ _ _ _ _ eb ea).
  - now apply cp_gt.
  - apply cp_eq. now apply text_eq_sym.
  - now apply cp_lt.
Qed.
Lemma order_unique : forall a b c c', exact_operand a -> exact_operand b -> order a b c -> order a b c' -> c = c'.
Proof. intros a b c c' XA XB C C'. exact (compares_leaf_unique items vals col (fun _ => mkName OZero []) a b c c' XA XB C C'). Qed.

Lemma order_num : forall a b c, order a b c -> forall ea, expr_of (TLeaf a) = Some ea -> exact_operand a -> exact_operand b ->
  exists eb, expr_of (TLeaf b) = Some eb /\ c = (exact items vals ea ?= exact items vals eb)%Q.
Proof.
  intros a b c C ea EA XA XB. unfold SpecSearch.order in C. inversion C as [x y ea' eb p q EX EY CA CB|i j T|i j T|i j T]; subst; try discriminate EA.
  rewrite EA in EX. injection EX as <-. exists eb. split; [exact EY|].
  assert (DA : has_div ea = false) by (destruct a; try discriminate EA; injection EA as <-; [reflexivity|exact XA]).
  assert (DB : has_div eb = false) by (destruct b; try discriminate EY; injection EY as <-; [reflexivity|exact XB]).
  now rewrite (computes_exact items vals ea p CA DA), (computes_exact items vals eb q CB DB).
Qed.
Lemma order_text : forall a b c, order a b c -> expr_of (TLeaf a) = None -> 
  exists i j, a = OText i /\ b = OText j /\ match c with Lt => text_lt col (text items i) (text items j) | Eq => text_eq col (text items i) (text items j) | Gt => text_lt col (text items j) (text items i) end.
Proof.
  intros a b c C EA. unfold SpecSearch.order in C. inversion C as [x y ea' eb p q EX EY CA CB|i j T|i j T|i j T]; subst; [congruence|exists i, j; auto..].
Qed.

(** If a equals v, then b stands to v as b to a. *)
Lemma order_swap : forall a b v c d, exact_operand a -> exact_operand b -> exact_operand v ->
  order a v Eq -> order b v c -> order a b d -> d = CompOpp c.
Proof.
  intros a b v c d XA XB XV AV BV AB. destruct (expr_of (TLeaf a)) as [ea|] eqn:EA.
  - destruct (order_num a v Eq AV ea EA XA XV) as (ev & EV & E1). destruct (order_num a b d AB ea EA XA XB) as (eb & EB & E2).
    destruct (order_num b v c BV eb EB XB XV) as (ev' & EV' & E3). rewrite EV in EV'. injection EV' as <-.
    symmetry in E1. apply Qeq_alt in E1. rewrite E2, E3, E1, Qcompare_antisym. reflexivity.
  - destruct (order_text a v Eq AV EA) as (i & k & -> & -> & T1). destruct (order_text _ b d AB EA) as (i' & j & I & -> & T2). injection I as <-.
    destruct (order_text _ _ c BV eq_refl) as (j' & k' & J & K & T3). injection J as <-. injection K as <-.
    destruct c, d; try reflexivity; exfalso.
    + exact (text_lt_neq col _ _ T2 (text_eq_trans col _ _ _ T1 (text_eq_sym col _ _ T3))).
    + exact (text_lt_neq col _ _ T2 (text_eq_trans col _ _ _ T3 (text_eq_sym col _ _ T1))).
    + pose proof (text_eq_trans col _ _ _ (text_eq_sym col _ _ T2) T1) as E. exact (text_lt_neq col _ _ T3 E).
    + pose proof (text_lt_trans col _ _ _ T2 T3) as L. exact (text_lt_neq col _ _ L T1).
    + pose proof (text_eq_trans col _ _ _ (text_eq_sym col _ _ T1) T2) as E. exact (text_lt_neq col _ _ T3 E).
    + pose proof (text_lt_trans col _ _ _ T3 T2) as L. exact (text_lt_neq col _ _ L (text_eq_sym col _ _ T1)).
Qed.
End Order.

(** ** The tests made of the WHEN phrase *)
Lemma set_keys_gen : forall whens (g : nat -> option svalue) k v, NoDup (map fst whens) ->
  (fold_left (fun g e => fun k => if (k =? fst e)%nat then Some (snd e) else g k) whens g) k = Some v <->
  In (k, v) whens \/ (~ In k (map fst whens) /\ g k = Some v).
Proof.
  induction whens as [|[a b] r IH]; intros g k v ND; cbn [fold_left map fst snd].
  - cbn. tauto.
  - inversion ND as [|? ? NI ND']; subst. rewrite IH by exact ND'. cbn [In]. destruct (Nat.eqb_spec k a) as [-> |NE].
    + split.
      * intros [H|[H1 H2]]; [left; now right|]. injection H2 as <-. left. now left.
      * intros [[H|H]|[H _]]; [injection H as <-; now right| |exfalso; apply H; now left].
        exfalso. apply NI. now apply (in_map fst) in H.
    + split.
      * intros [H|[H1 H2]]; [left; now right|]. right. split; [|exact H2]. intros [H|H]; [congruence|contradiction].
      * intros [[H|H]|[H1 H2]]; [congruence|now left|]. right. split; [|exact H2]. intros H. apply H1. now right.
Qed.
Lemma set_keys_spec : forall whens k v, NoDup (map fst whens) -> set_keys whens k = Some v <-> In (k, v) whens.
Proof. intros whens k v ND. unfold set_keys. rewrite set_keys_gen by exact ND. split; [intros [H|[_ H]]; [exact H|discriminate H]|now left]. Qed.

Fixpoint prefix_tests (ks : list tkey) (ts : list (tkey * svalue)) : Prop :=
  match ts, ks with
  | [], _ => True
  | (x, SVal _) :: ts', y :: ks' => x = y /\ prefix_tests ks' ts'
  | _, _ => False
  end.
Lemma tests_none : forall ks g k, (forall j, (k <= j)%nat -> g j = None) -> tests_from g k ks = [].
Proof. induction ks as [|x r IH]; intros g k H; cbn [tests_from]; auto. rewrite H by lia. apply IH. intros j J. apply H. lia. Qed.
Lemma tests_prefix : forall ks g k, (forall j i, g j <> None -> (k <= i < j)%nat -> g i <> None) ->
  (forall j v, g j = Some v -> exists o, v = SVal o) -> prefix_tests ks (tests_from g k ks).
Proof.
  induction ks as [|x r IH]; intros g k D V; cbn [tests_from]; [exact I|].
  destruct (g k) as [v|] eqn:E.
  - destruct (V k v E) as (o & ->). cbn [prefix_tests]. split; [reflexivity|]. apply IH; [|exact V]. intros j i H L. apply (D j); [exact H|lia].
  - rewrite tests_none; [exact I|]. intros j J. destruct (Nat.eq_dec j k) as [-> |]; [exact E|].
    destruct (g j) eqn:F; [|reflexivity]. exfalso. apply (D j k); [congruence|lia|exact E].
Qed.
Lemma tests_in : forall ks g k x v, In (x, v) (tests_from g k ks) <-> exists j, nth_error ks j = Some x /\ g (k + j)%nat = Some v.
Proof.
  induction ks as [|y r IH]; intros g k x v; cbn [tests_from].
  - split; [intros []|]. intros (j & H & _). now destruct j.
  - assert (R : In (x, v) (tests_from g (S k) r) <-> exists j, nth_error (y :: r) (S j) = Some x /\ g (k + S j)%nat = Some v).
    { rewrite IH. cbn [nth_error]. split; intros (j & H1 & H2); exists j; (split; [exact H1|]); [replace (k + S j)%nat with (S k + j)%nat by lia; exact H2|replace (S k + j)%nat with (k + S j)%nat by lia; exact H2]. }
    destruct (g k) as [w|] eqn:E; cbn [In]; [rewrite R|rewrite R]; split.
    + intros [H|(j & H)]; [injection H as -> ->; exists 0%nat; split; [reflexivity|now rewrite Nat.add_0_r]|now exists (S j)].
    + intros ([|j] & H1 & H2); [left; cbn [nth_error] in H1; rewrite Nat.add_0_r in H2; congruence|right; now exists j].
    + intros (j & H). now exists (S j).
    + intros ([|j] & H1 & H2); [rewrite Nat.add_0_r in H2; congruence|now exists j].
Qed.

(** ** One probe *)
Section Probe.
Variables (m : cfg) (debug alpha : bool) (col : option (list Z)) (vals : nat -> Z) (items : list field).
Hypothesis HCOL : col <> None -> alpha = true.
Notation order := (order items vals col).

Lemma compare_ok : forall s x y, citems s = items -> cmp_history (cpack s) -> comparable items vals m (TLeaf x) (TLeaf y) ->
  exists r s' c, compare_operands m debug alpha col s x y = Ok (r, s') /\ order x y c /\
    Z.sgn r = match c with Lt => -1 | Eq => 0 | Gt => 1 end /\ citems s' = items /\ cmp_history (cpack s').
Proof.
  intros s x y EI H C. unfold compare_operands. inversion C as [x0 y0 a b lo hi lo' hi' EX EY WA WB OA OB FA FB PO LO NL|i j TI TJ]; subst.
  - rewrite EX, EY. destruct (rel_num_ok m debug alpha col s vals a b lo hi lo' hi' WA WB OA OB FA FB PO LO NL H) as (r & s' & p & q & E & CP & CQ & T & IT & HH).
    exists r, s', (p ?= q)%Q. split; [exact E|]. split; [now apply (cp_num _ _ _ _ _ a b)|]. auto.
  - cbn [expr_of]. destruct (rel_text_ok m debug alpha col s i j HCOL TI TJ) as (r & E & A & B & G). rewrite E.
    exists r, s, (r ?= 0). split; [reflexivity|]. split; [|split; [|auto]].
    + destruct (Z.compare_spec r 0) as [K|K|K]; [apply cp_eq; now apply B|apply cp_lt; now apply A|apply cp_gt; now apply G].
    + destruct (Z.compare_spec r 0) as [K|K|K]; [now rewrite K|now apply Z.sgn_neg|now apply Z.sgn_pos].
Qed.

(** The entry i compares [c] with the value of the test. *)
Definition probe (i : Z) (kv : tkey * svalue) (c : comparison) : Prop :=
  exists v, snd kv = SVal v /\ order (tk_item (fst kv) i) v c.
Definition testable (i : Z) (kv : tkey * svalue) : Prop :=
  exists v, snd kv = SVal v /\ exact_operand (tk_item (fst kv) i) /\ exact_operand v /\
    if tk_asc (fst kv) then comparable items vals m (TLeaf (tk_item (fst kv) i)) (TLeaf v) else comparable items vals m (TLeaf v) (TLeaf (tk_item (fst kv) i)).

Lemma test_all_ok : forall i ts s ret, citems s = items -> cmp_history (cpack s) -> Forall (testable i) ts ->
  exists b ret' s', test_all m debug alpha col s i ts ret = Ok (b, ret', s') /\ citems s' = items /\ cmp_history (cpack s') /\
    if b then Forall (fun kv => probe i kv Eq) ts
    else exists l1 kv l2 r, ts = l1 ++ kv :: l2 /\ Forall (fun kv => probe i kv Eq) l1 /\ ret' = Some r /\ r <> 0 /\
         probe i kv (if r <? 0 then (if tk_asc (fst kv) then Lt else Gt) else (if tk_asc (fst kv) then Gt else Lt)).
Proof.
  intros i ts. induction ts as [|[k v0] r IH]; intros s ret EI H F; cbn [test_all].
  - exists true, ret, s. auto.
  - apply Forall_cons_iff in F. destruct F as [(v & EV & XK & XV & C) F]. cbn [fst snd] in *. subst v0.
    unfold test_key. cbn [fst snd].
    assert (W : exists w s' c, (if tk_asc k then compare_operands m debug alpha col s (tk_item k i) v else compare_operands m debug alpha col s v (tk_item k i)) = Ok (w, s') /\
      order (tk_item k i) v (if tk_asc k then c else CompOpp c) /\ Z.sgn w = match c with Lt => -1 | Eq => 0 | Gt => 1 end /\ citems s' = items /\ cmp_history (cpack s')).
    { destruct (tk_asc k); destruct (compare_ok s _ _ EI H C) as (w & s' & c & E & O & S & I' & H'); exists w, s', c; repeat (split; [first [exact E|exact O|exact S|idtac]|]); auto.
      now apply order_sym in O. }
    destruct W as (w & s' & c & E & O & S & I' & H'). rewrite E. cbn [obind fst snd]. destruct (Z.eqb_spec w 0) as [Z0|NZ].
    + assert (c = Eq) by (subst w; destruct c; [reflexivity|discriminate S|discriminate S]). subst c.
      assert (PE : probe i (k, SVal v) Eq). { exists v. split; [reflexivity|]. cbn [fst]. now destruct (tk_asc k). }
      destruct (IH s' (Some w) I' H' F) as (b & ret' & s2 & E2 & I2 & H2 & P). rewrite E2. exists b, ret', s2. split; [reflexivity|]. split; [exact I2|]. split; [exact H2|].
      destruct b; [now constructor|]. destruct P as (l1 & kv & l2 & r0 & E3 & F1 & R & NZ & PR). subst r. exists ((k, SVal v) :: l1), kv, l2, r0.
      split; [reflexivity|]. split; [now constructor|]. auto.
    + exists false, (Some w), s'. split; [reflexivity|]. split; [exact I'|]. split; [exact H'|].
      exists [], (k, SVal v), r, w. split; [reflexivity|]. split; [constructor|]. split; [reflexivity|]. split; [exact NZ|].
      exists v. split; [reflexivity|]. cbn [fst]. destruct (Z.ltb_spec w 0) as [L|L].
      * rewrite (Z.sgn_neg w L) in S. destruct c; try discriminate S. destruct (tk_asc k); exact O.
      * rewrite (Z.sgn_pos w ltac:(lia)) in S. destruct c; try discriminate S. destruct (tk_asc k); exact O.
Qed.

(** Where a matching entry can be. *)
Lemma prefix_split : forall ks l1 kv l2, prefix_tests ks (l1 ++ kv :: l2) ->
  exists k1 k2, ks = k1 ++ fst kv :: k2 /\ map fst l1 = k1.
Proof.
  intros ks l1. revert ks. induction l1 as [|[x [v|n]] l1 IH]; intros ks kv l2 P; cbn [app prefix_tests] in P.
  - destruct kv as [x [v|n]]; destruct ks as [|y ks']; try contradiction P. destruct P as [-> _]. exists [], ks'. auto.
  - destruct ks as [|y ks']; [contradiction P|]. destruct P as [-> P]. destruct (IH ks' kv l2 P) as (k1 & k2 & -> & <-). exists (y :: map fst l1), k2. auto.
  - destruct ks; contradiction P.
Qed.
Lemma in_order_skip : forall k1 k2 i j (l1 : list (tkey * svalue)), map fst l1 = k1 ->
  Forall (fun kv => testable i kv /\ testable j kv) l1 -> Forall (fun kv => probe i kv Eq) l1 -> Forall (fun kv => probe j kv Eq) l1 ->
  in_order items vals col (k1 ++ k2) i j -> in_order items vals col k2 i j.
Proof.
  intros k1 k2 i j l1. revert k1. induction l1 as [|[x v0] l1 IH]; intros k1 E T P Q O; cbn [map fst] in E; subst k1; [exact O|].
  apply Forall_cons_iff in T, P, Q. destruct T as [[T1 T2] T], P as [(v & EV & P1) P], Q as [(w & EW & Q1) Q]. cbn [fst snd] in *. subst v0. injection EW as <-.
  destruct T1 as (v1 & E1 & X1 & XV & _), T2 as (v2 & E2 & X2 & _ & _). cbn [fst snd] in *. injection E1 as <-. injection E2 as <-.
  cbn [app in_order] in O. destruct O as [O|[_ O]]; [|now apply (IH (map fst l1))].
  exfalso. pose proof (order_swap items vals col _ _ _ Eq _ X1 X2 XV P1 Q1 O) as S. destruct (tk_asc x); discriminate S.
Qed.

Lemma probe_excludes : forall ks ts n i j l1 kv l2 (before : bool), prefix_tests ks ts -> sorted_table items vals col ks n ->
  1 <= i <= n -> 1 <= j <= n -> Forall (testable i) ts -> Forall (testable j) ts ->
  ts = l1 ++ kv :: l2 -> Forall (fun kv => probe i kv Eq) l1 ->
  probe i kv (if before then (if tk_asc (fst kv) then Lt else Gt) else (if tk_asc (fst kv) then Gt else Lt)) ->
  Forall (fun kv => probe j kv Eq) ts -> if before then i < j else j < i.
Proof.
  intros ks ts n i j l1 kv l2 before PT SO LI LJ TI TJ -> P PR Q.
  destruct (prefix_split ks l1 kv l2 PT) as (k1 & k2 & -> & E).
  apply Forall_app in TI, TJ, Q. destruct TI as [TI1 TI2], TJ as [TJ1 TJ2], Q as [Q1 Q2].
  apply Forall_inv in TI2, TJ2, Q2. destruct TI2 as (v & EV & XI & XV & _), TJ2 as (v' & EV' & XJ & _ & _), Q2 as (v2 & EV2 & Q2), PR as (v3 & EV3 & PR).
  rewrite EV in EV', EV2, EV3. injection EV' as <-. injection EV2 as <-. injection EV3 as <-.
  assert (NE : i <> j).
  { intros ->. pose proof (order_unique items vals col _ _ _ _ XI XV Q2 PR) as U. destruct before, (tk_asc (fst kv)); discriminate U. }
  assert (FJ : forall a b, Forall (testable a) l1 -> Forall (testable b) l1 -> Forall (fun kv => testable a kv /\ testable b kv) l1).
  { intros a b A B. rewrite Forall_forall in *. auto. }
  destruct (Z.lt_total i j) as [L|[L|L]]; [destruct before; [exact L|]|contradiction|destruct before; [|exact L]]; exfalso.
  - (* j after i, but i > value = j *)
    pose proof (SO i j ltac:(lia) L ltac:(lia)) as O. apply (in_order_skip k1 (fst kv :: k2) i j l1 E (FJ i j TI1 TJ1) P Q1) in O. cbn [in_order] in O.
    assert (S : forall d, order (tk_item (fst kv) i) (tk_item (fst kv) j) d -> d = if tk_asc (fst kv) then Gt else Lt).
    { intros d D. apply order_sym in D. pose proof (order_swap items vals col _ _ _ _ _ XJ XI XV Q2 PR D) as S. destruct d, (tk_asc (fst kv)); try discriminate S; reflexivity. }
    destruct O as [O|[O _]]; apply S in O; destruct (tk_asc (fst kv)); discriminate O.
  - pose proof (SO j i ltac:(lia) L ltac:(lia)) as O. apply (in_order_skip k1 (fst kv :: k2) j i l1 E (FJ j i TJ1 TI1) Q1 P) in O. cbn [in_order] in O.
    assert (S : forall d, order (tk_item (fst kv) j) (tk_item (fst kv) i) d -> d = if tk_asc (fst kv) then Gt else Lt).
    { intros d D. pose proof (order_swap items vals col _ _ _ _ _ XJ XI XV Q2 PR D) as S. destruct d, (tk_asc (fst kv)); try discriminate S; reflexivity. }
    destruct O as [O|[O _]]; apply S in O; destruct (tk_asc (fst kv)); discriminate O.
Qed.

(** ** The loop *)
Lemma search_loop_ok : forall t ks ts n, prefix_tests ks ts -> sorted_table items vals col ks n -> n <= t_max t ->
  (forall i, 1 <= i <= n -> Forall (testable i) ts) ->
  forall fuel head tail ret s, citems s = items -> cmp_history (cpack s) -> 0 <= head -> head < tail -> tail <= n + 1 -> tail - head <= Z.of_nat fuel ->
  exists r, search_all_loop m debug alpha col fuel t ts head tail ret s = Ok r /\
    match r with
    | AtEnd s' => citems s' = items /\ forall j, head < j < tail -> ~ Forall (fun kv => probe j kv Eq) ts
    | FoundAt i s' => citems s' = items /\ head < i < tail /\ Forall (fun kv => probe i kv Eq) ts
    end.
Proof.
  intros t ks ts n PT SO NM TS. induction fuel as [|g IH]; intros head tail ret s EI H H0 HT TN F; [lia|].
  cbn [search_all_loop]. destruct (Z.leb_spec (tail - 1) head) as [E|E].
  - exists (AtEnd s). split; [reflexivity|]. split; [exact EI|]. intros j J. lia.
  - cbv zeta. set (i := Z.quot (head + tail) 2).
    assert (B : head < i < tail).
    { unfold i. rewrite Z.quot_div_nonneg by lia. pose proof (Z.div_mod (head + tail) 2 ltac:(lia)) as DM. pose proof (Z.mod_pos_bound (head + tail) 2 ltac:(lia)). lia. }
    clearbody i. destruct (Z.ltb_spec i 1) as [X|_]; [lia|]. destruct (Z.ltb_spec (t_max t) i) as [X|_]; [lia|]. cbn [orb].
    destruct (test_all_ok i ts s ret EI H (TS i ltac:(lia))) as (b & ret' & s' & ET & I' & H' & P). rewrite ET. cbn [obind]. destruct b.
    + exists (FoundAt i s'). split; [reflexivity|]. auto.
    + destruct P as (l1 & kv & l2 & r & E2 & F1 & -> & NZ & PR). destruct (Z.ltb_spec r 0) as [L|L].
      * destruct (IH i tail (Some r) s' I' H' ltac:(lia) ltac:(lia) TN ltac:(lia)) as (R & ER & PRR). exists R. split; [exact ER|].
        destruct R as [s2|k s2]; [|destruct PRR as (A1 & A2 & A3); split; [exact A1|split; [lia|exact A3]]].
        destruct PRR as [A1 A2]. split; [exact A1|]. intros j J Q. destruct (Z.lt_ge_cases i j) as [K|K]; [apply (A2 j); [lia|exact Q]|].
        pose proof (probe_excludes ks ts n i j l1 kv l2 true PT SO ltac:(lia) ltac:(lia) (TS i ltac:(lia)) (TS j ltac:(lia)) E2 F1 PR Q) as X. cbn in X. lia.
      * destruct (IH head i (Some r) s' I' H' ltac:(lia) ltac:(lia) ltac:(lia) ltac:(lia)) as (R & ER & PRR). exists R. split; [exact ER|].
        destruct R as [s2|k s2]; [|destruct PRR as (A1 & A2 & A3); split; [exact A1|split; [lia|exact A3]]].
        destruct PRR as [A1 A2]. split; [exact A1|]. intros j J Q. destruct (Z.lt_ge_cases j i) as [K|K]; [apply (A2 j); [lia|exact Q]|].
        pose proof (probe_excludes ks ts n i j l1 kv l2 false PT SO ltac:(lia) ltac:(lia) (TS i ltac:(lia)) (TS j ltac:(lia)) E2 F1 PR Q) as X. cbn in X. lia.
Qed.

Theorem search_all_ok : forall t whens n s, citems s = items -> cmp_history (cpack s) -> 1 <= t_min t <= n + 1 -> n <= t_max t ->
  when_ok (t_keys t) whens -> keys_comparable items vals m (t_keys t) whens n -> sorted_table items vals col (t_keys t) n ->
  exists r, search_all m debug alpha col t whens n s = Ok r /\
    match r with
    | AtEnd s' => citems s' = items /\ forall i, t_min t <= i <= n -> ~ entry_matches items vals col (t_keys t) whens i
    | FoundAt i s' => citems s' = items /\ t_min t <= i <= n /\ entry_matches items vals col (t_keys t) whens i
    end.
Proof.
  intros t whens n s EI H T1 NB (ND & WV & WD) KC SO. unfold search_all.
  set (ts := tests t whens).
  assert (IN : forall x v, In (x, v) ts <-> exists k, nth_error (t_keys t) k = Some x /\ In (k, v) whens).
  { intros x v. unfold ts, tests. rewrite tests_in. cbn [Nat.add]. split; intros (k & A & B); exists k; (split; [exact A|]); now apply (set_keys_spec whens k v ND). }
  assert (PT : prefix_tests (t_keys t) ts).
  { unfold ts, tests. apply tests_prefix.
    - intros j i NJ L. destruct (set_keys whens j) as [v|] eqn:E; [|congruence]. apply (set_keys_spec whens j v ND) in E.
      assert (KI : In i (map fst whens)) by (apply (WD j); [now apply (in_map fst) in E|lia]).
      apply in_map_iff in KI. destruct KI as ([i' w] & <- & IW). cbn [fst]. apply (set_keys_spec whens i' w ND) in IW. congruence.
    - intros j v E. apply (set_keys_spec whens j v ND) in E. now apply (WV j v E). }
  assert (TS : forall i, 1 <= i <= n -> Forall (testable i) ts).
  { intros i L. rewrite Forall_forall. intros [x v] I. apply IN in I. destruct I as (k & NX & IW). destruct (WV k v IW) as (_ & o & ->).
    exists o. cbn [fst snd]. split; [reflexivity|]. exact (KC k x o i NX IW L). }
  assert (EM : forall i, Forall (fun kv => probe i kv Eq) ts <-> entry_matches items vals col (t_keys t) whens i).
  { intros i. rewrite Forall_forall. unfold entry_matches. split.
    - intros F k v IW. destruct (WV k _ IW) as (L & _). apply nth_error_Some in L. destruct (nth_error (t_keys t) k) as [x|] eqn:NX; [|congruence].
      exists x. split; [reflexivity|]. destruct (F (x, SVal v)) as (w & EW & O); [apply IN; now exists k|]. cbn [fst snd] in *. injection EW as <-. exact O.
    - intros F [x v] I. apply IN in I. destruct I as (k & NX & IW). destruct (WV k v IW) as (_ & o & ->). destruct (F k o IW) as (y & NY & O).
      rewrite NX in NY. injection NY as <-. exists o. auto. }
  destruct (search_loop_ok t (t_keys t) ts n PT SO ltac:(lia) TS (Z.to_nat (n + 3)) (t_min t - 1) (n + 1) None s EI H ltac:(lia) ltac:(lia) ltac:(lia) ltac:(lia)) as (r & E & P).
  exists r. split; [exact E|]. destruct r as [s'|i s'].
  - destruct P as [A B]. split; [exact A|]. intros i L Q. apply (B i); [lia|]. now apply EM.
  - destruct P as (A & B & C). split; [exact A|]. split; [lia|]. now apply EM.
Qed.
End Probe.

(** ** SEARCH *)
Section Serial.
Variables (m : cfg) (debug alpha : bool) (col : option (list Z)) (nibble_c : bool) (names : nat -> name88) (vals : nat -> Z) (items : list field).
Hypothesis HCOL : col <> None -> alpha = true.

Lemma first_when_ok : forall ws k s, citems s = items -> cmp_history (cpack s) -> Forall (ready items vals m col names) ws ->
  exists o s', first_when m debug alpha col nibble_c names k ws s = Ok (o, s') /\ citems s' = items /\ cmp_history (cpack s') /\
    match o with
    | None => no_when items vals col names ws
    | Some j => exists l, (j = k + l)%nat /\ when_is items vals col names ws l
    end.
Proof.
  induction ws as [|w r IH]; intros k s EI H F; cbn [first_when].
  - exists None, s. split; [reflexivity|]. split; [exact EI|]. split; [exact H|]. intros w [].
  - apply Forall_cons_iff in F. destruct F as [R F].
    destruct (eval_ok m debug alpha col nibble_c names vals HCOL items w R s EI H) as (b & s' & E & T & I' & H'). rewrite E. cbn [obind fst snd].
    destruct b.
    + exists (Some k), s'. split; [reflexivity|]. split; [exact I'|]. split; [exact H'|]. exists 0%nat. split; [lia|].
      exists [], w, r. split; [reflexivity|]. split; [reflexivity|]. split; [exact T|]. intros x [].
    + destruct (IH (S k) s' I' H' F) as (o & s2 & E2 & I2 & H2 & P). exists o, s2. split; [exact E2|]. split; [exact I2|]. split; [exact H2|].
      destruct o as [j|].
      * destruct P as (l & -> & l1 & x & l2 & -> & L & TX & NW). exists (S l). split; [lia|]. exists (w :: l1), x, l2. split; [reflexivity|]. split; [cbn [length]; lia|]. split; [exact TX|].
        intros y [<- |Y]; [exact T|now apply NW].
      * intros y [<- |Y]; [exact T|now apply P].
Qed.

Lemma serial_ok : forall fuel whens n i var s, citems s = items -> cmp_history (cpack s) ->
  (forall j, i <= j <= n -> Forall (ready items vals m col names) (whens j)) -> n + 1 - i < Z.of_nat fuel -> 0 < Z.of_nat fuel ->
  exists r, search_serial m debug alpha col nibble_c names fuel whens n i var s = Ok r /\
    match r with
    | SerialEnd j v s' => j = Z.max i (n + 1) /\ v = (if j =? i then var else j) /\ citems s' = items /\
        forall q, i <= q <= n -> no_when items vals col names (whens q)
    | SerialAt j v k s' => i <= j <= n /\ v = (if j =? i then var else j) /\ citems s' = items /\ when_is items vals col names (whens j) k /\
        forall q, i <= q < j -> no_when items vals col names (whens q)
    end.
Proof.
  induction fuel as [|g IH]; intros whens n i var s EI H F L L0; [lia|]. cbn [search_serial].
  destruct (Z.ltb_spec n i) as [E|E].
  - exists (SerialEnd i var s). split; [reflexivity|]. rewrite Z.eqb_refl. split; [lia|]. split; [reflexivity|]. split; [exact EI|]. intros q Q. lia.
  - destruct (first_when_ok (whens i) 0 s EI H (F i ltac:(lia))) as (o & s' & E1 & I' & H' & P). rewrite E1. cbn [obind fst snd]. destruct o as [k|].
    + exists (SerialAt i var k s'). split; [reflexivity|]. rewrite Z.eqb_refl. split; [lia|]. split; [reflexivity|]. split; [exact I'|].
      destruct P as (l & -> & W). split; [exact W|]. intros q Q. lia.
    + destruct (IH whens n (i + 1) (i + 1) s' I' H' (fun j J => F j ltac:(lia)) ltac:(lia) ltac:(lia)) as (r & E2 & R). exists r. split; [exact E2|].
      destruct r as [j v s2|j v k s2].
      * destruct R as (A & B & C & D). split; [lia|]. split; [|split; [exact C|]].
        -- destruct (Z.eqb_spec j i); [lia|]. destruct (Z.eqb_spec j (i + 1)); lia.
        -- intros q Q. destruct (Z.eq_dec q i) as [-> |]; [exact P|]. apply D. lia.
      * destruct R as (A & B & C & W & D). split; [lia|]. split; [|split; [exact C|split; [exact W|]]].
        -- destruct (Z.eqb_spec j i); [lia|]. destruct (Z.eqb_spec j (i + 1)); lia.
        -- intros q Q. destruct (Z.eq_dec q i) as [-> |]; [exact P|]. apply D. lia.
Qed.
End Serial.
