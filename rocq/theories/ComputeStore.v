(** Arithmetic statements: storing results (proof file). *)
From Coq Require Import QArith Qabs.
From Verif Require Import Base BaseFacts Field Sign Decimal SpecNum Numeric SpecStore NumFacts.
From Verif Require Import DispProofs DecProofs BinProofs PackedProofs StoreProofs.
From Verif Require Import BinOps Move Edited MoveAll SpecMove MoveProofs MovePacked MoveBin MoveNum SpecEdit EditStore EditStoreProofs Compute SpecCompute ComputeProofs.
Local Open Scope Z_scope.

Lemma moderate_limit : forall o q s w, s <= 36 -> rounded o q s w -> moderate q -> Z.abs w < NUM_LIMIT.
Proof.
  intros o q s w HS HR HM. unfold moderate in HM.
  assert (A : (rat (2 * Z.abs w - 1) s <= (2 # 1) * Qabs q)%Q).
  { unfold rounded in HR. destruct (o_round o); destruct HR as (A & _); [exact A|].
    rewrite rat_abs in A. eapply Qle_trans; [|apply Qmult_le_l; [reflexivity|exact A]].
    rewrite rat_double. apply rat_le. lia. }
  assert (B : (rat (2 * Z.abs w - 1) s < (2 # 1) * rat (10 ^ 1900) 0)%Q).
  { eapply Qle_lt_trans; [exact A|]. apply Qmult_lt_l; [reflexivity|exact HM]. }
  rewrite rat_double in B.
  assert (P : 0 < 10 ^ 1900) by (apply Z.pow_pos_nonneg; lia).
  assert (L : 10 ^ 1900 * 10 ^ 36 * 2 < NUM_LIMIT).
  { unfold NUM_LIMIT. rewrite <- Z.pow_add_r by lia. change 2047 with (1936 + 111). rewrite (Z.pow_add_r 10 1936 111) by lia.
    change (1900 + 36) with 1936. apply Z.mul_lt_mono_pos_l; [apply Z.pow_pos_nonneg; lia|reflexivity]. }
  assert (C : 2 * Z.abs w - 1 < 2 * (10 ^ 1900 * 10 ^ 36)).
  { destruct (Z.le_gt_cases 0 s) as [S0|S0].
    - rewrite (rat_to (2 * 10 ^ 1900) 0 s S0) in B. apply rat_lt in B. rewrite Z.sub_0_r in B.
      eapply Z.lt_le_trans; [exact B|]. rewrite <- Z.mul_assoc. apply Z.mul_le_mono_nonneg_l; [lia|].
      apply Z.mul_le_mono_nonneg_l; [lia|]. apply Z.pow_le_mono_r; lia.
    - rewrite (rat_to (2 * Z.abs w - 1) s 0 ltac:(lia)) in B. apply rat_lt in B.
      destruct (Z.eq_dec w 0) as [-> |NW].
      + change (2 * Z.abs 0 - 1) with (-1). pose proof (Z.pow_pos_nonneg 10 36 ltac:(lia) ltac:(lia)). 
        assert (0 < 10 ^ 1900 * 10 ^ 36) by (apply Z.mul_pos_pos; assumption). lia.
      + assert (1 <= 10 ^ (0 - s)) by (pose proof (Z.pow_pos_nonneg 10 (0 - s) ltac:(lia) ltac:(lia)); lia).
        assert (2 * Z.abs w - 1 <= (2 * Z.abs w - 1) * 10 ^ (0 - s)) by (rewrite <- (Z.mul_1_r (2 * Z.abs w - 1)) at 1; apply Z.mul_le_mono_nonneg_l; lia).
        assert (1 <= 10 ^ 36) by (pose proof (Z.pow_pos_nonneg 10 36 ltac:(lia) ltac:(lia)); lia).
        assert (10 ^ 1900 * 1 <= 10 ^ 1900 * 10 ^ 36) by (apply Z.mul_le_mono_nonneg_l; lia). lia. }
  revert C L P. generalize (10 ^ 1900 * 10 ^ 36). generalize (10 ^ 1900). generalize NUM_LIMIT. clear. intros. lia.
Qed.

Lemma numeric_not_edited : forall m p f, numeric_item f -> edited_item m p f -> False.
Proof.
  intros m p f N E. assert (T : a_type (fa f) = TNumEdited) by apply E.
  destruct N as [f k W|f k W|f W]; destruct W as [W _]; rewrite W in T; discriminate.
Qed.

Lemma rounded_get : forall o d q s, (decQ d == q)%Q -> exists w, rounded o q s w.
Proof. intros o d q s E. destruct (rounded_exists d s o) as [w H]. exists w. apply (rounded_Qeq o _ _ _ _ E H). Qed.

Lemma store_nan : forall m d f o, dsc d = -128 -> store_result m d f o = Ok (mkStored true true f).
Proof.
  intros m d f o H. unfold store_result. destruct (a_type (fa f)); unfold get_field, get_field_edited; rewrite H; reflexivity.
Qed.

Lemma store_ok : forall m d f o q, target_ok m f -> not_nan d -> (decQ d == q)%Q -> moderate q ->
  exists st, store_result m d f o = Ok st /\ result_in m o f q (st_f st) /\
    (overflows m o f q -> st_exc st = true) /\ (~ overflows m o f q -> st_exc st = false) /\ fits_int (st_f st) = fits_int f.
Proof.
  intros m d f o q (SC & [N|(p & ET)]) NN E HM.
  - destruct (rounded_get o d q (a_scale (fa f)) E) as [w R]. pose proof (moderate_limit o q _ w SC R HM) as LIM.
    assert (NE : forall p, ~ edited_target m p f) by (intros p (_ & _ & I & _); exact (numeric_not_edited m p f N I)).
    assert (SR : store_result m d f o = get_field m d f o).
    { unfold store_result. destruct N as [f k W|f k W|f W]; destruct W as [W _]; rewrite W; reflexivity. }
    rewrite SR. destruct (get_field_spec m d f o q w NN N E R LIM) as (F1 & F2 & F3).
    assert (FI : forall g, fa g = fa f -> f_size g = f_size f -> fits_int g = fits_int f) by (intros g A B; unfold fits_int; now rewrite A, B).
    assert (UQ : forall w', rounded o q (a_scale (fa f)) w' -> w' = w) by (intros w' R'; exact (rounded_unique o q _ _ _ R' R)).
    destruct (fits_dec m o f w) as [FT|FT].
    + destruct (F1 FT) as (f' & G & A & S & D). exists (mkStored false false f'). split; [exact G|]. cbn [st_f st_exc]. split; [|split; [|split]].
      * split; [exact A|]. split; [|intros p ET; now apply NE in ET]. intros _. split; [exact A|]. split; [exact S|].
        intros w' R'. rewrite (UQ w' R'). split; [auto|]. split; intros; contradiction.
      * intros (w' & R' & [(_ & X)|(p & X & _)]); [rewrite (UQ w' R') in X; contradiction|now apply NE in X].
      * reflexivity.
      * now apply FI.
    + assert (OV : overflows m o f q) by (exists w; auto).
      destruct (o_keep o) eqn:K.
      * exists (mkStored true true f). split; [now apply F2|]. cbn [st_f st_exc]. split; [|split; [auto|split; [contradiction|reflexivity]]].
        split; [reflexivity|]. split; [|intros p ET; now apply NE in ET]. intros _. split; [reflexivity|]. split; [reflexivity|].
        intros w' R'. rewrite (UQ w' R'). split; [contradiction|]. split; [auto|]. intros _ X. rewrite K in X. discriminate.
      * destruct (F3 FT eq_refl) as (rt & f' & G & A & S & D1 & D2 & D3). exists (mkStored rt true f'). split; [exact G|]. cbn [st_f st_exc].
        split; [|split; [auto|split; [contradiction|now apply FI]]].
        split; [exact A|]. split; [|intros p ET; now apply NE in ET]. intros _. split; [exact A|]. split; [exact S|].
        intros w' R'. rewrite (UQ w' R'). split; [contradiction|]. split; [intros _ X; rewrite K in X; discriminate|].
        intros _ _. split; [intros k [W|W]; auto|exact D3].
  - destruct ET as (CF & ED & IT & SCE & DG & D1). pose proof (conj CF (conj ED (conj IT (conj SCE (conj DG D1)))) : edited_target m p f) as ET.
    destruct (rounded_get o d q (a_scale (fa f)) E) as [w R]. pose proof (moderate_limit o q _ w SC R HM) as LIM.
    assert (T : a_type (fa f) = TNumEdited) by apply IT.
    assert (SR : store_result m d f o = get_field_edited m false d f o) by (unfold store_result; now rewrite T).
    assert (NN' : ~ numeric_item f) by (intros N; exact (numeric_not_edited m p f N IT)).
    assert (UQ : forall w', rounded o q (a_scale (fa f)) w' -> w' = w) by (intros w' R'; exact (rounded_unique o q _ _ _ R' R)).
    assert (FI : forall l, fits_int (set_fd f l) = fits_int f) by (intros l; unfold fits_int; cbn [set_fd fa]; now rewrite T).
    rewrite SR.
    assert (ANY : forall st, get_field_edited m false d f o = Ok st -> forall p', edited_target m p' f -> edited_result m o p' f q (st_f st)).
    { intros st G p' (CF' & ED' & IT' & SC' & DG' & D1') w' R'. rewrite <- SC' in R'. rewrite (UQ w' R').
      destruct (edited_store m p' f o CF' ED' IT' SC' DG' D1' false d q w NN E ltac:(rewrite <- SC'; exact R) LIM) as (A1 & A2 & A3).
      cbv zeta. split; [|split].
      - intros B. destruct (A1 B) as (neg & S & G'). rewrite G in G'. apply Ok_inj in G'. subst st. cbn [st_f]. exists neg. auto.
      - intros B K. specialize (A2 B K). rewrite G in A2. apply Ok_inj in A2. subst st. reflexivity.
      - intros B K. destruct (A3 B K) as (neg & S & G'). rewrite G in G'. apply Ok_inj in G'. subst st. cbn [st_f]. exists neg. auto. }
    destruct (edited_store m p f o CF ED IT SCE DG D1 false d q w NN E ltac:(rewrite <- SCE; exact R) LIM) as (A1 & A2 & A3).
    assert (OVI : overflows m o f q -> 10 ^ edit_digits p <= Z.abs w).
    { intros (w' & R' & [(X & _)|(p' & (_ & _ & _ & _ & DG' & _) & B)]); [contradiction|].
      rewrite (UQ w' R') in B. rewrite <- DG, DG'. exact B. }
    destruct (Z.lt_ge_cases (Z.abs w) (10 ^ edit_digits p)) as [B|B].
    + destruct (A1 B) as (neg & S & G). eexists. split; [exact G|]. split; [|cbn [st_exc st_f]; split; [|split]].
      * split; [reflexivity|]. split; [contradiction|]. now apply ANY.
      * intros X. apply OVI in X. lia.
      * reflexivity.
      * apply FI.
    + assert (OV : overflows m o f q) by (exists w; split; [exact R|right; exists p; auto]).
      destruct (o_keep o) eqn:K.
      * eexists. split; [exact (A2 B eq_refl)|]. split; [|cbn [st_exc st_f]; split; [auto|split; [contradiction|reflexivity]]].
        split; [reflexivity|]. split; [contradiction|]. apply ANY. exact (A2 B eq_refl).
      * destruct (A3 B eq_refl) as (neg & S & G). eexists. split; [exact G|]. split; [|cbn [st_exc st_f]; split; [auto|split; [contradiction|apply FI]]].
        split; [reflexivity|]. split; [contradiction|]. now apply ANY.
Qed.

(** ** Quotients cut at 37 or more places are rounded as the exact quotient *)
Definition approx (q : Q) (R : decimal) : Prop :=
  (decQ R == q)%Q \/ (37 <= dsc R /\ trunc_at q (dsc R) (dv R)).

Lemma approx_rounded : forall o q R s w, s <= 36 -> approx q R -> rounded o (decQ R) s w -> rounded o q s w.
Proof.
  intros o q R s w S [E|(K & T)] H.
  - exact (rounded_Qeq o _ _ _ _ E H).
  - exact (rounded_after_trunc o q (dsc R) (dv R) s w ltac:(lia) T H).
Qed.
Lemma approx_moderate : forall q R, approx q R -> moderate q -> moderate (decQ R).
Proof.
  intros q R [E|(K & T)] H; unfold moderate in *.
  - rewrite E. exact H.
  - destruct T as (T & _). eapply Qle_lt_trans; [exact T|exact H].
Qed.
Lemma approx_back : forall o q R s w, s <= 36 -> approx q R -> rounded o q s w -> rounded o (decQ R) s w.
Proof.
  intros o q R s w S A H. destruct (rounded_exists R s o) as [w' H'].
  pose proof (approx_rounded o q R s w' S A H') as H2. now rewrite (rounded_unique o q s w w' H H2).
Qed.
Lemma approx_result : forall m o f q R f', a_scale (fa f) <= 36 -> approx q R -> result_in m o f (decQ R) f' -> result_in m o f q f'.
Proof.
  intros m o f q R f' S A (F & N & D). split; [exact F|]. split.
  - intros I. destruct (N I) as (N1 & N2 & N3). split; [exact N1|]. split; [exact N2|].
    intros w W. apply N3. now apply (approx_back o q R).
  - intros p ET w W. apply (D p ET). destruct ET as (_ & _ & _ & SC & _). apply (approx_back o q R); [now rewrite <- SC|exact A|exact W].
Qed.
Lemma approx_overflows : forall m o f q R, a_scale (fa f) <= 36 -> approx q R -> (overflows m o f q <-> overflows m o f (decQ R)).
Proof.
  intros m o f q R S A. split; intros (w & W & X); exists w; (split; [|exact X]).
  - now apply (approx_back o q R).
  - now apply (approx_rounded o q R).
Qed.
Lemma store_approx : forall m d f o q, target_ok m f -> not_nan d -> approx q d -> moderate q ->
  exists st, store_result m d f o = Ok st /\ result_in m o f q (st_f st) /\
    (overflows m o f q -> st_exc st = true) /\ (~ overflows m o f q -> st_exc st = false) /\ fits_int (st_f st) = fits_int f.
Proof.
  intros m d f o q TK NN A M. pose proof (proj1 TK) as S.
  destruct (store_ok m d f o (decQ d) TK NN (Qeq_refl _) (approx_moderate q d A M)) as (st & E & R & O1 & O2 & FI).
  exists st. split; [exact E|]. split; [exact (approx_result m o f q d _ S A R)|].
  pose proof (approx_overflows m o f q d S A) as OV. split; [tauto|]. split; [|exact FI]. intros N. apply O2. tauto.
Qed.

(** ** T op q *)
Lemma reg_op_val : forall k D1 D2, k <> APow -> not_nan D1 -> not_nan D2 ->
  (k = AMul -> dsc D1 + dsc D2 <> -128) -> (k = ADiv -> dv D2 <> 0) ->
  exists R D2', reg_op k D1 D2 = Ok (R, D2', false) /\ not_nan R /\ (decQ D2' == decQ D2)%Q /\ dsc D2 <= dsc D2' /\
    approx (opq k (decQ D1) (decQ D2)) R.
Proof.
  intros k D1 D2 NP N1 N2 HM HD. unfold reg_op. rewrite (nan_in_false D1 D2 N1 N2). cbv zeta.
  assert (AL : (decQ (snd (align_decimal D1 D2)) == decQ D2)%Q /\ dsc D2 <= dsc (snd (align_decimal D1 D2))).
  { destruct (align_decimal D1 D2) as [a b] eqn:E. unfold align_decimal in E.
    destruct (Z.ltb_spec (dsc D1) (dsc D2)); [injection E as <- <-; cbn [snd]; split; [apply Qeq_refl|lia]|].
    destruct (Z.ltb_spec (dsc D2) (dsc D1)); injection E as <- <-; cbn [snd]; [|split; [apply Qeq_refl|lia]].
    destruct (shift_up D2 (dsc D1 - dsc D2) ltac:(lia)) as (A & B & _). rewrite A, B. split; [apply Qeq_refl|lia]. }
  destruct AL as [AL1 AL2]. assert (NN1 := N1). assert (NN2 := N2). unfold not_nan, DECIMAL_NAN in NN1, NN2.
  destruct k; cbn [opq]; try congruence.
  - destruct (dec_add_exact D1 D2 N1 N2) as [E S]. eexists _, _. split; [reflexivity|]. split; [unfold not_nan, DECIMAL_NAN; rewrite S; lia|]. split; [exact AL1|]. split; [exact AL2|]. left. exact E.
  - destruct (dec_sub_exact D1 D2 N1 N2) as [E S]. eexists _, _. split; [reflexivity|]. split; [unfold not_nan, DECIMAL_NAN; rewrite S; lia|]. split; [exact AL1|]. split; [exact AL2|]. left. exact E.
  - destruct (dec_mul_exact D1 D2 N1 N2) as [E S]. eexists _, _. split; [reflexivity|]. split; [unfold not_nan, DECIMAL_NAN; rewrite S; now apply HM|]. split; [apply Qeq_refl|]. split; [lia|]. left. exact E.
  - destruct (dec_div_spec D1 D2 N1 N2 (HD eq_refl)) as (E0 & T & S1 & S0). rewrite E0. eexists _, _. split; [reflexivity|].
    destruct (Z.eq_dec (dv D1) 0) as [Z1|Z1].
    + destruct (S0 Z1) as [V SC]. split; [unfold not_nan, DECIMAL_NAN; rewrite SC; lia|]. split; [apply Qeq_refl|]. split; [lia|]. left.
      assert (X : (decQ D1 == 0)%Q) by now apply dv_zero. rewrite X. unfold Qdiv. rewrite Qmult_0_l. now apply dv_zero.
    + specialize (S1 Z1). split; [unfold not_nan, DECIMAL_NAN; lia|]. split; [apply Qeq_refl|]. split; [lia|]. right. split; [exact S1|exact T].
Qed.

Lemma approx_Qeq : forall q q' R, (q == q')%Q -> approx q R -> approx q' R.
Proof.
  intros q q' R E [A|(K & A)]; [left; now rewrite <- E|right]. split; [exact K|]. unfold trunc_at in *. rewrite <- E. exact A.
Qed.

(** ** One receiver after the other *)
Section Loop.
Variables (m : cfg) (T : Type) (body : mach -> T -> outcome mach) (idx : T -> nat) (opt : T -> opts) (val : nat -> Q).
Variable Inv : list T -> mach -> Prop.
Variable s0 : mach.
Fixpoint loop (s : mach) (ts : list T) : outcome mach :=
  match ts with [] => Ok s | t :: r => do s' <- body s t; loop s' r end.

Hypothesis step_ok : forall s t r, Inv (t :: r) s -> (idx t < length (mi s0))%nat -> length (mi s) = length (mi s0) -> target_ok m (item s0 (idx t)) ->
  item s (idx t) = item s0 (idx t) -> 
  exists s' f' x, body s t = Ok s' /\ Inv r s' /\ mi s' = set_nth (idx t) f' (mi s) /\ mx s' = mx s || x /\
    result_in m (opt t) (item s0 (idx t)) (val (idx t)) f' /\
    (overflows m (opt t) (item s0 (idx t)) (val (idx t)) -> x = true) /\
    (~ overflows m (opt t) (item s0 (idx t)) (val (idx t)) -> x = false).

Lemma loop_ok : forall ts s, Inv ts s -> length (mi s) = length (mi s0) -> NoDup (map idx ts) ->
  (forall t, In t ts -> (idx t < length (mi s0))%nat /\ target_ok m (item s0 (idx t))) ->
  (forall t, In t ts -> item s (idx t) = item s0 (idx t)) ->
  exists s', loop s ts = Ok s' /\ Inv [] s' /\ length (mi s') = length (mi s0) /\
    (forall t, In t ts -> result_in m (opt t) (item s0 (idx t)) (val (idx t)) (item s' (idx t))) /\
    (forall i, ~ In i (map idx ts) -> item s' i = item s i) /\
    ((exists t, In t ts /\ overflows m (opt t) (item s0 (idx t)) (val (idx t))) -> mx s' = true) /\
    ((forall t, In t ts -> ~ overflows m (opt t) (item s0 (idx t)) (val (idx t))) -> mx s' = mx s) /\
    (mx s = true -> mx s' = true).
Proof.
  induction ts as [|t ts IH]; intros s I L ND OK EQ.
  - exists s. cbn [loop]. split; [reflexivity|]. split; [exact I|]. split; [exact L|]. split; [intros t []|]. split; [auto|]. split; [intros (t & [] & _)|]. split; auto.
  - inversion ND as [|i l NI ND' E1]; subst. destruct (OK t (or_introl eq_refl)) as [LI TK].
    destruct (step_ok s t ts I LI L TK (EQ t (or_introl eq_refl))) as (s1 & f' & x & E & I1 & M1 & X1 & R1 & O1 & O2).
    assert (L1 : length (mi s1) = length (mi s0)) by (rewrite M1, set_nth_length; exact L).
    assert (NTH : forall j, item s1 j = if (j =? idx t)%nat then f' else item s j).
    { intros j. unfold item. rewrite M1, nth_set_nth. destruct (Nat.eqb_spec j (idx t)) as [-> |NE]; cbn [andb]; [|reflexivity].
      rewrite L. apply Nat.ltb_lt in LI. now rewrite LI. }
    destruct (IH s1 I1 L1 ND') as (s' & E' & I' & L' & R' & U' & V1 & V2 & V3).
    + intros t' H'. apply OK. now right.
    + intros t' H'. rewrite NTH. destruct (Nat.eqb_spec (idx t') (idx t)) as [EI|NE]; [|apply EQ; now right].
      exfalso. apply NI. rewrite <- EI. now apply in_map.
    + exists s'. cbn [loop]. rewrite E. cbn [obind]. split; [exact E'|]. split; [exact I'|]. split; [exact L'|].
      split; [|split; [|split; [|split]]].
      * intros t' [<- |H']; [|now apply R']. rewrite (U' (idx t) NI), NTH, Nat.eqb_refl. exact R1.
      * intros j NJ. cbn [map In] in NJ. rewrite U' by tauto. rewrite NTH. destruct (Nat.eqb_spec j (idx t)) as [EI|NE]; [|reflexivity]. exfalso. apply NJ. now left.
      * intros (t' & [<- |H'] & OV); [|apply V1; exists t'; auto]. apply V3. rewrite X1, (O1 OV). apply orb_true_r.
      * intros NO. rewrite V2 by (intros t' H'; apply NO; now right). rewrite X1, (O2 (NO t (or_introl eq_refl))). apply orb_false_r.
      * intros X. apply V3. rewrite X1, X. reflexivity.
Qed.
End Loop.

Lemma exec_map : forall m (ts : list (nat * opts)) d s,
  exec m s (map (fun t => IGet d (fst t) (snd t)) ts) = loop (nat * opts) (fun s t => step m s (IGet d (fst t) (snd t))) s ts.
Proof. induction ts as [|t ts IH]; intros d s; [reflexivity|]. cbn [map exec loop]. destruct (step m s _); cbn [obind]; auto. Qed.
Lemma exec_flat : forall m (code : nat * opts -> list instr) ts s,
  exec m s (flat_map code ts) = loop (nat * opts) (fun s t => exec m s (code t)) s ts.
Proof. induction ts as [|t ts IH]; intros s; [reflexivity|]. cbn [flat_map loop]. rewrite exec_app. destruct (exec m s (code t)); cbn [obind]; auto. Qed.

(** COMPUTE and the GIVING forms. *)
Lemma assign_ok : forall m vals e lo hi ts s, within (mi s) vals e lo hi -> operands_ok (mi s) vals m e ->
  targets_ok m s ts -> (forall q, computes (mi s) vals e q -> moderate q) ->
  exists s', exec m s (decimal_assign (mi s) ts None e) = Ok s' /\
    ((exists q, computes (mi s) vals e q /\ stored_all m ts (fun _ => q) s s') \/
     (fails (mi s) vals e /\ mi s' = mi s /\ mx s' = true)).
Proof.
  intros m vals e lo hi ts s W O (ND & TK) MD. unfold decimal_assign. rewrite exec_app.
  destruct (expand_ok m (mi s) vals e lo hi W O 1%nat 0%nat s ltac:(lia) eq_refl) as (s1 & E1 & M1 & _ & IR).
  rewrite E1. cbn [obind]. rewrite exec_map. destruct (within_low _ _ _ _ _ W) as [WL _].
  assert (IT : forall i, item s1 i = item s i) by (intros i; unfold item; now rewrite M1).
  destruct IR as [ (q & C & QE & B & X) | (F & SN & X) ].
  - pose proof (loop_ok m (nat * opts) (fun s t => step m s (IGet 0 (fst t) (snd t))) fst snd (fun _ => q) (fun _ s' => mr s' = mr s1) s) as LP.
    destruct (LP) with (ts := ts) (s := s1) as (s' & E & _ & L & R & U & V1 & V2 & V3); auto.
    + intros sx t rr I LI LX TG EQ. cbn [step]. rewrite EQ.
      destruct (store_ok m (mr sx 0%nat) (item s (fst t)) (snd t) q TG) as (st & ES & RS & OV1 & OV2 & _).
      * rewrite I. apply (mag_not_nan lo hi); assumption.
      * rewrite I. exact QE.
      * now apply MD.
      * rewrite ES. cbn [obind]. eexists _, (st_f st), (st_exc st). split; [reflexivity|]. cbn [mr mi mx]. auto 10.
    + now rewrite M1.
    + exists s'. split; [exact E|]. left. exists q. split; [exact C|]. unfold stored_all. rewrite L, X in *. split; [reflexivity|]. split; [exact R|].
      split; [intros i NI; rewrite U by exact NI; apply IT|]. split; [exact V1|]. split; [exact V2|exact V3].
  - assert (SAME : forall ts' sx, mr sx = mr s1 -> mi sx = mi s -> mx sx = true -> 
       exists s', loop (nat * opts) (fun s t => step m s (IGet 0 (fst t) (snd t))) sx ts' = Ok s' /\ mi s' = mi s /\ mx s' = true).
    { induction ts' as [|t ts' IH]; intros sx I MI MX; [exists sx; auto|]. cbn [loop step]. rewrite I, (store_nan m _ _ _ SN). cbn [obind st_f st_exc].
      apply IH; cbn [mr mi mx]; auto; [|apply orb_true_r]. unfold item. rewrite MI. change (mkField alnum_attr []) with nil_item. apply set_nth_same. }
    destruct (SAME ts s1 eq_refl M1 X) as (s' & E & A & B). exists s'. split; [exact E|]. right. auto.
Qed.

(** ADD, SUBTRACT, MULTIPLY and DIVIDE on receivers. *)
Lemma load_target : forall m vals s0 sx i, operand_ok (mi s0) vals m i -> direct_ok (mi s0) vals i ->
  -128 < a_scale (fa (nth i (mi s0) nil_item)) -> length (mi sx) = length (mi s0) -> item sx i = item s0 i ->
  exists s', exec m sx (expand (mi s0) 2 1 (ERef i)) = Ok s' /\ mi s' = mi sx /\ mr s' 0%nat = mr sx 0%nat /\ mx s' = mx sx /\
    not_nan (mr s' 1%nat) /\ a_scale (fa (nth i (mi s0) nil_item)) <= dsc (mr s' 1%nat) /\ (decQ (mr s' 1%nat) == num (mi s0) vals i)%Q.
Proof.
  intros m vals s0 sx i (LI & D) DO SC LX EQ. unfold item in EQ. change (mkField alnum_attr []) with nil_item in EQ.
  assert (EX : expand (mi s0) 2 1 (ERef i) = expand (mi sx) 2 1 (ERef i)) by (cbn [expand]; change (mkField alnum_attr []) with nil_item; now rewrite EQ).
  rewrite EX. set (sc := a_scale (fa (nth i (mi s0) nil_item))) in *.
  assert (OK : operands_ok (mi sx) vals m (ERef i)).
  { constructor.
    - split; [now rewrite LX|]. rewrite EQ. exact D.
    - unfold direct_ok. rewrite EQ. exact DO. }
  destruct (expand_ok m (mi sx) vals (ERef i) sc (Z.max 0 sc) (pl_ref _ _ i sc ltac:(rewrite EQ; reflexivity) SC) OK 2%nat 1%nat sx ltac:(lia) eq_refl)
    as (s' & E & M & K & [ (q & C & QE & B & X) | (F & _) ]).
  - exists s'. split; [exact E|]. split; [exact M|]. split; [apply K; lia|]. split; [exact X|].
    split; [eapply mag_not_nan; [|exact B]; exact SC|]. split; [apply B|].
    rewrite QE. inversion C; subst. unfold num in *. rewrite EQ in *. assumption.
  - inversion F.
Qed.

Lemma update_ok : forall k m vals e lo hi ts s, k <> APow -> within (mi s) vals e lo hi -> operands_ok (mi s) vals m e ->
  targets_ok m s ts -> updates k m s vals lo ts ->
  (forall q t, computes (mi s) vals e q -> In t ts -> moderate (opq k (num (mi s) vals (fst t)) q)) ->
  exists s', exec m s (decimal_assign (mi s) ts (Some k) e) = Ok s' /\
    ((exists q, computes (mi s) vals e q /\ (k = ADiv -> ~ (q == 0)%Q) /\
        stored_all m ts (fun i => opq k (num (mi s) vals i) q) s s') \/
     ((fails (mi s) vals e \/ (k = ADiv /\ exists q, computes (mi s) vals e q /\ (q == 0)%Q)) /\
      mi s' = mi s /\ (ts <> [] -> mx s' = true))).
Proof.
  intros k m vals e lo hi ts s NP W O (ND & TK) UP MD. unfold decimal_assign. rewrite exec_app.
  destruct (expand_ok m (mi s) vals e lo hi W O 1%nat 0%nat s ltac:(lia) eq_refl) as (s1 & E1 & M1 & _ & IR).
  rewrite E1. cbn [obind]. rewrite exec_flat. destruct (within_low _ _ _ _ _ W) as [WL _].
  assert (IT : forall i, item s1 i = item s i) by (intros i; unfold item; now rewrite M1).
  set (body := fun (sx : mach) (t : nat * opts) => exec m sx (expand (mi s) 2 1 (ERef (fst t)) ++ [IOp k 1 0; IGet 1 (fst t) (snd t)])).
  change (exists s', loop (nat * opts) body s1 ts = Ok s' /\
    ((exists q, computes (mi s) vals e q /\ (k = ADiv -> ~ (q == 0)%Q) /\
        stored_all m ts (fun i => opq k (num (mi s) vals i) q) s s') \/
     ((fails (mi s) vals e \/ (k = ADiv /\ exists q, computes (mi s) vals e q /\ (q == 0)%Q)) /\
      mi s' = mi s /\ (ts <> [] -> mx s' = true)))).
  (* the right operand makes no change to any receiver *)
  assert (BAD : forall (P : decimal -> Prop), P (mr s1 0%nat) ->
     (forall d1 d2, P d2 -> not_nan d1 -> exists d1' z, reg_op k d1 d2 = Ok (d1', d2, z) /\ dsc d1' = -128) ->
     forall ts' sx, (forall t, In t ts' -> In t ts) -> P (mr sx 0%nat) -> mi sx = mi s ->
     exists s', loop (nat * opts) body sx ts' = Ok s' /\ mi s' = mi s /\ (mx sx = true \/ ts' <> [] -> mx s' = true)).
  { intros P _ HP. induction ts' as [|t ts' IH]; intros sx SUB PX MX; [exists sx; split; [reflexivity|]; split; [exact MX|]; intros [X|X]; [exact X|contradiction]|].
    destruct (UP t (SUB t (or_introl eq_refl))) as (U1 & U2 & U3 & _).
    destruct (load_target m vals s sx (fst t) U1 U2 U3 ltac:(now rewrite MX) ltac:(unfold item; now rewrite MX)) as (s2 & E2 & M2 & R2 & X2 & N2 & _ & _).
    cbn [loop]. unfold body at 1. rewrite exec_app, E2. cbn [obind exec step]. rewrite R2.
    destruct (HP (mr s2 1%nat) (mr sx 0%nat) PX N2) as (d1' & z & ER & SN). rewrite ER. cbn [obind mr mi mx].
    rewrite set_reg_eq. rewrite (store_nan m d1' _ _ SN). cbn [obind st_f st_exc].
    destruct (IH (mkMach (set_reg (set_reg (mr s2) 0%nat (mr sx 0%nat)) 1%nat d1') (set_nth (fst t) (item (mkMach (set_reg (set_reg (mr s2) 0%nat (mr sx 0%nat)) 1%nat d1') (mi s2) (mx s2 || z)) (fst t)) (mi s2)) (mx s2 || z || true))) as (s' & E' & M' & V').
    - intros t' H'. apply SUB. now right.
    - cbn [mr]. rewrite set_reg_neq by lia. rewrite set_reg_eq. exact PX.
    - cbn [mi]. unfold item. cbn [mi]. change (mkField alnum_attr []) with nil_item. rewrite set_nth_same, M2. exact MX.
    - exists s'. split; [exact E'|]. split; [exact M'|]. intros _. apply V'. left. cbn [mx]. apply orb_true_r. }
  destruct IR as [ (q & C & QE & B & X) | (F & SN & X) ].
  - assert (N0 : not_nan (mr s1 0%nat)) by (eapply mag_not_nan; [|exact B]; exact WL).
    assert (DZ : (k = ADiv /\ dv (mr s1 0%nat) = 0) \/ (k = ADiv -> dv (mr s1 0%nat) <> 0)).
    { destruct (Z.eq_dec (dv (mr s1 0%nat)) 0); [|right; auto]. destruct k; try (right; discriminate). left; auto. }
    destruct DZ as [ (KD & Z0) | ZN ].
    + destruct (BAD (fun d => not_nan d /\ dv d = 0)) with (ts' := ts) (sx := s1) as (s' & E' & M' & V'); auto.
      * intros d1 d2 (Y1 & Y2) Y3. rewrite KD. unfold reg_op, dec_div. rewrite (nan_in_false d1 d2 Y3 Y1), Y2. cbn [Z.eqb fst snd]. eexists _, _. split; reflexivity.
      * exists s'. split; [exact E'|]. right. split; [right; split; [exact KD|]; exists q; split; [exact C|]; rewrite <- QE; now apply dv_zero|].
        split; [exact M'|]. intros NT. apply V'. now right.
    + pose proof (loop_ok m (nat * opts)) as LP.
      assert (LG : forall ts' sx, (forall t, In t ts' -> In t ts) -> (decQ (mr sx 0%nat) == q)%Q /\ lo <= dsc (mr sx 0%nat) -> True) by auto. clear LG.
      set (body' := fun (sx : mach) (t : {t | In t ts}) => body sx (proj1_sig t)).
      assert (ATT : exists ts2 : list {t | In t ts}, map (@proj1_sig _ _) ts2 = ts).
      { assert (G : forall l, (forall t, In t l -> In t ts) -> exists l2 : list {t | In t ts}, map (@proj1_sig _ _) l2 = l).
        { induction l as [|t l IH]; intros SUB; [exists []; reflexivity|].
          destruct IH as [l2 E2]; [intros t' H'; apply SUB; now right|]. exists (exist _ t (SUB t (or_introl eq_refl)) :: l2). cbn [map proj1_sig]. now rewrite E2. }
        now apply G. }
      destruct ATT as [ts2 ETS].
      assert (LEQ : forall l sx, loop (nat * opts) body sx (map (@proj1_sig _ _) l) = loop {t | In t ts} body' sx l).
      { induction l as [|t l IH]; intros sx; [reflexivity|]. cbn [map loop]. unfold body' at 1. destruct (body sx (proj1_sig t)); cbn [obind]; auto. }
      clear LP. pose proof (loop_ok m {t | In t ts} body' (fun t => fst (proj1_sig t)) (fun t => snd (proj1_sig t)) (fun i => opq k (num (mi s) vals i) q)
         (fun _ sx => (decQ (mr sx 0%nat) == q)%Q /\ lo <= dsc (mr sx 0%nat)) s) as LP.
      destruct LP with (ts := ts2) (s := s1) as (s' & E & _ & L & R & U & V1 & V2 & V3); auto.
      * intros sx [t HT] rr (I1 & I2) LI LX TG EQ. cbn [proj1_sig] in *. unfold body', body. cbn [proj1_sig].
        destruct (UP t HT) as (U1 & U2 & U3 & U4).
        destruct (load_target m vals s sx (fst t) U1 U2 U3 LX EQ) as (s2 & E2 & M2 & R2 & X2 & N2 & S2 & Q2).
        rewrite exec_app, E2. cbn [obind exec step]. rewrite R2.
        assert (NX : not_nan (mr sx 0%nat)) by (unfold not_nan, DECIMAL_NAN; lia).
        destruct (reg_op_val k (mr s2 1%nat) (mr sx 0%nat) NP N2 NX) as (Rg & D2' & ER & NR & QD & SD & AP).
        { intros KM. specialize (U4 KM). unfold item in U4. change (mkField alnum_attr []) with nil_item in U4. lia. }
        { intros KD. specialize (ZN KD). intros Y. apply dv_zero in Y. rewrite I1, <- QE in Y. apply dv_zero in Y. contradiction. }
        rewrite ER. cbn [obind mr mi mx]. rewrite set_reg_eq.
        assert (AP' : approx (opq k (num (mi s) vals (fst t)) q) Rg).
        { apply (approx_Qeq (opq k (decQ (mr s2 1%nat)) (decQ (mr sx 0%nat)))); [|exact AP].
          destruct k; cbn [opq]; [rewrite Q2, I1|rewrite Q2, I1|rewrite Q2, I1|rewrite Q2, I1|]; apply Qeq_refl. }
        destruct (store_approx m Rg (item s (fst t)) (snd t) _ TG NR AP' (MD q t C HT)) as (st & ES & RS & OV1 & OV2 & _).
        assert (IE : item (mkMach (set_reg (set_reg (mr s2) 0%nat D2') 1%nat Rg) (mi s2) (mx s2 || false)) (fst t) = item s (fst t)) by (unfold item in *; cbn [mi]; rewrite M2; exact EQ).
        rewrite IE, ES. cbn [obind]. eexists _, (st_f st), (st_exc st). split; [reflexivity|]. cbn [mr mi mx].
        rewrite M2, X2, orb_false_r. split; [|auto 10]. rewrite set_reg_neq by lia. rewrite set_reg_eq. split; [rewrite QD; exact I1|lia].
      * split; [exact QE|apply B].
      * now rewrite M1.
      * rewrite <- map_map with (f := @proj1_sig _ _) (g := fst). rewrite ETS. exact ND.
      * intros [t HT] _. cbn [proj1_sig]. now apply TK.
      * rewrite <- map_map with (f := @proj1_sig _ _) (g := fst) in U. rewrite ETS in U.
        assert (INT : forall t, In t ts -> exists HT, In (exist _ t HT) ts2).
        { intros t HT. rewrite <- ETS in HT. apply in_map_iff in HT. destruct HT as ([t' H'] & <- & IN). exists H'. exact IN. }
        exists s'. split; [rewrite <- ETS, LEQ; exact E|]. left. exists q. split; [exact C|].
        split; [intros KD Y; apply (ZN KD), dv_zero; now rewrite QE|].
        unfold stored_all. rewrite X in *. split; [exact L|]. split; [|split; [|split; [|split; [|exact V3]]]].
        -- intros t HT. destruct (INT t HT) as (H' & IN). exact (R _ IN).
        -- intros i NI. rewrite U by exact NI. apply IT.
        -- intros (t & HT & OV). destruct (INT t HT) as (H' & IN). apply V1. exists (exist _ t H'). auto.
        -- intros NO. apply V2. intros [t HT] _. cbn [proj1_sig]. now apply NO.
  - destruct (BAD (fun d => dsc d = -128)) with (ts' := ts) (sx := s1) as (s' & E' & M' & V'); auto.
    + intros d1 d2 Y N. exists (dec_nan d1), false. split; [apply reg_op_nan, nan_true; auto|reflexivity].
    + exists s'. split; [exact E'|]. right. split; [left; exact F|]. split; [exact M'|]. intros _. apply V'. now left.
Qed.

(** ADD and SUBTRACT with one operand. *)
Lemma add_all_loop : forall m sub e ts s, add_all m sub e s ts = loop (nat * opts) (fun s t => add_to m sub e s t) s ts.
Proof. induction ts as [|t ts IH]; intros s; [reflexivity|]. cbn [add_all loop]. destruct (add_to m sub e s t); cbn [obind]; auto. Qed.

Lemma operand_value : forall m s vals e lo hi, within (mi s) vals e lo hi -> operands_ok (mi s) vals m e -> is_op e = false -> e <> EZero ->
  exists f v, operand s e = Some f /\ denotes (c_ebcdic m) f v /\ -128 < a_scale (fa f) /\ computes (mi s) vals e (rat v (a_scale (fa f))) /\
    (forall sx, (forall i, reads e i -> item sx i = item s i) -> operand sx e = Some f /\ fits_operand sx e = fits_operand s e).
Proof.
  intros m s vals e lo hi W O NO NZ. destruct W as [|sg ds sc HS|i sc HS HS'|i sc HS HS'| | | | |]; try discriminate NO; [congruence| | |].
  - inversion O as [|s0 ds0 sc0 NE DG SG| | |]; subst. exists (lit_field sg ds sc), (signed_value (sg <? 0) ds).
    split; [reflexivity|]. split; [now apply lit_denotes|]. split; [exact HS|]. split; [constructor; apply Qeq_refl|]. intros sx _. split; reflexivity.
  - inversion O as [| |i0 OP DO| |]; subst. exists (item s i), (vals i). split; [reflexivity|]. split; [apply OP|]. split; [exact HS'|].
    split; [constructor; apply Qeq_refl|]. intros sx H. cbn [operand fits_operand]. rewrite (H i (or_introl eq_refl)). split; reflexivity.
  - inversion O as [| | |i0 OP|]; subst. exists (item s i), (vals i). split; [reflexivity|]. split; [apply OP|]. split; [exact HS'|].
    split; [constructor; apply Qeq_refl|]. intros sx H. cbn [operand fits_operand]. rewrite (H i (or_intror eq_refl)). split; reflexivity.
Qed.

Lemma denotes_not_edited : forall e f v, denotes e f v -> a_type (fa f) <> TNumEdited.
Proof. intros e f v D. destruct (denotes_type _ _ _ D) as [T|[T|T]]; rewrite T; discriminate. Qed.

Lemma add_all_ok : forall (sub : bool) m vals e lo hi ts s,
  within (mi s) vals e lo hi -> operands_ok (mi s) vals m e -> is_op e = false -> e <> EZero ->
  targets_ok m s ts -> (forall t, In t ts -> operand_ok (mi s) vals m (fst t) /\ -128 < a_scale (fa (item s (fst t)))) ->
  undisturbed e ts -> general_form s e ts ->
  (forall q t, computes (mi s) vals e q -> In t ts -> moderate (opq (if sub then ASub else AAdd) (num (mi s) vals (fst t)) q)) ->
  exists s' q, add_all m sub e s ts = Ok s' /\ computes (mi s) vals e q /\
    stored_all m ts (fun i => opq (if sub then ASub else AAdd) (num (mi s) vals i) q) s s'.
Proof.
  intros sub m vals e lo hi ts s W O NO NZ (ND & TK) OPS UD GF MD.
  destruct (operand_value m s vals e lo hi W O NO NZ) as (f2 & v2 & OF & D2 & S2 & C & STABLE). rewrite add_all_loop.
  set (q := rat v2 (a_scale (fa f2))) in *.
  assert (LEM : forall all, (forall t, In t all -> In t ts) -> undisturbed e all -> NoDup (map fst all) ->
    exists s', loop (nat * opts) (fun s t => add_to m sub e s t) s all = Ok s' /\
      stored_all m all (fun i => opq (if sub then ASub else AAdd) (num (mi s) vals i) q) s s').
  { intros all SUB UD' ND'.
    pose proof (loop_ok m (nat * opts) (fun s t => add_to m sub e s t) fst snd (fun i => opq (if sub then ASub else AAdd) (num (mi s) vals i) q)
      (fun l sx => undisturbed e l /\ (forall t, In t l -> In t ts) /\ (l = [] \/ forall i, reads e i -> item sx i = item s i)) s) as LP.
    destruct LP with (ts := all) (s := s) as (s' & E & _ & L & R & U & V1 & V2 & V3); auto.
    - intros sx t rr (I1 & I2 & I3) LI LX TG EQ. destruct I3 as [I3|I3]; [discriminate I3|].
      destruct (STABLE sx I3) as [OX FX]. unfold add_to. rewrite FX, OX, EQ.
      pose proof (I2 t (or_introl eq_refl)) as HT. destruct (OPS t HT) as ((LT & DT) & ST).
      assert (G : negb (opt_nonzero (snd t)) && fits_operand s e = false).
      { destruct (GF t HT) as [G|G]; rewrite G; [reflexivity|apply andb_false_r]. }
      rewrite G. set (f1 := item s (fst t)) in *. change (denotes (c_ebcdic m) f1 (vals (fst t))) in DT.
      set (d1 := mkDec (vals (fst t)) (a_scale (fa f1))). set (d2 := mkDec v2 (a_scale (fa f2))).
      assert (N1 : not_nan d1) by (unfold not_nan, d1, DECIMAL_NAN; cbn [dsc]; lia).
      assert (N2 : not_nan d2) by (unfold not_nan, d2, DECIMAL_NAN; cbn [dsc]; lia).
      set (R := if sub then dec_sub d1 d2 else dec_add d1 d2).
      assert (RR : not_nan R /\ (decQ R == opq (if sub then ASub else AAdd) (num (mi s) vals (fst t)) q)%Q).
      { unfold R. destruct sub.
        - destruct (dec_sub_exact d1 d2 N1 N2) as [E S]. split; [unfold not_nan, DECIMAL_NAN; rewrite S; unfold d1, d2; cbn [dsc]; lia|exact E].
        - destruct (dec_add_exact d1 d2 N1 N2) as [E S]. split; [unfold not_nan, DECIMAL_NAN; rewrite S; unfold d1, d2; cbn [dsc]; lia|exact E]. }
      destruct RR as [NR QR].
      assert (CA : (if sub then cob_sub m f1 f2 (snd t) else cob_add m f1 f2 (snd t)) = store_result m R f1 (snd t)).
      { assert (SR : store_result m R f1 (snd t) = get_field m R f1 (snd t)).
        { unfold store_result. pose proof (denotes_not_edited _ _ _ DT) as NT. destruct (a_type (fa f1)); try reflexivity. congruence. }
        rewrite SR. unfold R. destruct sub; [exact (cob_sub_get m f1 f2 (snd t) _ _ DT D2)|exact (cob_add_get m f1 f2 (snd t) _ _ DT D2)]. }
      rewrite CA. destruct (store_ok m R f1 (snd t) _ TG NR QR (MD q t C HT)) as (st & ES & RS & OV1 & OV2 & _).
      rewrite ES. cbn [obind]. eexists _, (st_f st), (st_exc st). split; [reflexivity|]. cbn [mi mx]. split; [|auto 10].
      assert (TAIL : forall l : list (nat * opts), l <> [] -> removelast (t :: l) = t :: removelast l) by (intros l NL; destruct l; [contradiction|reflexivity]).
      destruct rr as [|t2 rr]; [split; [|split; [intros t' []|now left]]; intros i RD; cbn; auto|].
      split; [|split].
      + intros i RD IN. apply (I1 i RD). rewrite (TAIL (t2 :: rr)) by discriminate. cbn [map]. now right.
      + intros t' H'. apply I2. now right.
      + right. intros i RD. unfold item. cbn [mi]. rewrite nth_set_nth.
        destruct (Nat.eqb_spec i (fst t)) as [EI|NE]; cbn [andb]; [|exact (I3 i RD)].
        exfalso. apply (I1 i RD). rewrite (TAIL (t2 :: rr)) by discriminate. cbn [map]. left. now symmetry.
    - exists s'. split; [exact E|]. unfold stored_all. auto 10. }
  destruct (LEM ts ltac:(auto) UD ND) as (s' & E & ST). exists s', q. auto.
Qed.
