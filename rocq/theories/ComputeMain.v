(** Arithmetic statements: their meaning (proof file). *)
From Coq Require Import QArith Qabs.
From Verif Require Import Base BaseFacts Field Sign Decimal SpecNum Numeric SpecStore NumFacts.
From Verif Require Import DispProofs DecProofs BinProofs PackedProofs StoreProofs.
From Verif Require Import BinOps Move Edited MoveAll SpecMove SpecEdit EditStore EditStoreProofs Compute SpecCompute ComputeProofs ComputeStore.
Local Open Scope Z_scope.

Lemma computes_exact : forall items vals e q, computes items vals e q -> has_div e = false -> (q == exact items vals e)%Q.
Proof.
  intros items vals e q H. induction H as [q E|s ds sc q E|i q E|i q E|x y a b q C1 I1 C2 I2 E|x y a b q C1 I1 C2 I2 E|x y a b q C1 I1 C2 I2 E
     |x y a b q k w C1 I1 C2 I2 NZ K T E|x y a n q C1 I1 WH E]; intros HD; cbn [has_div orb] in HD; try exact E; try discriminate HD;
     cbn [exact]; apply orb_false_iff in HD; destruct HD as [D1 D2]; rewrite E, (I1 D1), ?(I2 D2); try apply Qeq_refl.
  destruct WH; apply Qeq_refl.
Qed.
Lemma fails_div : forall items vals e, fails items vals e -> has_div e = true.
Proof.
  intros items vals e H. induction H; cbn [has_div]; [reflexivity| |]; rewrite IHfails, ?orb_true_r; try reflexivity.
Qed.
Lemma not_op_no_div : forall e, is_op e = false -> has_div e = false.
Proof. intros [] H; try reflexivity. discriminate. Qed.

Lemma exact_sum : forall items vals xs x, (exact items vals (binary_list AAdd x xs) == exact items vals x + total items vals xs)%Q.
Proof.
  unfold binary_list. induction xs as [|y xs IH]; intros x; cbn [fold_left total]; [ring|]. rewrite IH. cbn [exact]. ring.
Qed.
Lemma exact_diff : forall items vals xs x, (exact items vals (binary_list ASub x xs) == exact items vals x - total items vals xs)%Q.
Proof.
  unfold binary_list. induction xs as [|y xs IH]; intros x; cbn [fold_left total]; [ring|]. rewrite IH. cbn [exact]. ring.
Qed.
Lemma list_no_div : forall op xs x, op <> ADiv -> has_div x = false -> (forall y, In y xs -> has_div y = false) -> has_div (binary_list op x xs) = false.
Proof.
  unfold binary_list. intros op xs. induction xs as [|y xs IH]; intros x NO HX HY; cbn [fold_left]; [exact HX|].
  apply IH; auto; [|intros z Hz; apply HY; now right]. cbn [has_div]. rewrite HX, (HY y (or_introl eq_refl)). destruct op; try reflexivity. congruence.
Qed.
Lemma list_fine : forall items vals m op, op = AAdd \/ op = ASub -> forall xs x,
  operand_fine items vals m x -> (forall y, In y xs -> operand_fine items vals m y) -> operand_fine items vals m (binary_list op x xs).
Proof.
  unfold binary_list. intros items vals m op HO. induction xs as [|y xs IH]; intros x HX HY; cbn [fold_left]; [exact HX|].
  apply IH; [|intros z Hz; apply HY; now right].
  destruct HX as (O1 & a & b & W1 & L1). destruct (HY y (or_introl eq_refl)) as (O2 & c & d & W2 & L2).
  split; [now constructor|]. exists (Z.max a c), (Z.max b d). split; [|lia]. destruct HO as [-> | ->]; now constructor.
Qed.

(** Values up to equality of rationals. *)
Lemma rounded_iff : forall o q q' s w, (q == q')%Q -> (rounded o q s w <-> rounded o q' s w).
Proof. intros o q q' s w E. split; apply rounded_Qeq; [exact E|now symmetry]. Qed.
Lemma result_Qeq : forall m o f q q' f', (q == q')%Q -> result_in m o f q f' -> result_in m o f q' f'.
Proof.
  intros m o f q q' f' E (F & N & D). split; [exact F|]. split.
  - intros I. destruct (N I) as (N1 & N2 & N3). split; [exact N1|]. split; [exact N2|]. intros w W. apply N3. now apply (rounded_iff o q q').
  - intros p ET w W. apply (D p ET). now apply (rounded_iff o q q').
Qed.
Lemma overflows_Qeq : forall m o f q q', (q == q')%Q -> (overflows m o f q <-> overflows m o f q').
Proof. intros m o f q q' E. split; intros (w & W & X); exists w; (split; [|exact X]); now apply (rounded_iff o q q' _ _ E). Qed.
Lemma stored_map : forall m ts v v' s s', 
  (forall t f', In t ts -> result_in m (snd t) (item s (fst t)) (v (fst t)) f' -> result_in m (snd t) (item s (fst t)) (v' (fst t)) f') ->
  (forall t, In t ts -> overflows m (snd t) (item s (fst t)) (v (fst t)) <-> overflows m (snd t) (item s (fst t)) (v' (fst t))) ->
  stored_all m ts v s s' -> stored_all m ts v' s s'.
Proof.
  intros m ts v v' s s' HR HO (L & R & U & V1 & V2 & V3). split; [exact L|]. split; [intros t H; apply HR; auto|]. split; [exact U|].
  split; [intros (t & H & O); apply V1; exists t; split; [exact H|now apply HO]|]. split; [|exact V3].
  intros H. apply V2. intros t Ht O. apply (H t Ht). now apply HO.
Qed.
Lemma stored_Qeq : forall m ts v v' s s', (forall i, In i (map fst ts) -> (v i == v' i)%Q) -> stored_all m ts v s s' -> stored_all m ts v' s s'.
Proof.
  intros m ts v v' s s' E. apply stored_map.
  - intros t f' H. apply result_Qeq, E, in_map, H.
  - intros t H. apply overflows_Qeq, E, in_map, H.
Qed.
Lemma moderate_Qeq : forall q q', (q == q')%Q -> moderate q -> moderate q'.
Proof. intros q q' E H. unfold moderate in *. now rewrite <- E. Qed.

(** ** The statements *)
Lemma giving_exact : forall m vals e ts s, operand_fine (mi s) vals m e -> has_div e = false -> targets_ok m s ts ->
  moderate (exact (mi s) vals e) ->
  exists s', exec m s (decimal_assign (mi s) ts None e) = Ok s' /\ stored_all m ts (fun _ => exact (mi s) vals e) s s'.
Proof.
  intros m vals e ts s (O & lo & hi & W & _) HD TK MD.
  destruct (assign_ok m vals e lo hi ts s W O TK) as (s' & E & [ (q & C & ST) | (F & _) ]).
  - intros q C. apply (moderate_Qeq (exact (mi s) vals e)); [symmetry; now apply computes_exact|exact MD].
  - exists s'. split; [exact E|]. apply (stored_Qeq m ts (fun _ => q)); [|exact ST]. intros _ _. now apply computes_exact.
  - apply fails_div in F. congruence.
Qed.
Lemma updating_exact : forall k m vals e ts s, k <> APow -> operand_fine (mi s) vals m e -> has_div e = false -> targets_ok m s ts ->
  (forall t, In t ts -> operand_ok (mi s) vals m (fst t) /\ direct_ok (mi s) vals (fst t) /\ -63 <= a_scale (fa (item s (fst t)))) ->
  (forall t, In t ts -> moderate (opq k (num (mi s) vals (fst t)) (exact (mi s) vals e))) ->
  exists s', exec m s (decimal_assign (mi s) ts (Some k) e) = Ok s' /\
    (k = ADiv /\ (exact (mi s) vals e == 0)%Q -> mi s' = mi s /\ (ts <> [] -> mx s' = true)) /\
    (~ (k = ADiv /\ (exact (mi s) vals e == 0)%Q) -> stored_all m ts (fun i => opq k (num (mi s) vals i) (exact (mi s) vals e)) s s').
Proof.
  intros k m vals e ts s NP (O & lo & hi & W & LO) HD TK UP MD.
  assert (OE : forall q q' i, (q == q')%Q -> (opq k (num (mi s) vals i) q == opq k (num (mi s) vals i) q')%Q).
  { intros q q' i E. destruct k; cbn [opq]; try rewrite E; apply Qeq_refl. }
  destruct (update_ok k m vals e lo hi ts s NP W O TK) as (s' & E & [ (q & C & NZ & ST) | (F & M & X) ]).
  - intros t H. destruct (UP t H) as (U1 & U2 & U3). split; [exact U1|]. split; [exact U2|]. split; [lia|]. intros _. lia.
  - intros q t C H. apply (moderate_Qeq (opq k (num (mi s) vals (fst t)) (exact (mi s) vals e))); [|now apply MD].
    apply OE. symmetry. now apply computes_exact.
  - pose proof (computes_exact _ _ _ _ C HD) as QE. exists s'. split; [exact E|]. split.
    + intros (K & Z). exfalso. apply (NZ K). now rewrite QE.
    + intros _. apply (stored_Qeq m ts (fun i => opq k (num (mi s) vals i) q)); [|exact ST]. intros i _. now apply OE.
  - exists s'. split; [exact E|]. split; [auto|]. intros NZ. exfalso. destruct F as [F|(K & q & C & Z)]; [apply fails_div in F; congruence|].
    apply NZ. split; [exact K|]. rewrite <- (computes_exact _ _ _ _ C HD). exact Z.
Qed.

Lemma divide_giving : forall m vals x y ts s, operand_fine (mi s) vals m x -> operand_fine (mi s) vals m y ->
  has_div x = false -> has_div y = false -> targets_ok m s ts ->
  moderate (exact (mi s) vals x / exact (mi s) vals y) ->
  exists s', exec m s (decimal_assign (mi s) ts None (EBin ADiv x y)) = Ok s' /\
    ((exact (mi s) vals y == 0)%Q -> mi s' = mi s /\ mx s' = true) /\
    (~ (exact (mi s) vals y == 0)%Q -> stored_all m ts (fun _ => exact (mi s) vals x / exact (mi s) vals y)%Q s s').
Proof.
  intros m vals x y ts s (O1 & a & b & W1 & _) (O2 & c & d & W2 & _) DX DY TK MD.
  assert (CV : forall q, computes (mi s) vals (EBin ADiv x y) q -> ~ (exact (mi s) vals y == 0)%Q /\
            exists k w, 37 <= k /\ trunc_at (exact (mi s) vals x / exact (mi s) vals y) k w /\ (q == rat w k)%Q).
  { intros q C. inversion C as [| | | | | | |x0 y0 a0 b0 q0 k w C1 C2 NZ K T E|]; subst.
    pose proof (computes_exact _ _ _ _ C1 DX) as E1. pose proof (computes_exact _ _ _ _ C2 DY) as E2.
    split; [now rewrite <- E2|]. exists k, w. split; [exact K|]. split; [|exact E].
    unfold trunc_at in *. rewrite <- E1, <- E2. exact T. }
  assert (AP : forall k w, 37 <= k -> trunc_at (exact (mi s) vals x / exact (mi s) vals y) k w -> approx (exact (mi s) vals x / exact (mi s) vals y) (mkDec w k)).
  { intros k w K T. right. cbn [dsc dv]. auto. }
  destruct (assign_ok m vals (EBin ADiv x y) 0 (37 + Z.max 0 (b - c)) ts s (pl_div _ _ x y a b c d W1 W2) ltac:(now constructor) TK)
    as (s' & E & [ (q & C & ST) | (F & M & X) ]).
  - intros q C. destruct (CV q C) as (NZ & k & w & K & T & E). apply (moderate_Qeq (rat w k)); [now symmetry|].
    exact (approx_moderate _ _ (AP k w K T) MD).
  - exists s'. split; [exact E|]. destruct (CV q C) as (NZ & k & w & K & T & QE). split; [contradiction|]. intros _.
    apply (stored_Qeq m ts (fun _ => q) (fun _ => decQ (mkDec w k))) in ST; [|intros _ _; exact QE].
    revert ST. apply stored_map.
    + intros t f' H. apply approx_result; [apply (proj2 TK t H)|now apply AP].
    + intros t H. symmetry. apply approx_overflows; [apply (proj2 TK t H)|now apply AP].
  - exists s'. split; [exact E|]. split; [auto|]. intros NZ. exfalso. inversion F as [x0 y0 b0 C Z|op x0 y0 FX|op x0 y0 FY]; subst.
    + apply NZ. now rewrite <- (computes_exact _ _ _ _ C DY).
    + apply fails_div in FX. congruence.
    + apply fails_div in FY. congruence.
Qed.

Theorem statement_ok : forall m vals st s, fine m s vals st ->
  (forall t, In t (receivers st) -> moderate (meaning (mi s) vals st (fst t))) -> receivers st <> [] ->
  exists s', run m st s = Ok s' /\
    ((divisor (mi s) vals st == 0)%Q -> mi s' = mi s /\ mx s' = true) /\
    (~ (divisor (mi s) vals st == 0)%Q -> stored_all m (receivers st) (meaning (mi s) vals st) s s').
Proof.
  intros m vals st s (FO & TK & UP & SI) MD NE.
  assert (ONE : ~ (1 == 0)%Q) by discriminate.
  assert (M1 : forall v, (forall i, v i = v 0%nat) -> (forall t, In t (receivers st) -> moderate (v (fst t))) -> moderate (v 0%nat)).
  { intros v HV H. destruct (receivers st) as [|t r]; [contradiction|]. rewrite <- (HV (fst t)). apply H. now left. }
  destruct st as [x xs ts|x xs ts|x xs ts|xs y ts|x ts|x y ts|x ts|x y ts|ts e]; cbn [receivers meaning divisor operands updating run] in *.
  - (* ADD TO *)
    assert (HX : forall z, In z (x :: xs) -> operand_fine (mi s) vals m z /\ has_div z = false).
    { intros z Hz. destruct (FO z Hz) as [A B]. split; [exact A|now apply not_op_no_div]. }
    assert (HS : (exact (mi s) vals (binary_list AAdd x xs) == total (mi s) vals (x :: xs))%Q) by (cbn [total]; apply exact_sum).
    destruct xs as [|y xs].
    + cbn [binary_list fold_left]. unfold binary_list. cbn [fold_left]. destruct SI as (NZ & UD & GF). destruct (FO x (or_introl eq_refl)) as [(O & lo & hi & W & LO) NO].
      unfold emit_arithmetic. rewrite NO.
      assert (QX : forall q, computes (mi s) vals x q -> (q == total (mi s) vals [x])%Q).
      { intros q C. rewrite (computes_exact _ _ _ _ C (not_op_no_div x NO)). cbn [total]. ring. }
      destruct (add_all_ok false m vals x lo hi ts s W O NO NZ TK) as (s' & q & E & C & ST); auto.
      * intros t H. destruct (UP eq_refl t H) as (U1 & U2 & U3). split; [exact U1|lia].
      * intros q t C H. apply (moderate_Qeq (num (mi s) vals (fst t) + total (mi s) vals [x])); [|now apply MD]. cbn [opq]. now rewrite (QX q C).
      * exists s'. split; [exact E|]. split; [intros Z; now apply ONE in Z|]. intros _.
        apply (stored_Qeq _ _ (fun i => opq AAdd (num (mi s) vals i) q)); [|exact ST]. intros i _. cbn [opq]. now rewrite (QX q C).
    + set (l := binary_list AAdd x (y :: xs)) in *. assert (OP : is_op l = true).
      { unfold l, binary_list. cbn [fold_left]. generalize (EBin AAdd x y) (eq_refl : is_op (EBin AAdd x y) = true). generalize xs. clear.
        induction xs as [|z xs IH]; intros e He; cbn [fold_left]; [exact He|]. now apply IH. }
      unfold emit_arithmetic. rewrite OP.
      destruct (updating_exact AAdd m vals l ts s) as (s' & E & _ & ST); auto; try discriminate.
      * apply list_fine; [auto|apply HX; now left|intros z Hz; apply HX; now right].
      * apply list_no_div; [discriminate|apply HX; now left|intros z Hz; apply HX; now right].
      * intros t H. cbn [opq]. apply (moderate_Qeq (num (mi s) vals (fst t) + total (mi s) vals (x :: y :: xs))); [now rewrite HS|now apply MD].
      * exists s'. split; [exact E|]. split; [intros Z; now apply ONE in Z|]. intros _.
        apply (stored_Qeq _ _ (fun i => opq AAdd (num (mi s) vals i) (exact (mi s) vals l))).
        -- intros i _. cbn [opq]. now rewrite HS.
        -- apply ST. intros (X & _). discriminate.
  - (* ADD GIVING *)
    assert (HX : forall z, In z (x :: xs) -> operand_fine (mi s) vals m z /\ has_div z = false).
    { intros z Hz. destruct (FO z Hz) as [A B]. split; [exact A|now apply not_op_no_div]. }
    assert (HS : (exact (mi s) vals (binary_list AAdd x xs) == total (mi s) vals (x :: xs))%Q) by (cbn [total]; apply exact_sum).
    unfold emit_arithmetic. destruct (giving_exact m vals (binary_list AAdd x xs) ts s) as (s' & E & ST); auto.
    + apply list_fine; [auto|apply HX; now left|intros z Hz; apply HX; now right].
    + apply list_no_div; [discriminate|apply HX; now left|intros z Hz; apply HX; now right].
    + eapply moderate_Qeq; [symmetry; exact HS|]. exact (M1 (fun _ => total (mi s) vals (x :: xs)) ltac:(reflexivity) MD).
    + exists s'. split; [exact E|]. split; [intros Z; now apply ONE in Z|]. intros _. revert ST. apply stored_Qeq. intros i _. exact HS.
  - (* SUBTRACT FROM *)
    assert (HX : forall z, In z (x :: xs) -> operand_fine (mi s) vals m z /\ has_div z = false).
    { intros z Hz. destruct (FO z Hz) as [A B]. split; [exact A|now apply not_op_no_div]. }
    assert (HS : (exact (mi s) vals (binary_list AAdd x xs) == total (mi s) vals (x :: xs))%Q) by (cbn [total]; apply exact_sum).
    destruct xs as [|y xs].
    + unfold binary_list. cbn [fold_left]. destruct SI as (NZ & UD & GF). destruct (FO x (or_introl eq_refl)) as [(O & lo & hi & W & LO) NO].
      unfold emit_arithmetic. rewrite NO.
      assert (QX : forall q, computes (mi s) vals x q -> (q == total (mi s) vals [x])%Q).
      { intros q C. rewrite (computes_exact _ _ _ _ C (not_op_no_div x NO)). cbn [total]. ring. }
      destruct (add_all_ok true m vals x lo hi ts s W O NO NZ TK) as (s' & q & E & C & ST); auto.
      * intros t H. destruct (UP eq_refl t H) as (U1 & U2 & U3). split; [exact U1|lia].
      * intros q t C H. apply (moderate_Qeq (num (mi s) vals (fst t) - total (mi s) vals [x])); [|now apply MD]. cbn [opq]. now rewrite (QX q C).
      * exists s'. split; [exact E|]. split; [intros Z; now apply ONE in Z|]. intros _.
        apply (stored_Qeq _ _ (fun i => opq ASub (num (mi s) vals i) q)); [|exact ST]. intros i _. cbn [opq]. now rewrite (QX q C).
    + set (l := binary_list AAdd x (y :: xs)) in *. assert (OP : is_op l = true).
      { unfold l, binary_list. cbn [fold_left]. generalize (EBin AAdd x y) (eq_refl : is_op (EBin AAdd x y) = true). generalize xs. clear.
        induction xs as [|z xs IH]; intros e He; cbn [fold_left]; [exact He|]. now apply IH. }
      unfold emit_arithmetic. rewrite OP.
      destruct (updating_exact ASub m vals l ts s) as (s' & E & _ & ST); auto; try discriminate.
      * apply list_fine; [auto|apply HX; now left|intros z Hz; apply HX; now right].
      * apply list_no_div; [discriminate|apply HX; now left|intros z Hz; apply HX; now right].
      * intros t H. cbn [opq]. apply (moderate_Qeq (num (mi s) vals (fst t) - total (mi s) vals (x :: y :: xs))); [now rewrite HS|now apply MD].
      * exists s'. split; [exact E|]. split; [intros Z; now apply ONE in Z|]. intros _.
        apply (stored_Qeq _ _ (fun i => opq ASub (num (mi s) vals i) (exact (mi s) vals l))).
        -- intros i _. cbn [opq]. now rewrite HS.
        -- apply ST. intros (X & _). discriminate.
  - (* SUBTRACT GIVING *)
    assert (HX : forall z, In z (y :: xs) -> operand_fine (mi s) vals m z /\ has_div z = false).
    { intros z Hz. destruct (FO z Hz) as [A B]. split; [exact A|now apply not_op_no_div]. }
    assert (HS : (exact (mi s) vals (binary_list ASub y xs) == exact (mi s) vals y - total (mi s) vals xs)%Q) by apply exact_diff.
    unfold emit_arithmetic. destruct (giving_exact m vals (binary_list ASub y xs) ts s) as (s' & E & ST); auto.
    + apply list_fine; [auto|apply HX; now left|intros z Hz; apply HX; now right].
    + apply list_no_div; [discriminate|apply HX; now left|intros z Hz; apply HX; now right].
    + eapply moderate_Qeq; [symmetry; exact HS|]. exact (M1 (fun _ => exact (mi s) vals y - total (mi s) vals xs)%Q ltac:(reflexivity) MD).
    + exists s'. split; [exact E|]. split; [intros Z; now apply ONE in Z|]. intros _. revert ST. apply stored_Qeq. intros i _. exact HS.
  - (* MULTIPLY BY *)
    destruct (FO x (or_introl eq_refl)) as [F NO]. unfold emit_arithmetic.
    destruct (updating_exact AMul m vals x ts s) as (s' & E & _ & ST); auto; try discriminate; [now apply not_op_no_div|].
    exists s'. split; [exact E|]. split; [intros Z; now apply ONE in Z|]. intros _. apply ST. intros (X & _). discriminate.
  - (* MULTIPLY GIVING *)
    destruct (FO x (or_introl eq_refl)) as [(O1 & a & b & W1 & L1) NX]. destruct (FO y (or_intror (or_introl eq_refl))) as [(O2 & c & d & W2 & L2) NY].
    unfold emit_arithmetic.
    destruct (assign_ok m vals (EBin AMul x y) (a + c) (b + d) ts s (pl_mul _ _ x y a b c d W1 W2 ltac:(lia)) ltac:(now constructor) TK)
      as (s' & E & [ (q & C & ST) | (F & _) ]).
    + intros q C. apply (moderate_Qeq (exact (mi s) vals (EBin AMul x y))).
      * symmetry. apply (computes_exact _ _ _ _ C). cbn [has_div]. now rewrite (not_op_no_div x NX), (not_op_no_div y NY).
      * exact (M1 (fun _ => exact (mi s) vals x * exact (mi s) vals y)%Q ltac:(reflexivity) MD).
    + exists s'. split; [exact E|]. split; [intros Z; now apply ONE in Z|]. intros _. revert ST. apply stored_Qeq. intros i _.
      rewrite (computes_exact _ _ _ _ C); [apply Qeq_refl|]. cbn [has_div]. now rewrite (not_op_no_div x NX), (not_op_no_div y NY).
    + apply fails_div in F. cbn [has_div] in F. rewrite (not_op_no_div x NX), (not_op_no_div y NY) in F. discriminate.
  - (* DIVIDE INTO *)
    destruct (FO x (or_introl eq_refl)) as [F NO]. unfold emit_arithmetic.
    destruct (updating_exact ADiv m vals x ts s) as (s' & E & Z & ST); auto; try discriminate; [now apply not_op_no_div|].
    exists s'. split; [exact E|]. split; [intros HZ; destruct (Z (conj eq_refl HZ)) as [A B]; auto|]. intros HZ. apply ST. intros (_ & X). contradiction.
  - (* DIVIDE GIVING *)
    destruct (FO x (or_introl eq_refl)) as [F1 NX]. destruct (FO y (or_intror (or_introl eq_refl))) as [F2 NY]. unfold emit_arithmetic.
    exact (divide_giving m vals x y ts s F1 F2 (not_op_no_div x NX) (not_op_no_div y NY) TK (M1 (fun _ => exact (mi s) vals x / exact (mi s) vals y)%Q ltac:(reflexivity) MD)).
  - (* COMPUTE *)
    destruct (FO e (or_introl eq_refl)) as [F HD]. unfold emit_arithmetic.
    destruct (giving_exact m vals e ts s F HD TK (M1 (fun _ => exact (mi s) vals e) ltac:(reflexivity) MD)) as (s' & E & ST).
    exists s'. split; [exact E|]. split; [intros Z; now apply ONE in Z|]. auto.
Qed.
