(** Arithmetic expressions on the decimal registers (proof file). *)
From Coq Require Import QArith Qabs.
From Verif Require Import Base BaseFacts Field Sign Decimal SpecNum Numeric SpecStore NumFacts.
From Verif Require Import DispProofs DecProofs BinProofs PackedProofs StoreProofs.
From Verif Require Import PackedInt PackedIntProofs DispInt DispIntProofs P_Int BinOps.
From Verif Require Import Move Edited MoveAll SpecMove MoveProofs MovePacked MoveBin MoveNum IntAccess SpecEdit EditStore EditStoreProofs Compute SpecCompute.
Local Open Scope Z_scope.

Lemma denotes_display_small : forall e f x, denotes e f x -> a_type (fa f) = TDisplay ->
  Z.abs x < 10 ^ Z.of_nat (f_size f) /\ (a_sign (fa f) = false -> 0 <= x) /\ (1 <= data_size f)%nat /\ (1 <= f_size f)%nat.
Proof.
  intros e f x H T. destruct (denotes_display_inv e f x H T) as (neg & ds & E & X & NE & DG & SG & AO).
  assert (L : (length ds <= f_size f)%nat).
  { rewrite E. unfold f_size. cbn [fd]. rewrite zoned_length by auto. lia. }
  assert (DS : data_size f = length ds) by (rewrite E; now apply data_size_zoned).
  pose proof (digits_value_bound ds DG) as B. 
  assert (P : 10 ^ Z.of_nat (length ds) <= 10 ^ Z.of_nat (f_size f)) by (apply Z.pow_le_mono_r; lia).
  assert (L1 : (1 <= length ds)%nat) by (destruct ds; [congruence|cbn [length]; lia]).
  rewrite X, DS. split; [|split; [|split; lia]].
  - unfold signed_value. destruct neg; lia.
  - intros S. rewrite (SG S). unfold signed_value. lia.
Qed.

Lemma bin_load : forall f v, denotes false f v -> a_type (fa f) = TBinary ->
  (if a_sign (fa f) then as_signed (f_size f) (le_u (if a_swap (fa f) then rev (fd f) else fd f))
   else le_u (if a_swap (fa f) then rev (fd f) else fd f)) = v.
Proof.
  intros f v H T. destruct H as [a neg ds Ht|a neg ds Ht|a l Ht HL Hb]; cbn [fa fd] in *; try congruence.
  unfold bin_value, bin_unsigned, as_signed, f_size. cbn [fd]. rewrite le_u_value.
  destruct (a_sign a); cbn [andb]; reflexivity.
Qed.

Lemma bin_small : forall e f v, denotes e f v -> a_type (fa f) = TBinary -> (f_size f <= 4)%nat ->
  if a_sign (fa f) then - 2 ^ 31 <= v < 2 ^ 31 else 0 <= v < 2 ^ 32.
Proof.
  intros e f v H T S. destruct H as [a neg ds Ht|a neg ds Ht|a l Ht HL Hb]; cbn [fa fd] in *; try congruence.
  unfold f_size in S. cbn [fd] in S. unfold bin_value, bin_unsigned.
  set (l' := if a_swap a then rev l else l).
  assert (LE : length l' = length l) by (unfold l'; destruct (a_swap a); [apply rev_length|reflexivity]).
  assert (BB : 0 <= le_value l' < 256 ^ Z.of_nat (length l)).
  { rewrite <- LE. apply le_value_bound. unfold l'. destruct (a_swap a); [|exact Hb]. unfold bytes_ok in *. rewrite Forall_forall in *. intros x X. apply Hb. now apply in_rev. }
  assert (L4 : (length l = 1 \/ length l = 2 \/ length l = 3 \/ length l = 4)%nat) by lia.
  revert BB. destruct L4 as [-> | [-> | [-> | ->]]]; cbn [Z.of_nat Pos.of_succ_nat Pos.succ]; intros BB.
  all: change (256 ^ 1) with 256 in *; change (256 ^ 2) with 65536 in *; change (256 ^ 3) with 16777216 in *; change (256 ^ 4) with 4294967296 in *.
  all: change (256 / 2) with 128; change (65536 / 2) with 32768; change (16777216 / 2) with 8388608; change (4294967296 / 2) with 2147483648.
  all: change (2 ^ 31) with 2147483648; change (2 ^ 32) with 4294967296.
  all: destruct (a_sign a); cbn [andb]; [destruct (Z.leb_spec 128 (le_value l')), (Z.leb_spec 32768 (le_value l')), (Z.leb_spec 8388608 (le_value l')), (Z.leb_spec 2147483648 (le_value l'))|]; lia.
Qed.

(** An item that the compiler handles as an int. *)
Lemma load_int : forall m items vals i, operand_ok items vals m i -> direct_ok items vals i ->
  let f := nth i items nil_item in fits_int f = true ->
  exists n, output_integer m f = Ok (n, f) /\ (rat n 0 == num items vals i)%Q /\
    (if a_sign (fa f) then s32 n else n mod 2 ^ 32) = n.
Proof.
  intros m items vals i (LI & D) DO f F. unfold num. fold f in D |- *. unfold direct_ok in DO. fold f in DO. cbv zeta in DO.
  set (v := vals i) in *. set (sc := a_scale (fa f)) in *.
  destruct (denotes_type _ _ _ D) as [T|[T|T]]; unfold fits_int in F; rewrite T in F; unfold output_integer; rewrite T; fold sc in F |- *.
  - apply andb_prop in F. destruct F as [F1 F2]. apply Nat.ltb_lt in F1. apply Z.leb_le in F2.
    destruct (denotes_display_small _ f v D T) as (B & SG & DS & FS).
    assert (B9 : Z.abs v < 10 ^ 9). { eapply Z.lt_le_trans; [exact B|]. apply Z.pow_le_mono_r; lia. }
    change (10 ^ 9) with 1000000000 in B9.
    assert (W : -10 < sc /\ Z.abs (v * 10 ^ (- sc)) < 2 ^ 31).
    { rewrite Z.abs_mul, (Z.abs_eq (10 ^ (- sc))) by (apply Z.pow_nonneg; lia).
      destruct DO as [DO|[[_ DO]|[[DO _]|[[DO _]|(_ & DO & DB)]]]]; try lia; try (rewrite T in DO; discriminate).
      replace sc with 0 by lia. change (10 ^ (- 0)) with 1. change (2 ^ 31) with 2147483648. split; lia. }
    destruct W as [W1 W2].
    assert (E : forall k, k = v * 10 ^ (- sc) -> (rat k 0 == rat v sc)%Q).
    { intros k ->. replace 0 with (sc + - sc) by lia. apply rat_scale. lia. }
    assert (G : get_int m f = Ok (v * 10 ^ (- sc), f)).
    { apply (get_int_spec m f v); auto; try (rewrite T; discriminate).
      - fold sc. intros _. lia.
      - fold sc. pose proof (trunc_at_exact v sc 0 ltac:(lia)) as X. replace (0 - sc) with (- sc) in X by lia. exact X.
      - unfold INT_MAX. change (2 ^ 31) with 2147483648 in W2. lia. }
    assert (CS : forall n, Z.abs n < 2 ^ 31 -> (a_sign (fa f) = false -> 0 <= n) ->
               (if a_sign (fa f) then s32 n else n mod 2 ^ 32) = n).
    { intros n Hn Hs. change (2 ^ 31) with 2147483648 in Hn. destruct (a_sign (fa f)).
      - apply s32_id. unfold is_int, INT_MIN, INT_MAX. lia.
      - apply Z.mod_small. change (2 ^ 32) with 4294967296. specialize (Hs eq_refl). lia. }
    assert (N0 : a_sign (fa f) = false -> 0 <= v * 10 ^ (- sc)).
    { intros S. apply Z.mul_nonneg_nonneg; [apply SG; exact S|apply Z.pow_nonneg; lia]. }
    destruct ((0 <=? sc) && (0 <? Z.of_nat (f_size f) - sc) && (Z.of_nat (f_size f) - sc <=? 9) && negb (a_sign (fa f))) eqn:C.
    + apply andb_prop in C. destruct C as [C C4]. apply andb_prop in C. destruct C as [C C3]. apply andb_prop in C. destruct C as [C1 C2].
      apply Z.leb_le in C1. assert (Z0 : sc = 0) by lia. rewrite Z0 in *. rewrite Z.sub_0_r, Nat2Z.id. unfold f_size. rewrite firstn_all.
      apply negb_true_iff in C4. rewrite (C12_inline_value _ f v D T C4) by lia. cbn [obind].
      exists v. split; [reflexivity|]. split; [apply Qeq_refl|]. apply CS; [change (2 ^ 31) with 2147483648; lia|exact SG].
    + rewrite G. exists (v * 10 ^ (- sc)). split; [reflexivity|]. split; [apply E; reflexivity|]. apply CS; assumption.
  - apply andb_prop in F. destruct F as [F2 F1]. apply Z.ltb_lt in F1. apply Z.leb_le in F2.
    assert (Z0 : sc = 0).
    { destruct DO as [DO|[[DO _]|[[_ DO]|[[DO _]|(DO & _)]]]]; try lia; rewrite T in DO; discriminate. }
    rewrite Z0. cbn [Z.eqb andb]. destruct (Z.ltb_spec (a_digits (fa f)) 10) as [_|X]; [|lia].
    destruct (denotes_packed_inv _ f v D T) as (neg & ds & Ef & Ev & NE & DG & LD & SG).
    pose proof (digits_value_bound ds DG) as B.
    assert (P : 10 ^ Z.of_nat (length ds) <= 10 ^ 9) by (apply Z.pow_le_mono_r; lia). change (10 ^ 9) with 1000000000 in P.
    assert (GP : get_packed_int f = Ok v).
    { transitivity (get_packed_int (mkField (fa f) (packed (fa f) neg ds))); [now f_equal|].
      rewrite Ev. apply get_packed_int_spec; auto. change (2 ^ 31) with 2147483648. lia. }
    rewrite GP. cbn [obind]. exists v. split; [reflexivity|]. split; [apply Qeq_refl|].
    assert (AB : Z.abs v < 1000000000) by (rewrite Ev; unfold signed_value; destruct neg; lia).
    destruct (a_sign (fa f)) eqn:AS.
    + apply s32_id. unfold is_int, INT_MIN, INT_MAX. lia.
    + apply Z.mod_small. change (2 ^ 32) with 4294967296. rewrite (SG eq_refl) in Ev. unfold signed_value in Ev. lia.
  - apply andb_prop in F. destruct F as [F2 F1]. apply Nat.leb_le in F1. apply Z.leb_le in F2.
    assert (Z0 : sc = 0).
    { destruct DO as [DO|[[DO _]|[[DO _]|[[_ DO]|(DO & _)]]]]; try lia; rewrite T in DO; discriminate. }
    rewrite Z0. pose proof (bin_small _ f v D T F1) as BS.
    assert (CS : (if a_sign (fa f) then s32 v else v mod 2 ^ 32) = v).
    { change (2 ^ 31) with 2147483648 in BS. change (2 ^ 32) with 4294967296 in *. destruct (a_sign (fa f)).
      - apply s32_id. unfold is_int, INT_MIN, INT_MAX. lia.
      - apply Z.mod_small. lia. }
    exists v. split; [|split; [apply Qeq_refl|exact CS]].
    assert (D' : denotes false f v).
    { clear - D T. destruct D as [a neg ds Ht|a neg ds Ht|a l Ht HL Hb]; cbn [fa] in T; try congruence. now constructor. }
    destruct ((f_size f =? 1)%nat || (f_size f =? 2)%nat || (f_size f =? 4)%nat || (f_size f =? 8)%nat) eqn:C.
    + rewrite (bin_load f v D' T). reflexivity.
    + assert (S3 : f_size f = 3%nat).
      { apply orb_false_iff in C. destruct C as [C _]. apply orb_false_iff in C. destruct C as [C C4]. apply orb_false_iff in C. destruct C as [C1 C2].
        apply Nat.eqb_neq in C1, C2, C4. assert (1 <= f_size f)%nat; [|lia]. destruct D' as [a neg ds Ht|a neg ds Ht|a l Ht HL Hb]; cbn [fa] in T; try congruence. unfold f_size. cbn [fd]. lia. }
      assert (B3 : Z.abs v < 2 ^ 31).
      { pose proof (bin_value_bound f v) as X. rewrite S3 in X. clear - D' T S3. destruct D' as [a neg ds Ht|a neg ds Ht|a l Ht HL Hb]; cbn [fa] in T; try congruence.
        unfold f_size in S3. cbn [fd] in S3. unfold bin_value, bin_unsigned. rewrite S3. change (256 ^ Z.of_nat 3) with 16777216. change (16777216 / 2) with 8388608. change (2 ^ 31) with 2147483648.
        assert (BB : 0 <= le_value (if a_swap a then rev l else l) < 16777216).
        { destruct (a_swap a).
          - pose proof (le_value_bound (rev l)) as Y. rewrite rev_length, S3 in Y. apply Y. unfold bytes_ok in *. rewrite Forall_forall in *. intros x Hx. apply Hb. now apply in_rev.
          - pose proof (le_value_bound l) as Y. rewrite S3 in Y. now apply Y. }
        destruct (a_sign a); cbn [andb]; [destruct (Z.leb_spec 8388608 (le_value (if a_swap a then rev l else l)))|]; lia. }
      assert (G : get_int m f = Ok (v, f)).
      { apply (get_int_spec m f v); auto; try (rewrite T; discriminate).
        - fold sc. rewrite Z0. apply trunc_self.
        - unfold INT_MAX. change (2 ^ 31) with 2147483648 in B3. lia. }
      rewrite G. cbn [obind fst snd]. destruct (a_sign (fa f)); [reflexivity|]. rewrite CS. reflexivity.
Qed.

(** ** Literals *)
Lemma lit_fold : forall ds a, fold_left (fun a d => a * 10 + d) ds a = digits_value_aux a ds.
Proof. induction ds as [|d r IH]; intros a; [reflexivity|]. cbn [fold_left digits_value_aux]. rewrite IH. f_equal. lia. Qed.
Lemma lit_int_value : forall s ds, lit_int s ds = signed_value (s <? 0) ds.
Proof. intros. unfold lit_int, signed_value, digits_value. rewrite lit_fold. reflexivity. Qed.
Lemma lit_denotes : forall e s ds sc, ds <> [] -> Forall is_dig ds -> -1 <= s <= 1 ->
  denotes e (lit_field s ds sc) (signed_value (s <? 0) ds).
Proof.
  intros e s ds sc NE DG S. unfold lit_field. set (a := mkAttr _ _ _ _ _ _ _ _ _ _ _).
  assert (Z : map (fun d => 48 + d) ds ++ (if s =? 0 then [] else [if s <? 0 then 45 else 43]) = zoned e a (s <? 0) ds).
  { unfold zoned, a. cbn [a_sign a_sep a_lead]. destruct (s =? 0) eqn:E; cbn [negb].
    - now rewrite app_nil_r.
    - unfold sign_char. reflexivity. }
  rewrite Z. apply den_display; auto.
  unfold a. cbn [a_sign]. intros X. apply negb_false_iff in X. apply Z.eqb_eq in X. subst s. reflexivity.
Qed.

(** ** Registers *)
Lemma set_reg_eq : forall r d v, set_reg r d v d = v.
Proof. intros. unfold set_reg. now rewrite Nat.eqb_refl. Qed.
Lemma set_reg_neq : forall r d v k, k <> d -> set_reg r d v k = r k.
Proof. intros r d v k H. unfold set_reg. apply Nat.eqb_neq in H. now rewrite H. Qed.
Lemma set_nth_same : forall (l : list field) i, set_nth i (nth i l nil_item) l = l.
Proof. induction l as [|x l IH]; intros [|i]; cbn; auto. now rewrite IH. Qed.
Lemma set_nth_length : forall (A : Type) (l : list A) i a, length (set_nth i a l) = length l.
Proof. induction l as [|x l IH]; intros [|i] a; cbn; auto. Qed.
Lemma nth_set_nth : forall (A : Type) (l : list A) i j a d, nth j (set_nth i a l) d =
  if (j =? i)%nat && (j <? length l)%nat then a else nth j l d.
Proof.
  induction l as [|x l IH]; intros [|i] [|j] a d; cbn; auto.
  - now rewrite andb_false_r.
  - rewrite IH. reflexivity.
Qed.

Lemma exec_app : forall m l1 l2 s, exec m s (l1 ++ l2) = do s' <- exec m s l1; exec m s' l2.
Proof.
  induction l1 as [|c l1 IH]; intros l2 s; [reflexivity|]. cbn [app exec].
  destruct (step m s c); cbn [obind]; auto.
Qed.

(** The state of a register after an expression was evaluated. *)
Definition in_reg items vals (e : expr) (lo hi : Z) (d : decimal) (x x' : bool) : Prop :=
  (exists q, computes items vals e q /\ (decQ d == q)%Q /\ lo <= dsc d <= hi /\ x' = x) \/
  (fails items vals e /\ dsc d = -128 /\ x' = true).

Lemma within_low : forall items vals e lo hi, within items vals e lo hi -> -128 < lo /\ lo <= hi.
Proof.
  intros items vals e lo hi H. induction H; try lia.
  split; [assumption|]. destruct (Z.eq_dec n 0) as [-> |]; [lia|].
  apply Z.mul_le_mono_nonneg_r; lia.
Qed.

Lemma set_one : forall m items vals e lo hi s d f, mi s = items ->
  (exists n sc, step m s f = Ok (mkMach (set_reg (mr s) d (mkDec n sc)) items (mx s)) /\ lo <= sc <= hi /\ computes items vals e (rat n sc)) ->
  exists s', exec m s [f] = Ok s' /\ mi s' = items /\ (forall k, k <> d -> mr s' k = mr s k) /\
    in_reg items vals e lo hi (mr s' d) (mx s) (mx s').
Proof.
  intros m items vals e lo hi s d f HM (n & sc & E & B & C). cbn [exec]. rewrite E. cbn [obind exec].
  eexists. split; [reflexivity|]. cbn [mi mr mx]. split; [reflexivity|]. split; [intros k K; now apply set_reg_neq|].
  left. exists (rat n sc). rewrite set_reg_eq. cbn [dsc dv]. split; [exact C|]. split; [apply Qeq_refl|]. split; [exact B|reflexivity].
Qed.

(** One operation on two registers. *)
Lemma nan_true : forall d1 d2, dsc d1 = -128 \/ dsc d2 = -128 -> nan_in d1 d2 = true.
Proof. intros d1 d2 [H|H]; unfold nan_in, DECIMAL_NAN; rewrite H; cbn; [reflexivity|apply orb_true_r]. Qed.

Lemma reg_op_nan : forall op d1 d2, nan_in d1 d2 = true -> reg_op op d1 d2 = Ok (dec_nan d1, d2, false).
Proof.
  intros op d1 d2 N. unfold reg_op. rewrite N. cbv zeta.
  destruct op; unfold dec_add, dec_sub, dec_mul, dec_div, dec_pow; rewrite N; reflexivity.
Qed.

Lemma mag_not_nan : forall lo hi d, -128 < lo -> lo <= dsc d <= hi -> not_nan d.
Proof. intros. unfold not_nan, DECIMAL_NAN. lia. Qed.

Definition exponent (op : aop) (items : list field) (vals : nat -> Z) (y : expr) (b n a : Z) : Prop :=
  op = APow -> whole items vals y n /\ 0 <= n < 2 ^ 32 /\ -128 < a * n /\ b * n < 2 ^ 31.

Definition op_low (op : aop) (a c n : Z) : Z :=
  match op with AAdd | ASub => Z.max a c | AMul => a + c | ADiv => 0 | APow => a * n end.
Definition op_high (op : aop) (b c d n : Z) : Z :=
  match op with AAdd | ASub => Z.max b d | AMul => b + d | ADiv => 37 + Z.max 0 (b - c) | APow => b * n end.

Lemma dv_zero : forall d, (decQ d == 0)%Q <-> dv d = 0.
Proof.
  intros d. unfold decQ. split; intros H.
  - rewrite <- (rat_zero (dsc d)) in H. now apply rat_eq in H.
  - rewrite H. apply rat_zero.
Qed.

Lemma div_scale : forall d1 d2, not_nan d1 -> not_nan d2 -> dv d2 <> 0 -> dv d1 <> 0 ->
  dsc (fst (dec_div d1 d2)) = 37 + Z.max 0 (dsc d1 - dsc d2).
Proof.
  intros d1 d2 N1 N2 Z2 Z1. unfold dec_div. rewrite (nan_in_false d1 d2 N1 N2).
  destruct (Z.eqb_spec (dv d2) 0) as [E|_]; [contradiction|]. destruct (Z.eqb_spec (dv d1) 0) as [E|_]; [contradiction|].
  cbv zeta. cbn [dsc dv fst]. rewrite shift_scale. cbn [dsc]. destruct (Z.ltb_spec (dsc d1 - dsc d2) 0); lia.
Qed.

Lemma op_ok : forall op items vals x y a b c d n D1 D2 x0 x1 x2,
  in_reg items vals x a b D1 x0 x1 -> in_reg items vals y c d D2 x1 x2 ->
  -128 < a <= b -> -128 < c <= d -> -128 < op_low op a c n ->
  (op = APow -> D2 = mkDec n 0 /\ whole items vals y n /\ 0 <= n < 2 ^ 32 /\ b * n < 2 ^ 31) ->
  exists d1 d2 z, reg_op op D1 D2 = Ok (d1, d2, z) /\
    in_reg items vals (EBin op x y) (op_low op a c n) (op_high op b c d n) d1 x0 (x2 || z).
Proof.
  intros op items vals x y a b c d n D1 D2 x0 x1 x2 [ (q1 & C1 & Q1 & B1 & X1) | (F1 & S1 & X1) ] H2 WA WC WL PW.
  2: { rewrite (reg_op_nan op D1 D2) by (apply nan_true; auto). eexists _, _, _. split; [reflexivity|].
       right. split; [now apply fa_left|]. split; [reflexivity|]. destruct H2 as [ (q2 & _ & _ & _ & ->) | (_ & _ & ->) ]; now subst. }
  destruct H2 as [ (q2 & C2 & Q2 & B2 & X2) | (F2 & S2 & X2) ].
  2: { rewrite (reg_op_nan op D1 D2) by (apply nan_true; auto). eexists _, _, _. split; [reflexivity|].
       right. split; [now apply fa_right|]. split; [reflexivity|]. now subst. }
  subst x1 x2. assert (N1 : not_nan D1) by (eapply mag_not_nan; [|exact B1]; lia). assert (N2 : not_nan D2) by (eapply mag_not_nan; [|exact B2]; lia).
  unfold reg_op. rewrite (nan_in_false D1 D2 N1 N2). cbv zeta. destruct op; cbn [op_low op_high] in *.
  - destruct (dec_add_exact D1 D2 N1 N2) as [E S]. eexists _, _, _. split; [reflexivity|]. left. exists (q1 + q2)%Q.
    split; [apply (co_add items vals x y q1 q2); auto; apply Qeq_refl|]. split; [rewrite E, Q1, Q2; apply Qeq_refl|].
    split; [rewrite S; lia|apply orb_false_r].
  - destruct (dec_sub_exact D1 D2 N1 N2) as [E S]. eexists _, _, _. split; [reflexivity|]. left. exists (q1 - q2)%Q.
    split; [apply (co_sub items vals x y q1 q2); auto; apply Qeq_refl|]. split; [rewrite E, Q1, Q2; apply Qeq_refl|].
    split; [rewrite S; lia|apply orb_false_r].
  - destruct (dec_mul_exact D1 D2 N1 N2) as [E S]. eexists _, _, _. split; [reflexivity|]. left. exists (q1 * q2)%Q.
    split; [apply (co_mul items vals x y q1 q2); auto; apply Qeq_refl|]. split; [rewrite E, Q1, Q2; apply Qeq_refl|].
    split; [rewrite S; lia|apply orb_false_r].
  - eexists _, _, _. split; [reflexivity|]. destruct (Z.eq_dec (dv D2) 0) as [Z2|Z2].
    + right. split.
      * apply (fa_div items vals x y q2 C2). rewrite <- Q2. now apply dv_zero.
      * unfold dec_div. rewrite (nan_in_false D1 D2 N1 N2), Z2. cbn [Z.eqb fst snd dec_nan dsc]. split; [reflexivity|]. apply orb_true_r.
    + destruct (dec_div_spec D1 D2 N1 N2 Z2) as (E0 & T & S1 & S0). left.
      set (R := fst (dec_div D1 D2)) in *. rewrite E0. exists (decQ R).
      assert (NZ : ~ (q2 == 0)%Q) by (rewrite <- Q2; intros X; apply dv_zero in X; contradiction).
      assert (TQ : forall k w, trunc_at (decQ D1 / decQ D2) k w -> trunc_at (q1 / q2) k w).
      { intros k w (T1 & T2 & T3). unfold trunc_at. rewrite <- Q1, <- Q2. auto. }
      destruct (Z.eq_dec (dv D1) 0) as [Z1|Z1].
      * destruct (S0 Z1) as [V0 SC0]. split; [|split; [apply Qeq_refl|]].
        -- apply (co_div items vals x y q1 q2 _ 37 0); auto; try lia.
           ++ assert (X : (q1 / q2 == rat 0 37)%Q).
              { rewrite rat_zero. setoid_replace q1 with 0%Q; [unfold Qdiv; ring|]. rewrite <- Q1. now apply dv_zero. }
              pose proof (trunc_self 0 37) as (T1 & T2 & T3). unfold trunc_at. rewrite X. auto.
           ++ rewrite rat_zero. apply dv_zero. exact V0.
        -- rewrite SC0. split; [lia|apply orb_false_r].
      * pose proof (div_scale D1 D2 N1 N2 Z2 Z1) as DS. fold R in DS. split; [|split; [apply Qeq_refl|]].
        -- apply (co_div items vals x y q1 q2 _ (dsc R) (dv R)); auto. apply Qeq_refl.
        -- split; [lia|apply orb_false_r].
  - destruct (PW eq_refl) as (ED & WH & Hn & HH). rewrite ED.
    assert (SB : a * n <= dsc D1 * n <= b * n) by (split; apply Z.mul_le_mono_nonneg_r; lia).
    destruct (dec_pow_exact D1 n N1 Hn ltac:(change (2 ^ 31) with 2147483648 in *; lia)) as (r & E & QR).
    pose proof E as E'. unfold dec_pow in E'. rewrite (nan_in_false D1 (mkDec n 0) N1) in E' by (unfold not_nan, DECIMAL_NAN; cbn [dsc]; lia).
    cbn [dsc dv Z.eqb] in E'. destruct ((0 <=? n) && (n <? 2 ^ 64)) eqn:BN; cbn [andb] in E'; rewrite ?BN in E'; [|discriminate E'].
    rewrite E. cbn [obind]. eexists _, _, _. split; [reflexivity|]. left. exists (q1 ^ n)%Q.
    split; [apply (co_pow items vals x y q1 n); auto; apply Qeq_refl|]. split; [unfold decQ; rewrite QR; unfold decQ in Q1; rewrite Q1; apply Qeq_refl|].
    split; [|apply orb_false_r]. assert (E2 : mkDec (dv D1 ^ (n mod 2 ^ 32)) (wrap32 (dsc D1 * (n mod 2 ^ 32))) = r) by (revert E'; generalize (2 ^ 32); intros g E'; now injection E').
    rewrite <- E2. cbn [dsc]. rewrite (Z.mod_small n (2 ^ 32)) by lia.
    rewrite wrap32_small by (change (2 ^ 31) with 2147483648 in *; lia). exact SB.
Qed.

Lemma Ok_inj : forall (A : Type) (a b : A), Ok a = Ok b -> a = b.
Proof. intros A a b H. now injection H. Qed.
(** A whole number is loaded with scale 0. *)
Lemma whole_reg : forall m items vals y n next (r : nat -> decimal) s1 s2, whole items vals y n -> operands_ok items vals m y -> mi s1 = items ->
  exec m s1 (expand items (S next) next y) = Ok s2 -> mr s2 next = mkDec n 0.
Proof.
  intros m items vals y n next r s1 s2 WH O M E. destruct WH as [|sg ds|i SC]; cbn [expand] in E.
  - cbn [exec step obind] in E. apply Ok_inj in E; subst s2. cbn [mr]. apply set_reg_eq.
  - inversion O as [|s0 ds0 sc0 NE DG SG| | |]; subst. destruct (length ds <? 10)%nat; cbn [andb Z.eqb] in E.
    + cbn [exec step obind] in E. apply Ok_inj in E; subst s2. cbn [mr]. rewrite set_reg_eq, lit_int_value. reflexivity.
    + cbn [exec step] in E. rewrite (fetch_denotes m _ _ (lit_denotes (c_ebcdic m) sg ds 0 NE DG SG)) in E. cbn [obind fst] in E.
      apply Ok_inj in E; subst s2. cbn [mr]. rewrite set_reg_eq. reflexivity.
  - inversion O as [| |i0 OP DO| |]; subst. change (mkField alnum_attr []) with nil_item in E. destruct (fits_int (nth i (mi s1) nil_item)) eqn:F.
    + destruct (load_int m (mi s1) vals i OP DO F) as (k & E1 & Q & CS). cbn [exec step] in E. unfold item in E. change (mkField alnum_attr []) with nil_item in E.
      rewrite E1 in E. cbn [obind fst snd] in E. apply Ok_inj in E; subst s2. cbn [mr]. rewrite CS, set_reg_eq. f_equal.
      unfold num in Q. rewrite SC in Q. now apply rat_eq in Q.
    + destruct OP as (LI & D). cbn [exec step] in E. unfold item in E. change (mkField alnum_attr []) with nil_item in E.
      rewrite (fetch_denotes m _ _ D) in E. cbn [obind fst snd] in E. apply Ok_inj in E; subst s2. cbn [mr]. rewrite set_reg_eq, SC. reflexivity.
Qed.

Lemma expand_ok : forall m items vals e lo hi, within items vals e lo hi -> operands_ok items vals m e ->
  forall next d s, (d < next)%nat -> mi s = items ->
  exists s', exec m s (expand items next d e) = Ok s' /\ mi s' = items /\
    (forall k, (k < next)%nat -> k <> d -> mr s' k = mr s k) /\
    in_reg items vals e lo hi (mr s' d) (mx s) (mx s').
Proof.
  intros m items vals e lo hi W. 
  assert (ONE : forall e lo hi next d s f, (exists s', exec m s [f] = Ok s' /\ mi s' = items /\ (forall k, k <> d -> mr s' k = mr s k) /\
    in_reg items vals e lo hi (mr s' d) (mx s) (mx s')) -> exists s', exec m s [f] = Ok s' /\ mi s' = items /\
    (forall k, (k < next)%nat -> k <> d -> mr s' k = mr s k) /\
    in_reg items vals e lo hi (mr s' d) (mx s) (mx s')).
  { intros e0 lo0 hi0 next d s f (s' & A & B & C & D). exists s'. auto. }
  assert (BIN : forall op x y a b c d n,
    (operands_ok items vals m x -> forall next r s, (r < next)%nat -> mi s = items ->
      exists s', exec m s (expand items next r x) = Ok s' /\ mi s' = items /\
       (forall k, (k < next)%nat -> k <> r -> mr s' k = mr s k) /\ in_reg items vals x a b (mr s' r) (mx s) (mx s')) ->
    (operands_ok items vals m y -> forall next r s, (r < next)%nat -> mi s = items ->
      exists s', exec m s (expand items next r y) = Ok s' /\ mi s' = items /\
       (forall k, (k < next)%nat -> k <> r -> mr s' k = mr s k) /\ in_reg items vals y c d (mr s' r) (mx s) (mx s')) ->
    -128 < a <= b -> -128 < c <= d -> 
    operands_ok items vals m (EBin op x y) -> forall next r s, (r < next)%nat -> mi s = items ->
    -128 < op_low op a c n ->
    (op = APow -> whole items vals y n /\ 0 <= n < 2 ^ 32 /\ b * n < 2 ^ 31) ->
    exists s', exec m s (expand items (S next) r x ++ expand items (S next) next y ++ [IOp op r next]) = Ok s' /\ mi s' = items /\
       (forall k, (k < next)%nat -> k <> r -> mr s' k = mr s k) /\
       in_reg items vals (EBin op x y) (op_low op a c n) (op_high op b c d n) (mr s' r) (mx s) (mx s')).
  { intros op x y a b c d n I1 I2 WA WC O next r s R M WL PW. inversion O as [| | | |op0 x0 y0 O1 O2]; subst op0 x0 y0.
    destruct (I1 O1 (S next) r s ltac:(lia) M) as (s1 & E1 & M1 & K1 & H1).
    destruct (I2 O2 (S next) next s1 ltac:(lia) M1) as (s2 & E2 & M2 & K2 & H2).
    rewrite exec_app, E1. cbn [obind]. rewrite exec_app, E2. cbn [obind exec step].
    assert (R2 : mr s2 r = mr s1 r) by (apply K2; lia). rewrite R2.
    destruct (op_ok op items vals x y a b c d n (mr s1 r) (mr s2 next) (mx s) (mx s1) (mx s2) H1 H2 WA WC WL) as (d1 & d2 & z & E & IR).
    { intros HP. destruct (PW HP) as (WH & Hn & HB). split; [|auto]. exact (whole_reg m items vals y n next (mr s1) s1 s2 WH O2 M1 E2). }
    rewrite E. cbn [obind]. eexists. split; [reflexivity|]. cbn [mi mr mx]. split; [exact M2|].
    split; [|rewrite set_reg_eq; exact IR].
    intros k Hk Nk. rewrite set_reg_neq by exact Nk. rewrite set_reg_neq by lia. rewrite K2 by lia. apply K1; lia. }
  induction W as [|sg ds sc HS|i sc HS HS'|i sc HS HS'|x y a b c d W1 I1 W2 I2|x y a b c d W1 I1 W2 I2|x y a b c d W1 I1 W2 I2 H
                 |x y a b c d W1 I1 W2 I2|x y a b c d n W1 I1 W2 I2 WH Hn HL HH]; intros O next r s R M; cbn [expand].
  - apply ONE, (set_one m items vals); [exact M|]. exists 0, 0. cbn [step]. rewrite M. split; [reflexivity|]. split; [lia|]. constructor. apply rat_zero.
  - inversion O as [|s0 ds0 sc0 NE DG SG| | |]; subst.
    destruct ((length ds <? 10)%nat && (sc =? 0)) eqn:C; apply ONE, (set_one m (mi s) vals); auto.
    + apply andb_prop in C. destruct C as [_ C]. apply Z.eqb_eq in C. subst sc.
      exists (lit_int sg ds), 0. cbn [step]. split; [reflexivity|]. split; [lia|]. constructor. rewrite lit_int_value. apply Qeq_refl.
    + exists (signed_value (sg <? 0) ds), sc. cbn [step]. rewrite (fetch_denotes m _ _ (lit_denotes (c_ebcdic m) sg ds sc NE DG SG)). cbn [obind fst].
      split; [reflexivity|]. split; [lia|]. constructor. apply Qeq_refl.
  - inversion O as [| |i0 OP DO| |]; subst. change (mkField alnum_attr []) with nil_item. destruct (fits_int (nth i (mi s) nil_item)) eqn:F; apply ONE, (set_one m (mi s) vals); auto.
    + destruct (load_int m (mi s) vals i OP DO F) as (n & E & Q & CS). exists n, 0. cbn [step]. unfold item. change (mkField alnum_attr []) with nil_item.
      rewrite E. cbn [obind fst snd]. rewrite CS, set_nth_same. split; [reflexivity|]. split; [|constructor; exact Q].
      assert (a_scale (fa (nth i (mi s) nil_item)) <= 0); [|lia].
      clear - F. unfold fits_int in F. destruct (a_type (fa (nth i (mi s) nil_item))); try discriminate F; apply andb_prop in F; destruct F as [F1 F2]; (apply Z.leb_le in F1 || apply Z.leb_le in F2); assumption.
    + destruct OP as (LI & D). exists (vals i), (a_scale (fa (nth i (mi s) nil_item))). cbn [step]. unfold item. change (mkField alnum_attr []) with nil_item.
      rewrite (fetch_denotes m _ _ D). cbn [obind fst snd]. rewrite set_nth_same. split; [reflexivity|]. split; [lia|]. constructor. apply Qeq_refl.
  - inversion O as [| | |i0 OP|]; subst. apply ONE, (set_one m (mi s) vals); auto.
    destruct OP as (LI & D). exists (vals i), (a_scale (fa (nth i (mi s) nil_item))). cbn [step]. unfold item. change (mkField alnum_attr []) with nil_item.
    rewrite (fetch_denotes m _ _ D). cbn [obind fst snd]. rewrite set_nth_same. split; [reflexivity|]. split; [lia|]. constructor. apply Qeq_refl.
  - exact (BIN AAdd x y a b c d 0 I1 I2 (within_low _ _ _ _ _ W1) (within_low _ _ _ _ _ W2) O next r s R M ltac:(cbn [op_low]; destruct (within_low _ _ _ _ _ W1); lia) ltac:(discriminate)).
  - exact (BIN ASub x y a b c d 0 I1 I2 (within_low _ _ _ _ _ W1) (within_low _ _ _ _ _ W2) O next r s R M ltac:(cbn [op_low]; destruct (within_low _ _ _ _ _ W1); lia) ltac:(discriminate)).
  - exact (BIN AMul x y a b c d 0 I1 I2 (within_low _ _ _ _ _ W1) (within_low _ _ _ _ _ W2) O next r s R M H ltac:(discriminate)).
  - exact (BIN ADiv x y a b c d 0 I1 I2 (within_low _ _ _ _ _ W1) (within_low _ _ _ _ _ W2) O next r s R M ltac:(cbn [op_low]; lia) ltac:(discriminate)).
  - exact (BIN APow x y a b c d n I1 I2 (within_low _ _ _ _ _ W1) (within_low _ _ _ _ _ W2) O next r s R M HL (fun _ => conj WH (conj Hn HH))).
Qed.
