(** Conditions (proof file). *)
From Coq Require Import QArith Qabs.
From Verif Require Import Base BaseFacts Field Sign Decimal SpecNum Numeric SpecStore NumFacts.
From Verif Require Import DispProofs DecProofs BinProofs PackedProofs StoreProofs.
From Verif Require Import PackedInt PackedIntProofs DispInt DispIntProofs P_Int BinOps P_BinOps.
From Verif Require Import Move Edited MoveAll SpecMove MoveProofs MovePacked MoveBin MoveNum IntAccess P_Move SpecEdit EditStore Compute SpecCompute ComputeProofs ComputeMain.
From Verif Require Import Compare SpecCmp CmpProofs CmpMore P_Cmp ExprParse Cond SpecCond.
Local Open Scope Z_scope.

(** A three-way result that agrees with the order of two numbers. *)
Definition three (c : Z) (p q : Q) : Prop :=
  Z.sgn c = match (p ?= q)%Q with Lt => -1 | Eq => 0 | Gt => 1 end.

Lemma three_dec : forall d1 d2, three (dec_cmp d1 d2) (decQ d1) (decQ d2).
Proof.
  intros. destruct (dec_cmp_spec d1 d2) as (L & E & G). unfold three.
  destruct (Qcompare_spec (decQ d1) (decQ d2)) as [H|H|H].
  - apply E in H. now rewrite H.
  - apply L in H. now rewrite H.
  - apply G in H. now rewrite H.
Qed.
Lemma three_eq : forall c p q p' q', (p == p')%Q -> (q == q')%Q -> three c p q -> three c p' q'.
Proof. unfold three. intros c p q p' q' P Q H. rewrite H, P, Q. reflexivity. Qed.
Lemma three_rat : forall a b s, three (a - b) (rat a s) (rat b s).
Proof.
  intros. unfold three. destruct (Qcompare_spec (rat a s) (rat b s)) as [H|H|H].
  - apply rat_eq in H. subst. now rewrite Z.sub_diag.
  - apply rat_lt in H. apply Z.sgn_neg. lia.
  - apply rat_lt in H. apply Z.sgn_pos. lia.
Qed.
Lemma three_sgn : forall c d p q, Z.sgn c = Z.sgn d -> three d p q -> three c p q.
Proof. unfold three. intros. congruence. Qed.
Lemma three_opp : forall c p q, three c q p -> three (- c) p q.
Proof. unfold three. intros c p q H. rewrite Z.sgn_opp, H, <- (Qcompare_antisym q p). now destruct (q ?= p)%Q. Qed.
Lemma rel_three : forall r c p q, three c p q -> rel_test r c = holds r (p ?= q)%Q.
Proof.
  unfold three. intros r c p q H. destruct (p ?= q)%Q; destruct r; cbn [rel_test holds]; destruct c; try discriminate H; reflexivity.
Qed.

(** ** Operands that are not expressions *)
Definition numeric_leaf (m : cfg) items vals e : Prop :=
  exists v, denotes (c_ebcdic m) (leaf_field items e) v /\
    computes items vals e (rat v (a_scale (fa (leaf_field items e)))) /\ is_zero_const e = false.
Lemma leaf_cases : forall m items vals e, is_bin e = false -> operands_ok items vals m e ->
  e = EZero \/ numeric_leaf m items vals e.
Proof.
  intros m items vals e B O. destruct O as [|s ds sc NE DG SG|i (L & D) DO|i (L & D)|op x y]; try discriminate B; [now left| | |]; right.
  - exists (signed_value (s <? 0) ds). cbn [leaf_field is_zero_const]. split; [now apply lit_denotes|]. split; [|reflexivity].
    apply co_lit. unfold lit_field. cbn [fa a_scale]. apply Qeq_refl.
  - exists (vals i). cbn [leaf_field is_zero_const]. split; [exact D|]. split; [|reflexivity]. apply co_ref. apply Qeq_refl.
  - exists (vals i). cbn [leaf_field is_zero_const]. split; [exact D|]. split; [|reflexivity]. apply co_fun. apply Qeq_refl.
Qed.

Lemma put_leaf_same : forall items e, put_leaf items e (leaf_field items e) = items.
Proof. intros items [ | | i | i | ]; cbn [put_leaf leaf_field]; auto; apply set_nth_same. Qed.
Lemma set_items_same : forall s, set_items s (citems s) = s.
Proof. intros [[r i x] p]. reflexivity. Qed.

Lemma set_zero_field : forall m, set_field m zero_field = Ok (mkDec 0 0, zero_field).
Proof. intros m. unfold zero_field. reflexivity. Qed.

Lemma leaf_set : forall m items vals e, is_bin e = false -> operands_ok items vals m e ->
  exists d, set_field m (leaf_field items e) = Ok (d, leaf_field items e) /\ computes items vals e (decQ d).
Proof.
  intros m items vals e B O. destruct (leaf_cases m items vals e B O) as [-> | (v & D & C & _)].
  - exists (mkDec 0 0). split; [apply set_zero_field|]. apply co_zero. apply rat_zero.
  - exists (mkDec v (a_scale (fa (leaf_field items e)))). split; [now apply fetch_denotes|exact C].
Qed.

(** The result of a comparison in state [s]. *)
Definition comparing (s : cst) (vals : nat -> Z) (a b : expr) (r : outcome (Z * cst)) : Prop :=
  exists c s' p q, r = Ok (c, s') /\ computes (citems s) vals a p /\ computes (citems s) vals b q /\ three c p q /\
    citems s' = citems s /\ cmp_history (cpack s').

Lemma cmp_int_ok : forall m s vals x y n q, is_bin x = false -> operands_ok (citems s) vals m x -> cmp_history (cpack s) ->
  computes (citems s) vals y q -> (rat n 0 == q)%Q -> comparing s vals x y (cmp_int_leaf m s x n).
Proof.
  intros m s vals x y n q B O H C Q. destruct (leaf_set m (citems s) vals x B O) as (d & E & CX).
  unfold cmp_int_leaf. rewrite E. cbn [obind fst snd]. rewrite put_leaf_same, set_items_same.
  exists (dec_cmp d (mkDec n 0)), s, (decQ d), q. split; [reflexivity|]. split; [exact CX|]. split; [exact C|]. split; [|auto].
  eapply three_eq; [apply Qeq_refl|exact Q|apply three_dec].
Qed.

Lemma denotes_numeric : forall e f v, denotes e f v ->
  is_national (a_type (fa f)) = false /\ is_numeric_type (a_type (fa f)) = true /\ is_all f = false.
Proof. intros e f v D. unfold is_all. destruct (denotes_type _ _ _ D) as [-> | [-> | ->]]; auto. Qed.

Lemma cmp_leaves_ok : forall m col s vals x y, is_bin x = false -> is_bin y = false ->
  operands_ok (citems s) vals m x -> operands_ok (citems s) vals m y -> cmp_history (cpack s) ->
  comparing s vals x y (cmp_leaves m col s x y).
Proof.
  intros m col s vals x y BX BY OX OY H. unfold cmp_leaves.
  destruct (leaf_cases m (citems s) vals x BX OX) as [-> | (v & D & C & Z1)], (leaf_cases m (citems s) vals y BY OY) as [-> | (w & E & F & Z2)].
  - cbn [leaf_field is_zero_const]. set (r := cob_cmp _ _ _ _).
    assert (R : r = Ok (0, zero_field, zero_field)).
    { unfold r, zero_field, cob_cmp, cmp_char, get_sign, put_sign_np, put_sign. cbn. destruct col; cbn; rewrite ?Z.sub_diag, ?Z.eqb_refl; reflexivity. }
    rewrite R. cbn [obind put_leaf]. rewrite set_items_same. exists 0, s, 0%Q, 0%Q. split; [reflexivity|].
    repeat (split; [first [apply co_zero; apply Qeq_refl | reflexivity]|]). auto.
  - destruct (C51_compare_zero m col (leaf_field (citems s) y) zero_field w E eq_refl) as [_ (c & R & S)].
    cbn [leaf_field is_zero_const]. rewrite Z2. unfold item in R. rewrite R. cbn [obind put_leaf]. rewrite put_leaf_same, set_items_same.
    exists c, s, 0%Q, (rat w (a_scale (fa (leaf_field (citems s) y)))). split; [reflexivity|]. split; [apply co_zero; apply Qeq_refl|]. split; [exact F|]. split; [|auto].
    eapply three_eq; [apply rat_zero|apply Qeq_refl|]. eapply three_sgn; [|apply three_rat]. rewrite S, <- Z.sgn_opp. f_equal; lia.
  - destruct (C51_compare_zero m col (leaf_field (citems s) x) zero_field v D eq_refl) as [(c & R & S) _].
    cbn [leaf_field is_zero_const]. rewrite Z1. unfold item in R. rewrite R. cbn [obind put_leaf]. rewrite put_leaf_same, set_items_same.
    exists c, s, (rat v (a_scale (fa (leaf_field (citems s) x)))), 0%Q. split; [reflexivity|]. split; [exact C|]. split; [apply co_zero; apply Qeq_refl|]. split; [|auto].
    eapply three_eq; [apply Qeq_refl|apply rat_zero|]. eapply three_sgn; [|apply three_rat]. rewrite S. f_equal. lia.
  - destruct (denotes_numeric _ _ _ D) as (N1 & N2 & N3), (denotes_numeric _ _ _ E) as (M1 & M2 & M3).
    unfold cob_cmp. cbn [o_f o_zero]. rewrite N1, N2, M1, M2. cbn [orb andb].
    rewrite (fetch_denotes m _ v D), (fetch_denotes m _ w E). cbn [obind fst snd]. rewrite put_leaf_same, put_leaf_same, set_items_same.
    eexists _, s, _, _. split; [reflexivity|]. split; [exact C|]. split; [exact F|]. split; [|auto]. apply three_dec.
Qed.

(** ** memcmp *)
Lemma cmp_bytes_digits : forall l1 l2, length l1 = length l2 -> Forall is_dig l1 -> Forall is_dig l2 ->
  Z.sgn (cmp_bytes (map digit_char l1) (map digit_char l2)) = Z.sgn (digits_value l1 - digits_value l2).
Proof.
  induction l1 as [|a l1 IH]; intros [|b l2] L D1 D2; try discriminate L; [reflexivity|].
  inversion D1 as [|? ? A R1]; subst. inversion D2 as [|? ? B R2]; subst. injection L as L.
  cbn [map cmp_bytes]. unfold digit_char at 1 2.
  assert (VC : forall d l, digits_value (d :: l) = d * 10 ^ Z.of_nat (length l) + digits_value l).
  { intros d l. change (d :: l) with ([d] ++ l). rewrite digits_value_app. unfold digits_value at 1. cbn [digits_value_aux]. lia. }
  rewrite !VC, L. pose proof (digits_value_bound l1 R1) as X1. pose proof (digits_value_bound l2 R2) as X2. rewrite L in X1.
  set (P := 10 ^ Z.of_nat (length l2)) in *. destruct (Z.eqb_spec (48 + a) (48 + b)) as [E|E].
  - assert (a = b) by lia. subst b. rewrite (IH l2 L R1 R2). f_equal. lia.
  - unfold digit_char. destruct (Z.lt_ge_cases a b) as [K|K].
    + assert ((a + 1) * P <= b * P) by (apply Z.mul_le_mono_nonneg_r; lia). rewrite !Z.sgn_neg by lia. reflexivity.
    + assert ((b + 1) * P <= a * P) by (apply Z.mul_le_mono_nonneg_r; lia). rewrite !Z.sgn_pos by lia. reflexivity.
Qed.

Lemma cmp_bytes_text : forall t u, length t = length u -> cmp_agrees None t u (cmp_bytes t u).
Proof.
  induction t as [|x t IH]; intros [|y u] L; try discriminate L.
  - apply agrees_eq; [reflexivity|]. apply text_eq_refl.
  - injection L as L. cbn [cmp_bytes]. destruct (Z.eqb_spec x y) as [-> | N].
    + apply agrees_cons; [reflexivity|]. now apply IH.
    + exact (agrees_head None x t y u N).
Qed.

Lemma plain_inv : forall m f v, denotes (c_ebcdic m) f v -> plain_display f = true ->
  exists ds, fd f = map digit_char ds /\ v = digits_value ds /\ Forall is_dig ds.
Proof.
  intros m f v D P. unfold plain_display in P. destruct (a_type (fa f)) eqn:T; try discriminate P. apply negb_true_iff in P.
  destruct (denotes_display_inv _ f v D T) as (neg & ds & E & X & NE & DG & SG & AO). exists ds.
  rewrite E. cbn [fd]. rewrite DispProofs.zoned_unsigned by auto. rewrite X, (SG P). auto.
Qed.

Lemma num_cond_ok : forall m s vals x y, operands_ok (citems s) vals m x -> operands_ok (citems s) vals m y -> cmp_history (cpack s) ->
  num_cond (citems s) x y = true ->
  comparing s vals x y (Ok (cmp_bytes (fd (leaf_field (citems s) x)) (fd (leaf_field (citems s) y)), s)).
Proof.
  intros m s vals x y OX OY H N. unfold num_cond in N. destruct x as [| |i|i|], y as [| |j|j|]; try discriminate N.
  inversion OX as [| |i0 (L1 & D1) DO1| |]; subst. inversion OY as [| |j0 (L2 & D2) DO2| |]; subst.
  change (mkField alnum_attr []) with nil_item in N. cbn [leaf_field]. change (mkField alnum_attr []) with nil_item.
  apply andb_prop in N. destruct N as [N N4]. apply andb_prop in N. destruct N as [N N3]. apply andb_prop in N. destruct N as [N1 N2].
  apply Z.eqb_eq in N4. apply Nat.eqb_eq in N3.
  destruct (plain_inv m _ _ D1 N1) as (ds & E1 & V1 & G1), (plain_inv m _ _ D2 N2) as (es & E2 & V2 & G2).
  eexists _, s, _, _. split; [reflexivity|]. split; [apply co_ref; apply Qeq_refl|]. split; [apply co_ref; apply Qeq_refl|]. split; [|auto].
  unfold num. rewrite N4. eapply three_sgn; [|apply three_rat]. rewrite V1, V2, E1, E2. apply cmp_bytes_digits; auto.
  unfold f_size in N3. rewrite E1, E2, !map_length in N3. exact N3.
Qed.

(** ** Comparison with a C int *)
Lemma fits_small : forall m items vals j n, operand_ok items vals m j -> direct_ok items vals j ->
  let f := nth j items nil_item in fits_int f = true -> a_type (fa f) <> TBinary -> (rat n 0 == num items vals j)%Q -> Z.abs n < 2 ^ 31.
Proof.
  intros m items vals j n (L & D) DO f F NB Q. unfold num in Q. fold f in D, Q. unfold direct_ok in DO. fold f in DO. cbv zeta in DO.
  set (v := vals j) in *. set (sc := a_scale (fa f)) in *.
  assert (VS : forall k, sc = 0 -> 0 <= k <= 9 -> Z.abs v < 10 ^ k -> Z.abs n < 2 ^ 31).
  { intros k Z0 K B. rewrite Z0 in Q. apply rat_eq in Q. subst n. assert (10 ^ k <= 10 ^ 9) by (apply Z.pow_le_mono_r; lia).
    change (10 ^ 9) with 1000000000 in *. change (2 ^ 31) with 2147483648. lia. }
  destruct (denotes_type _ _ _ D) as [T|[T|T]]; [| |congruence]; unfold fits_int in F; rewrite T in F; fold sc in F.
  - apply andb_prop in F. destruct F as [F1 F2]. apply Nat.ltb_lt in F1. apply Z.leb_le in F2.
    destruct (denotes_display_small _ f v D T) as (B & _).
    destruct DO as [DO|[[_ DO]|[[DO _]|[[DO _]|(_ & DO & DB)]]]]; try lia; try (rewrite T in DO; discriminate).
    + apply (VS (Z.of_nat (f_size f))); auto; lia.
    + assert (E : n = v * 10 ^ (- sc)).
      { apply (rat_eq n (v * 10 ^ (- sc)) 0). rewrite Q. rewrite (rat_to v sc 0) by lia. replace (0 - sc) with (- sc) by lia. apply Qeq_refl. }
      rewrite E, Z.abs_mul, (Z.abs_eq (10 ^ (- sc))) by (apply Z.pow_nonneg; lia). exact DB.
  - apply andb_prop in F. destruct F as [F2 F1]. apply Z.ltb_lt in F1. apply Z.leb_le in F2.
    assert (Z0 : sc = 0).
    { destruct DO as [DO|[[DO _]|[[_ DO]|[[DO _]|(DO & _)]]]]; try lia; rewrite T in DO; discriminate. }
    destruct (denotes_packed_inv _ f v D T) as (neg & ds & Ef & Ev & NE & DG & LD & SG).
    pose proof (digits_value_bound ds DG) as B.
    apply (VS (Z.of_nat (length ds))); [exact Z0|lia|]. rewrite Ev. unfold signed_value. destruct neg; lia.
Qed.

Lemma leaf_int_ok : forall m s vals y, is_bin y = false -> operands_ok (citems s) vals m y -> literal_ok y ->
  leaf_fits (citems s) y = true \/ y = EZero ->
  exists n q, leaf_int m s y = Ok (n, s) /\ computes (citems s) vals y q /\ (rat n 0 == q)%Q /\
    (if unsigned_binary (citems s) y then n mod 2 ^ 32 = n else s32 n = n) /\
    (unsigned_binary (citems s) y = false -> is_int n /\ (n = - 2 ^ 31 -> exists j, y = ERef j /\ vals j = n)).
Proof.
  intros m s vals y B O LO F. destruct y as [|sg ds sc|j|j|op y1 y2]; try discriminate B.
  - exists 0, 0%Q. cbn [leaf_int unsigned_binary]. split; [reflexivity|]. split; [apply co_zero; apply Qeq_refl|]. split; [apply rat_zero|].
    split; [reflexivity|]. intros _. unfold is_int, INT_MIN, INT_MAX. split; [lia|]. change (2 ^ 31) with 2147483648. lia.
  - destruct F as [F|F]; [|discriminate F]. cbn [leaf_fits] in F. apply andb_prop in F. destruct F as [F1 F2]. apply Z.leb_le in F1. apply Nat.ltb_lt in F2.
    cbn [literal_ok] in LO. assert (sc = 0) by lia. subst sc. inversion O as [|s0 ds0 sc0 NE DG SG| | |]; subst.
    exists (signed_value (sg <? 0) ds), (rat (signed_value (sg <? 0) ds) 0). cbn [leaf_int unsigned_binary]. rewrite lit_int_value.
    split; [reflexivity|]. split; [apply co_lit; apply Qeq_refl|]. split; [apply Qeq_refl|].
    pose proof (digits_value_bound ds DG) as DB. assert (P : 10 ^ Z.of_nat (length ds) <= 10 ^ 9) by (apply Z.pow_le_mono_r; lia). change (10 ^ 9) with 1000000000 in P.
    assert (AB : Z.abs (signed_value (sg <? 0) ds) < 1000000000) by (unfold signed_value; destruct (sg <? 0); lia).
    assert (II : is_int (signed_value (sg <? 0) ds)) by (unfold is_int, INT_MIN, INT_MAX; lia).
    split; [now apply s32_id|]. intros _. split; [exact II|]. change (2 ^ 31) with 2147483648. lia.
  - destruct F as [F|F]; [|discriminate F]. cbn [leaf_fits] in F. change (mkField alnum_attr []) with nil_item in F.
    inversion O as [| |j0 OP DO| |]; subst. destruct (load_int m (citems s) vals j OP DO F) as (n & E & Q & CS).
    exists n, (num (citems s) vals j). cbn [leaf_int leaf_field unsigned_binary]. change (mkField alnum_attr []) with nil_item. rewrite E. cbn [obind fst snd put_leaf].
    rewrite set_nth_same, set_items_same. split; [reflexivity|]. split; [apply co_ref; apply Qeq_refl|]. split; [exact Q|].
    pose proof (fits_small m (citems s) vals j n OP DO F) as SM. cbv zeta in SM.
    set (f := nth j (citems s) nil_item) in *. destruct (a_type (fa f)) eqn:T;
      try (assert (X : Z.abs n < 2 ^ 31) by (apply SM; [discriminate|exact Q]); change (2 ^ 31) with 2147483648 in X;
           assert (II : is_int n) by (unfold is_int, INT_MIN, INT_MAX; lia);
           split; [now apply s32_id|]; intros _; split; [exact II|]; change (2 ^ 31) with 2147483648; lia).
    destruct (a_sign (fa f)) eqn:SGN; cbn [negb].
    + split; [exact CS|]. intros _. destruct OP as (L & D). fold f in D. unfold fits_int in F. rewrite T in F. apply andb_prop in F. destruct F as [F2 F1].
      apply Nat.leb_le in F1. apply Z.leb_le in F2. pose proof (bin_small _ f _ D T F1) as BS. rewrite SGN in BS. change (2 ^ 31) with 2147483648 in BS |- *.
      assert (Z0 : a_scale (fa f) = 0).
      { unfold direct_ok in DO. fold f in DO. cbv zeta in DO. destruct DO as [DO|[[DO _]|[[DO _]|[[_ DO]|(DO & _)]]]]; try lia; rewrite T in DO; discriminate. }
      assert (V : n = vals j). { unfold num in Q. fold f in Q. rewrite Z0 in Q. now apply rat_eq in Q. }
      subst n. split; [unfold is_int, INT_MIN, INT_MAX; lia|]. intros _. now exists j.
    + split; [exact CS|]. discriminate.
  - destruct F as [F|F]; discriminate F.
Qed.

Lemma optim_ok : forall m s vals x y, is_bin x = false -> is_bin y = false ->
  operands_ok (citems s) vals m x -> operands_ok (citems s) vals m y -> literal_ok y -> packed_ok (citems s) vals x y -> cmp_history (cpack s) ->
  leaf_fits (citems s) y = true \/ y = EZero -> comparing s vals x y (optim_cond m s x y).
Proof.
  intros m s vals x y BX BY OX OY LO PO H F. unfold optim_cond.
  destruct (leaf_int_ok m s vals y BY OY LO F) as (n & q & E & C & Q & CS & IN). rewrite E. cbn [obind fst snd]. cbv zeta.
  destruct (unsigned_binary (citems s) y) eqn:UB.
  { rewrite CS. now apply (cmp_int_ok m s vals x y n q). }
  rewrite CS. destruct (IN eq_refl) as [II IM]. clear IN.
  assert (GEN : comparing s vals x y (cmp_int_leaf m s x n)) by now apply (cmp_int_ok m s vals x y n q).
  destruct x as [|sg ds sc|i|i|op x1 x2]; try exact GEN.
  destruct (negb (a_scale (fa (leaf_field (citems s) (ERef i))) =? 0)) eqn:SC; [exact GEN|].
  apply negb_false_iff in SC. apply Z.eqb_eq in SC. cbn [leaf_field] in *. change (mkField alnum_attr []) with nil_item in *.
  inversion OX as [| |i0 (L & D) DO| |]; subst. set (f := nth i (citems s) nil_item) in *. set (v := vals i) in *.
  assert (RES : forall c st, Z.sgn c = Z.sgn (v - n) -> cmp_history st -> comparing s vals (ERef i) y (Ok (c, set_pack s st))).
  { intros c st S HS. eexists c, _, (num (citems s) vals i), q. split; [reflexivity|]. split; [apply co_ref; apply Qeq_refl|]. split; [exact C|]. split; [|split; [reflexivity|exact HS]].
    eapply three_sgn; [exact S|]. eapply three_eq; [|exact Q|apply three_rat]. unfold num. fold f. fold v. rewrite SC. apply Qeq_refl. }
  assert (SP : set_pack s (cpack s) = s) by (destruct s; reflexivity).
  assert (RS : forall c, Z.sgn c = Z.sgn (v - n) -> comparing s vals (ERef i) y (Ok (c, s))).
  { intros c S. pose proof (RES c (cpack s) S H) as X. now rewrite SP in X. }
  destruct (denotes_type _ _ _ D) as [T|[T|T]]; rewrite T.
  - destruct (a_lead (fa f) || a_sep (fa f)) eqn:LS; [exact GEN|]. apply orb_false_elim in LS. destruct LS as [LD SEP].
    destruct (denotes_display_small _ f v D T) as (B & SG & _ & _).
    assert (CMP : forall w, (w = 32 \/ w = 64) -> Z.abs v < 2 ^ (w - 1) -> 
      comparing s vals (ERef i) y (do c <- (if a_sign (fa f) then cmp_sign_numdisp m w (fd f) n else cmp_numdisp w (fd f) n); Ok (c, s))).
    { intros w W BV. destruct (a_sign (fa f)) eqn:SGN.
      - rewrite (C12_cmp_signed m w f v n W D T SGN SEP LD BV). cbn [obind]. apply RS. apply Z.sgn_sgn.
      - rewrite (C12_cmp_unsigned m w f v n W D T SGN) by lia. cbn [obind]. apply RS. apply Z.sgn_sgn. }
    destruct (Nat.ltb_spec (f_size f) 10) as [F10|F10].
    + apply CMP; [now left|]. eapply Z.lt_le_trans; [exact B|]. transitivity (10 ^ 9); [apply Z.pow_le_mono_r; lia|]. change (10 ^ 9) with 1000000000. change (2 ^ (32 - 1)) with 2147483648. lia.
    + destruct (Nat.ltb_spec (f_size f) 19) as [F19|F19]; [|exact GEN].
      apply CMP; [now right|]. eapply Z.lt_le_trans; [exact B|]. transitivity (10 ^ 18); [apply Z.pow_le_mono_r; lia|]. vm_compute. discriminate.
  - destruct (PO i eq_refl T) as (P1 & P2 & P3). fold f in P1, P2. fold v in P2. unfold text in P2. fold f in P2.
    destruct (denotes_packed_inv _ f v D T) as (neg & ds & Ef & Ev & NE & DG & LD & SG).
    pose proof (digits_value_bound ds DG) as B.
    destruct (Z.ltb_spec (a_digits (fa f)) 10) as [D10|D10].
    + rewrite (C11_inline_compare _ f v n D T).
      * cbn [obind]. apply RS. apply Z.sgn_sgn.
      * assert (Z.abs v = digits_value ds) by (rewrite Ev; unfold signed_value; destruct neg; lia).
        assert (10 ^ Z.of_nat (length ds) <= 10 ^ 9) by (apply Z.pow_le_mono_r; lia). change (10 ^ 9) with 1000000000 in *. change (2 ^ 31) with 2147483648. lia.
    + assert (NM : INT_MIN < n <= INT_MAX).
      { destruct II as [I1 I2]. split; [|exact I2]. destruct (Z.eq_dec n (- 2 ^ 31)) as [K|K]; [|unfold INT_MIN in *; change (2 ^ 31) with 2147483648 in K; lia].
        destruct (IM K) as (j & EJ & VJ). exfalso. apply (P3 j EJ). now rewrite VJ. }
      destruct (C11_cmp_packed_any_history _ (cpack s) f v n H D T P1 P2 NM) as (c & st & EC & HS & S). rewrite EC. cbn [obind fst snd]. now apply RES.
  - assert (DB : exists l, fd f = l /\ (1 <= length l <= 8)%nat /\ bytes_ok l /\ v = bin_value (a_sign (fa f)) (a_swap (fa f)) l).
    { clear - D T. destruct D as [a neg ds Ht|a neg ds Ht|a l Ht HL Hb]; cbn [fa] in T; try congruence. exists l. cbn [fa fd]. auto. }
    destruct DB as (l & E1 & E2 & E3 & E4). rewrite E1, (C50_compare _ _ _ _ E2 E3), <- E4. apply RS.
    destruct (Z.compare_spec v n) as [K|K|K]; symmetry; [rewrite K, Z.sub_diag; reflexivity|apply Z.sgn_neg; lia|apply Z.sgn_pos; lia].
Qed.

(** ** Relations *)
Lemma rel_num_ok : forall m debug alpha col s vals a b lo hi lo' hi',
  within (citems s) vals a lo hi -> within (citems s) vals b lo' hi' -> operands_ok (citems s) vals m a -> operands_ok (citems s) vals m b ->
  ~ fails (citems s) vals a -> ~ fails (citems s) vals b -> packed_ok (citems s) vals a b -> literal_ok b -> ~ (literal a /\ literal b) ->
  cmp_history (cpack s) -> comparing s vals a b (rel_num m debug alpha col s a b).
Proof.
  intros m debug alpha col s vals a b lo hi lo' hi' WA WB OA OB FA FB PO LO NL H. unfold rel_num.
  destruct (is_bin a || is_bin b) eqn:B.
  - rewrite exec_app. destruct (expand_ok m (citems s) vals a lo hi WA OA 2 0 (cmach s) ltac:(lia) eq_refl) as (s1 & E1 & M1 & K1 & R1).
    destruct (expand_ok m (citems s) vals b lo' hi' WB OB 2 1 s1 ltac:(lia) M1) as (s2 & E2 & M2 & K2 & R2).
    rewrite E1. cbn [obind]. rewrite E2. cbn [obind]. rewrite (K2 0%nat) by lia.
    destruct R1 as [ (p & C1 & Q1 & _) | (X & _) ]; [|contradiction]. destruct R2 as [ (q & C2 & Q2 & _) | (X & _) ]; [|contradiction].
    exists (dec_cmp (mr s1 0%nat) (mr s2 1%nat)), (mkCst s2 (cpack s)), p, q. split; [reflexivity|]. split; [exact C1|]. split; [exact C2|].
    split; [eapply three_eq; [exact Q1|exact Q2|apply three_dec]|]. split; [exact M2|exact H].
  - apply orb_false_elim in B. destruct B as [BA BB]. destruct debug; [now apply cmp_leaves_ok|].
    destruct (num_cond (citems s) a b) eqn:N; [now apply (num_cond_ok m)|].
    destruct (leaf_fits (citems s) b) eqn:F; [apply optim_ok; auto|].
    assert (GEN : comparing s vals a b (cmp_leaves m col s a b)) by now apply cmp_leaves_ok.
    assert (OPT : b = EZero -> comparing s vals a b (optim_cond m s a b)) by (intros; apply optim_ok; auto).
    destruct a as [|sg ds sc|i|i|op x1 x2], b as [|sg' ds' sc'|j|j|op' y1 y2]; try exact GEN; try (now apply OPT).
    exfalso. apply NL. split; exact I.
Qed.

Definition text_ready (items : list field) (i : nat) : text_item items i -> text_type (a_type (fa (nth i items nil_item))).
Proof. intros (_ & T). unfold text_type. destruct (a_type (fa (nth i items nil_item))); try contradiction; auto. Qed.

Lemma rel_text_ok : forall m debug alpha col s i j, (col <> None -> alpha = true) ->
  text_item (citems s) i -> text_item (citems s) j ->
  exists c, rel_text m debug alpha col s i j = Ok (c, s) /\ cmp_agrees col (text (citems s) i) (text (citems s) j) c.
Proof.
  intros m debug alpha col s i j HC TI TJ. unfold rel_text, text. change (mkField alnum_attr []) with nil_item. cbv zeta.
  destruct (negb debug && negb alpha && _ && _ && _)%bool eqn:K.
  - apply andb_prop in K. destruct K as [K K5]. apply andb_prop in K. destruct K as [K _]. apply andb_prop in K. destruct K as [K _]. apply andb_prop in K. destruct K as [_ K2].
    apply Nat.eqb_eq in K5. apply negb_true_iff in K2. destruct col as [t|]; [rewrite HC in K2 by discriminate; discriminate K2|].
    eexists. split; [reflexivity|]. now apply cmp_bytes_text.
  - unfold Compare.item. rewrite cob_cmp_text by now apply text_ready. cbn [obind]. rewrite !set_nth_same, set_items_same.
    eexists. split; [reflexivity|]. apply cmp_simple_str_agrees.
Qed.

Lemma rel_holds : forall r c, rel_test r c = holds r (match c with Z0 => Eq | Zpos _ => Gt | Zneg _ => Lt end).
Proof. intros r c. destruct r, c; reflexivity. Qed.

Section Main.
Variables (m : cfg) (debug alpha : bool) (col : option (list Z)) (nibble_c : bool) (names : nat -> name88).
Variable (vals : nat -> Z).
Hypothesis HCOL : col <> None -> alpha = true.
Notation evw := (eval_with m debug alpha col nibble_c).
Definition sound (items : list field) (P : bool -> Prop) (r : outcome (bool * cst)) : Prop :=
  exists b s', r = Ok (b, s') /\ P b /\ citems s' = items /\ cmp_history (cpack s').

Lemma eval_rel : forall items nm r x y s, citems s = items -> cmp_history (cpack s) -> comparable items vals m x y ->
  sound items (fun b => exists c, compares items vals col x y c /\ b = holds r c) (evw nm (TRel r x y) s).
Proof.
  intros items nm r x y s EI H C. destruct C as [x y a b lo hi lo' hi' EX EY WA WB OA OB FA FB PO LO NL|i j TI TJ].
  - subst items. cbn [eval_with]. rewrite EX, EY.
    destruct (rel_num_ok m debug alpha col s vals a b lo hi lo' hi' WA WB OA OB FA FB PO LO NL H) as (c & s' & p & q & E & CP & CQ & T & IT & HH).
    rewrite E. cbn [obind fst snd]. eexists _, s'. split; [reflexivity|]. split; [|auto]. exists (p ?= q)%Q.
    split; [now apply (cp_num _ _ _ x y a b)|]. now apply rel_three.
  - subst items. cbn [eval_with expr_of]. destruct (rel_text_ok m debug alpha col s i j HCOL TI TJ) as (c & E & A & B & G).
    rewrite E. cbn [obind fst snd]. eexists _, s. split; [reflexivity|]. split; [|auto]. rewrite rel_holds. eexists. split; [|reflexivity].
    destruct c; [apply cp_eq; now apply B|apply cp_gt; apply G; lia|apply cp_lt; apply A; lia].
Qed.

Lemma cond_value_ok : forall items nm x v s, citems s = items -> cmp_history (cpack s) -> value_comparable items vals m x v ->
  sound items (fun b => if b then is_one_of items vals col x v else is_none_of items vals col x v) (evw nm (cond_value x v) s).
Proof.
  intros items nm x [y|lo hi] s EI H C; cbn [value_comparable cond_value is_one_of is_none_of] in *.
  - destruct (eval_rel items nm REq (TLeaf x) (TLeaf y) s EI H C) as (b & s' & E & (c & CC & ->) & I' & H').
    rewrite E. eexists _, s'. split; [reflexivity|]. split; [|auto]. destruct c; cbn [holds]; auto; eexists; (split; [exact CC|discriminate]).
  - destruct C as [C1 C2]. cbn [eval_with]. fold evw.
    change (match expr_of (TLeaf lo) with Some a => _ | None => _ end) with (evw nm (TRel RLe (TLeaf lo) (TLeaf x)) s).
    destruct (eval_rel items nm RLe (TLeaf lo) (TLeaf x) s EI H C1) as (b & s' & E & (c & CC & ->) & I' & H').
    rewrite E. cbn [obind fst snd]. destruct (holds RLe c) eqn:HB.
    + change (match expr_of (TLeaf x) with Some a => _ | None => _ end) with (evw nm (TRel RLe (TLeaf x) (TLeaf hi)) s').
      destruct (eval_rel items nm RLe (TLeaf x) (TLeaf hi) s' I' H' C2) as (b2 & s2 & E2 & (c2 & CC2 & ->) & I2 & H2).
      rewrite E2. eexists _, s2. split; [reflexivity|]. split; [|auto].
      assert (CG : c <> Gt) by (intros ->; discriminate HB).
      destruct c2; cbn [holds]; [split; eexists; (split; [eassumption|congruence])|split; eexists; (split; [eassumption|congruence])|right; exact CC2].
    + eexists _, s'. split; [reflexivity|]. split; [|auto]. left. destruct c; try discriminate HB. exact CC.
Qed.

Lemma class_ok : forall items c o s, citems s = items -> cmp_history (cpack s) -> class_testable items c o ->
  forall nm, sound items (truth items vals col names (TClass c (TLeaf o))) (evw nm (TClass c (TLeaf o)) s).
Proof.
  intros items c o s EI H (CN & TO) nm. subst items.
  assert (WORK : forall i, (i < length (citems s))%nat -> index_of o = Some i ->
    ((a_type (fa (nth i (citems s) nil_item)) = TDisplay /\ a_sign (fa (nth i (citems s) nil_item)) = false /\ a_sep (fa (nth i (citems s) nil_item)) = false) \/
     text_sender (a_type (fa (nth i (citems s) nil_item)))) ->
    sound (citems s) (truth (citems s) vals col names (TClass c (TLeaf o)))
      (do r <- class_test m nibble_c c (nth i (citems s) (mkField alnum_attr [])); Ok (fst r, set_items s (set_nth i (snd r) (citems s))))).
  { intros i L IX CASE. change (mkField alnum_attr []) with nil_item. set (f := nth i (citems s) nil_item) in *.
    assert (R : exists b, class_test m nibble_c c f = Ok (b, f) /\ (b = true <-> class_holds (citems s) c i)).
    { destruct (C22_alphabetic f) as (A1 & A2 & A3). unfold class_holds, text. fold f. unfold white in *.
      destruct c; try contradiction CN; cbn [class_test].
      - destruct (C22_numeric_digits m nibble_c f CASE) as (b & E & BB). exists b. split; [now rewrite E|exact BB].
      - exists (is_alpha f). split; [reflexivity|exact A1].
      - exists (is_lower f). split; [reflexivity|exact A3].
      - exists (is_upper f). split; [reflexivity|exact A2]. }
    destruct R as (b & E & BB). rewrite E. cbn [obind fst snd]. unfold f. rewrite set_nth_same, set_items_same.
    exists b, s. split; [reflexivity|]. split; [|auto]. now apply (tr_class _ _ _ _ c o i). }
  destruct o as [|e|i|k]; try contradiction TO.
  - destruct e as [| |i| |]; try contradiction TO. destruct TO as (L & T). apply WORK; auto.
  - apply WORK; [exact (proj1 TO)|reflexivity|right]. pose proof (text_ready _ _ TO) as X. exact X.
Qed.

Definition matched (items : list field) (x : operand) (vs : list value88) (b : bool) : Prop :=
  if b then exists v, In v vs /\ is_one_of items vals col x v else forall v, In v vs -> is_none_of items vals col x v.

Lemma fold_values : forall items nm x r acc seen,
  (forall s, citems s = items -> cmp_history (cpack s) -> sound items (matched items x seen) (evw nm acc s)) ->
  Forall (value_comparable items vals m x) r ->
  forall s, citems s = items -> cmp_history (cpack s) ->
  sound items (matched items x (seen ++ r)) (evw nm (fold_left (fun c w => TOr c (cond_value x w)) r acc) s).
Proof.
  intros items nm x r. induction r as [|v r IH]; intros acc seen HA F s EI H; cbn [fold_left].
  - rewrite app_nil_r. now apply HA.
  - apply Forall_cons_iff in F. destruct F as [V R]. replace (seen ++ v :: r) with ((seen ++ [v]) ++ r) by now rewrite <- app_assoc.
    apply IH; auto. clear s EI H. intros s EI H. cbn [eval_with]. fold evw.
    destruct (HA s EI H) as (b & s1 & E & M & I1 & H1). rewrite E. cbn [obind fst snd]. destruct b.
    + exists true, s1. split; [reflexivity|]. split; [|auto]. destruct M as (w & IW & OW). exists w. split; [apply in_or_app; now left|exact OW].
    + destruct (cond_value_ok items nm x v s1 I1 H1 V) as (b2 & s2 & E2 & M2 & I2 & H2). rewrite E2. exists b2, s2. split; [reflexivity|]. split; [|auto].
      destruct b2; cbn [matched].
      * exists v. split; [apply in_or_app; right; now left|exact M2].
      * intros w IW. apply in_app_or in IW. destruct IW as [IW|[ <- |[]]]; [now apply M|exact M2].
Qed.

Lemma name_ok : forall items nm k s, citems s = items -> cmp_history (cpack s) ->
  n_values (names k) <> [] -> Forall (value_comparable items vals m (n_parent (names k))) (n_values (names k)) ->
  sound items (truth items vals col names (TLeaf (OCond k))) (evw nm (cond_88 (names k)) s).
Proof.
  intros items nm k s EI H NE F. unfold cond_88. destruct (n_values (names k)) as [|v r] eqn:E; [congruence|].
  inversion F as [|? ? V R]; subst.
  assert (HA : forall s0, citems s0 = citems s -> cmp_history (cpack s0) ->
    sound (citems s) (matched (citems s) (n_parent (names k)) [v]) (evw nm (cond_value (n_parent (names k)) v) s0)).
  { intros s0 I0 H0. destruct (cond_value_ok (citems s) nm (n_parent (names k)) v s0 I0 H0 V) as (b & s' & E' & M & I' & H').
    exists b, s'. split; [exact E'|]. split; [|auto]. destruct b; cbn [matched]; [exists v; split; [now left|exact M]|intros w [ <- |[]]; exact M]. }
  destruct (fold_values (citems s) nm (n_parent (names k)) r _ [v] HA R s eq_refl H) as (b & s' & E' & M & I' & H').
  exists b, s'. split; [exact E'|]. split; [|auto]. destruct b; cbn [matched app] in M.
  - destruct M as (w & IW & OW). apply (tr_name_true _ _ _ _ k w); [rewrite E; exact IW|exact OW].
  - apply tr_name_false. rewrite E. exact M.
Qed.

Theorem eval_ok : forall items t, ready items vals m col names t -> forall s, citems s = items -> cmp_history (cpack s) ->
  sound items (truth items vals col names t) (eval m debug alpha col nibble_c names t s).
Proof.
  intros items t. unfold eval. set (nm := fun k s' => _).
  induction t as [| |o|op x IHx y IHy|r x IHx y IHy|x IHx|x IHx y IHy|x IHx y IHy|c x IHx|x IHx]; intros R s EI H; try contradiction R.
  - destruct o as [| | |k]; try contradiction R. destruct R as [NE F]. cbn [eval_with]. unfold nm. now apply name_ok.
  - destruct (eval_rel items nm r x y s EI H R) as (b & s' & E & (c & CC & ->) & I' & H').
    exists (holds r c), s'. split; [exact E|]. split; [now apply tr_rel|auto].
  - cbn [eval_with]. fold evw. destruct (IHx R s EI H) as (b & s' & E & T & I' & H'). rewrite E. cbn [obind fst snd].
    exists (negb b), s'. split; [reflexivity|]. split; [now apply tr_not|auto].
  - cbn [eval_with]. fold evw. destruct R as [R1 R2]. destruct (IHx R1 s EI H) as (b & s' & E & T & I' & H'). rewrite E. cbn [obind fst snd]. destruct b.
    + destruct (IHy (R2 T) s' I' H') as (b2 & s2 & E2 & T2 & I2 & H2). exists b2, s2. split; [exact E2|]. split; [now apply tr_and|auto].
    + exists false, s'. split; [reflexivity|]. split; [now apply tr_and_false|auto].
  - cbn [eval_with]. fold evw. destruct R as [R1 R2]. destruct (IHx R1 s EI H) as (b & s' & E & T & I' & H'). rewrite E. cbn [obind fst snd]. destruct b.
    + exists true, s'. split; [reflexivity|]. split; [now apply tr_or_true|auto].
    + destruct (IHy (R2 T) s' I' H') as (b2 & s2 & E2 & T2 & I2 & H2). exists b2, s2. split; [exact E2|]. split; [now apply tr_or|auto].
  - destruct x as [| |o| | | | | | |]; try contradiction R. now apply (class_ok items c o s EI H R nm).
Qed.

End Main.

(** ** Without division the truth is unique *)
Section Unique.
Variables (items : list field) (vals : nat -> Z) (col : option (list Z)) (names : nat -> name88).
Lemma exact_tree_div : forall x a, exact_tree names x -> expr_of x = Some a -> has_div a = false.
Proof.
  induction x as [| |o|op x IHx y IHy| | | | | |]; intros a X E; try discriminate E.
  - destruct o as [|e|i|k]; try discriminate E; injection E as <-; [reflexivity|exact X].
  - cbn [expr_of] in E. destruct (expr_of x) as [b|]; [|discriminate E]. destruct (expr_of y) as [c|]; [|discriminate E]. injection E as <-.
    destruct X as (N & X1 & X2). cbn [has_div]. rewrite (IHx b X1 eq_refl), (IHy c X2 eq_refl). destruct op; try reflexivity. congruence.
Qed.
Lemma compares_unique : forall x y c c', exact_tree names x -> exact_tree names y ->
  compares items vals col x y c -> compares items vals col x y c' -> c = c'.
Proof.
  intros x y c c' X Y C C'. destruct C as [x y a b p q EX EY CA CB|i j T|i j T|i j T].
  - pose proof (exact_tree_div x a X EX) as DA. pose proof (exact_tree_div y b Y EY) as DB.
    destruct C' as [x y a' b' p' q' EX' EY' CA' CB'|i j T|i j T|i j T]; try discriminate EX.
    rewrite EX in EX'. rewrite EY in EY'. injection EX' as <-. injection EY' as <-.
    rewrite (computes_exact items vals a p CA DA), (computes_exact items vals b q CB DB), (computes_exact items vals a p' CA' DA), (computes_exact items vals b q' CB' DB). reflexivity.
  - inversion C' as [? ? a b p q EX EY CA CB|i0 j0 T'|i0 j0 T'|i0 j0 T']; subst; auto; try discriminate EX; exfalso.
    + exact (text_lt_neq col _ _ T T').
    + exact (text_lt_asym col _ _ T T').
  - inversion C' as [? ? a b p q EX EY CA CB|i0 j0 T'|i0 j0 T'|i0 j0 T']; subst; auto; try discriminate EX; exfalso.
    + exact (text_lt_neq col _ _ T' T).
    + exact (text_lt_neq col _ _ T' (text_eq_sym col _ _ T)).
  - inversion C' as [? ? a b p q EX EY CA CB|i0 j0 T'|i0 j0 T'|i0 j0 T']; subst; auto; try discriminate EX; exfalso.
    + exact (text_lt_asym col _ _ T T').
    + exact (text_lt_neq col _ _ T (text_eq_sym col _ _ T')).
Qed.
Lemma exact_leaf : forall o, match o with OCond _ => False | _ => True end -> exact_operand o -> exact_tree names (TLeaf o).
Proof. intros [| | |k] H X; cbn [exact_tree]; auto. contradiction. Qed.
Lemma compares_leaf : forall o p c, compares items vals col (TLeaf o) (TLeaf p) c ->
  match o with OCond _ => False | _ => True end /\ match p with OCond _ => False | _ => True end.
Proof.
  intros o p c C. inversion C as [? ? a b p0 q EX EY CA CB|i0 j0 T'|i0 j0 T'|i0 j0 T']; subst; auto.
  destruct o, p; try discriminate EX; try discriminate EY; auto.
Qed.
Lemma compares_leaf_unique : forall o p c c', exact_operand o -> exact_operand p ->
  compares items vals col (TLeaf o) (TLeaf p) c -> compares items vals col (TLeaf o) (TLeaf p) c' -> c = c'.
Proof.
  intros o p c c' X Y C C'. destruct (compares_leaf o p c C) as [L1 L2].
  apply (compares_unique (TLeaf o) (TLeaf p)); auto; now apply exact_leaf.
Qed.
Lemma one_or_none : forall x v, exact_operand x -> exact_value v -> is_one_of items vals col x v -> is_none_of items vals col x v -> False.
Proof.
  intros x [y|lo hi] X V O N; cbn [is_one_of is_none_of exact_value] in *.
  - destruct N as (c & C & NE). apply NE. now apply (compares_leaf_unique x y).
  - destruct V as [V1 V2], O as [(c1 & C1 & N1) (c2 & C2 & N2)], N as [N|N].
    + apply N1. now apply (compares_leaf_unique lo x).
    + apply N2. now apply (compares_leaf_unique x hi).
Qed.
Theorem truth_unique : forall t b, exact_tree names t -> truth items vals col names t b ->
  forall b', truth items vals col names t b' -> b = b'.
Proof.
  intros t b X T. induction T as [r x y c C|c o i b IX B|x b T IH|x y T IH|x y b T IH T2 IH2|x y T IH|x y b T IH T2 IH2|k v IV O|k N];
    intros b' T'; cbn [exact_tree] in X.
  - inversion T' as [r0 x0 y0 c0 C0| | | | | | | |]; subst. f_equal. destruct X as [X1 X2]. now apply (compares_unique x y).
  - inversion T' as [|c0 o0 i0 b0 IX0 B0| | | | | | |]; subst. rewrite IX in IX0. injection IX0 as <-. destruct b, b'; auto; [symmetry; apply B0, B|apply B, B0]; reflexivity.
  - inversion T' as [| |x0 b0 T0| | | | | |]; subst. f_equal. now apply IH.
  - destruct X as [X1 X2]. inversion T' as [| | | |x0 y0 b0 T0 T3| | | |]; subst; auto. now specialize (IH X1 true T0).
  - destruct X as [X1 X2]. inversion T' as [| | |x0 y0 T0|x0 y0 b0 T0 T3| | | |]; subst; auto. now specialize (IH X1 false T0).
  - destruct X as [X1 X2]. inversion T' as [| | | | | |x0 y0 b0 T0 T3| |]; subst; auto. now specialize (IH X1 false T0).
  - destruct X as [X1 X2]. inversion T' as [| | | | |x0 y0 T0|x0 y0 b0 T0 T3| |]; subst; auto. now specialize (IH X1 true T0).
  - destruct X as [X1 X2]. inversion T' as [| | | | | | |k0 v0 IV0 O0|k0 N0]; subst; auto. rewrite Forall_forall in X2. exfalso. now apply (one_or_none _ v X1 (X2 v IV) O), N0.
  - destruct X as [X1 X2]. inversion T' as [| | | | | | |k0 v0 IV0 O0|k0 N0]; subst; auto. rewrite Forall_forall in X2. exfalso. now apply (one_or_none _ v0 X1 (X2 v0 IV0) O0), N.
Qed.
End Unique.
