(** Proofs about the statistical functions (Stats.v). *)
From Coq Require Import QArith Qabs Qround Qfield Lqa Sorting.Permutation Sorting.Sorted.
From Verif Require Import Base BaseFacts Field Sign Decimal SpecNum Numeric SpecStore NumFacts.
From Verif Require Import DispProofs DecProofs BinProofs PackedProofs StoreProofs Move Edited MoveAll SpecMove MoveBin MoveNum IntAccess P_Num P_Move.
From Verif Require Import Compare SpecCmp CmpProofs CmpMore MoveMore Dates SpecDate DatesProofs SpecIntr Intr IntrProofs IntrProofs2 P_Intr.
From Verif Require Import Stats SpecStat.
Local Open Scope Z_scope.

Definition nums (e : bool) (fs : list field) (qs : list Q) : Prop := Forall2 (number_in e) fs qs.
Definition scales_ok (fs : list field) : Prop := Forall (fun f => -128 < a_scale (fa f)) fs.

Lemma total_spec : forall m fs qs d, nums (c_ebcdic m) fs qs -> scales_ok fs -> -128 < dsc d ->
  exists d', total m fs d = Ok d' /\ dsc d <= dsc d' /\ (decQ d' == decQ d + Qsum qs)%Q.
Proof.
  intros m fs qs d F. revert d. induction F as [|f q fs qs (v & DV & EQ) F IH]; intros [v0 s0] HS N; cbn [total dsc dv] in *.
  - exists (mkDec v0 s0). cbn [dsc Qsum]. split; [reflexivity|split; [lia|]]. rewrite Qplus_0_r. reflexivity.
  - inversion HS as [|? ? HF HFS]; subst. rewrite (C02_fetch_exact m f v DV). cbn [obind fst]. set (sf := a_scale (fa f)) in *.
    pose proof (dec_add_scale v0 s0 v sf ltac:(lia) ltac:(lia)) as DS.
    destruct (IH (dec_add (mkDec v0 s0) (mkDec v sf)) HFS ltac:(lia)) as (d' & E & LE & Q). exists d'. split; [exact E|]. split; [lia|].
    rewrite Q. destruct (C05_arithmetic_exact v0 s0 v sf ltac:(lia) ltac:(lia)) as (X & _). cbv zeta in X. unfold decQ at 1 2. cbn [dv dsc]. rewrite X.
    cbn [Qsum]. rewrite EQ. rewrite Qplus_assoc. reflexivity.
Qed.

Lemma by_count_spec : forall d n, -128 < dsc d -> (0 < n)%nat ->
  let r := by_count d n in let q := (decQ d / inject_Z (Z.of_nat n))%Q in
  0 <= dsc r /\ ((37 <= dsc r /\ trunc_at q (dsc r) (dv r)) \/ (dv r = 0 /\ dsc r = 0 /\ (q == 0)%Q)).
Proof.
  intros [v s] n N HN r q. cbn [dsc] in N.
  destruct (dec_div_spec (mkDec v s) (mkDec (Z.of_nat n) 0)) as (_ & T & S1 & S0); unfold not_nan, DECIMAL_NAN; cbn [dv dsc]; try lia.
  fold r in T, S1, S0. unfold by_count in r. fold r in T, S1, S0.
  assert (EQ : (decQ (mkDec v s) / decQ (mkDec (Z.of_nat n) 0) == q)%Q).
  { subst q. unfold decQ at 2. cbn [dv dsc]. rewrite rat0. reflexivity. }
  cbn [dv] in S1, S0. destruct (Z.eq_dec v 0) as [-> | NZ].
  - destruct (S0 eq_refl) as (A & B). split; [lia|]. right. split; [exact A|split; [exact B|]].
    subst q. unfold decQ. cbn [dv dsc]. rewrite rat_zero. unfold Qdiv. ring.
  - specialize (S1 NZ). split; [lia|]. left. split; [exact S1|]. apply (trunc_at_morph _ _ _ _ EQ T).
Qed.

(** Halving is exact. *)
Lemma half_exact : forall d, -128 < dsc d -> (decQ (by_count d 2) == decQ d * (1 # 2))%Q.
Proof.
  intros [v s] N. cbn [dsc] in N. unfold by_count, dec_div, nan_in. change (Z.of_nat 2) with 2. cbn [dsc dv].
  destruct (Z.eqb_spec s DECIMAL_NAN); [unfold DECIMAL_NAN in *; lia|]. change (0 =? DECIMAL_NAN) with false. cbn [orb].
  change (2 =? 0) with false. cbv iota. destruct (Z.eqb_spec v 0) as [-> | NZ].
  - cbn [fst]. unfold decQ. cbn [dv dsc]. rewrite !rat_zero. ring.
  - rewrite Z.sub_0_r. set (k := 37 + (if s <? 0 then - s else 0)). assert (K : 37 <= k) by (subst k; destruct (Z.ltb_spec s 0); lia).
    unfold shift_decimal. destruct (Z.eqb_spec k 0); [lia|]. destruct (Z.ltb_spec 0 k); [|lia]. cbn [fst]. unfold decQ. cbn [dv dsc].
    assert (E : v * 10 ^ k = 2 * (v * 5 * 10 ^ (k - 1))).
    { replace k with (Z.succ (k - 1)) at 1 by lia. rewrite Z.pow_succ_r by lia. lia. }
    assert (EQ : Z.quot (v * 10 ^ k) 2 = v * 5 * 10 ^ (k - 1)) by (rewrite E, Z.mul_comm; apply Z.quot_mul; lia).
    rewrite EQ. clear EQ. pose proof (rat_scale v s k ltac:(lia)) as R. rewrite E in R. rewrite <- rat_double in R. rewrite <- R. ring.
Qed.

(** ** Storing 18 digits *)
Lemma count_digits_spec : forall fuel n i, Z.abs n < 10 ^ Z.of_nat fuel ->
  exists k, count_digits fuel n i = i + k /\ digit_count n k /\ k <= Z.of_nat fuel.
Proof.
  induction fuel as [|g IH]; intros n i H; cbn [count_digits].
  - change (10 ^ Z.of_nat 0) with 1 in H. exists 0. split; [lia|]. split; [|lia]. split; [lia|]. split; [change (10 ^ 0) with 1; lia|lia].
  - rewrite Nat2Z.inj_succ, Z.pow_succ_r in H by lia. destruct (Z.eqb_spec n 0) as [-> | NZ].
    + exists 0. split; [lia|]. split; [|lia]. split; [lia|]. split; [change (10 ^ 0) with 1; lia|lia].
    + assert (QA : Z.abs (Z.quot n 10) = Z.abs n / 10).
      { rewrite <- Z.quot_abs by lia. apply Z.quot_div_nonneg; lia. }
      destruct (IH (Z.quot n 10) (i + 1)) as (k & E & (K0 & K1 & K2) & KL).
      { rewrite QA. apply Z.div_lt_upper_bound; lia. }
      exists (k + 1). rewrite E. split; [lia|]. rewrite QA in K1, K2. split; [|lia]. split; [lia|]. rewrite Z.add_simpl_r. split.
      * rewrite Z.pow_add_r by lia. change (10 ^ 1) with 10. assert (Z.abs n = 10 * (Z.abs n / 10) + Z.abs n mod 10) by (apply Z.div_mod; lia).
        pose proof (Z.mod_pos_bound (Z.abs n) 10 ltac:(lia)). lia.
      * intros _. destruct (Z.eq_dec k 0) as [-> |].
        -- change (10 ^ 0) with 1. lia.
        -- specialize (K2 ltac:(lia)). replace k with (Z.succ (k - 1)) by lia. rewrite Z.pow_succ_r by lia.
           assert (10 * (Z.abs n / 10) <= Z.abs n) by (apply Z.mul_div_le; lia). lia.
Qed.

(** [q] is what [d] was truncated from. *)
Definition made_from (q : Q) (d : decimal) : Prop :=
  (37 <= dsc d /\ trunc_at q (dsc d) (dv d)) \/ (dv d = 0 /\ dsc d = 0 /\ (q == 0)%Q).
Lemma made_cut : forall q d s, made_from q d -> 0 <= s <= 18 -> exists v, trunc_at q s v /\ trunc_at (rat (dv d) (dsc d)) s v.
Proof.
  intros q [v S] s [(H & T)|(A & B & Z0)] HS; cbn [dsc dv] in *.
  - exists (Z.quot v (10 ^ (S - s))). split; apply trunc_at_twice; try lia; auto. apply trunc_id.
  - subst. exists 0. assert (T : trunc_at (rat 0 0) s 0) by (pose proof (trunc_at_exact 0 0 s) as X; apply X; rewrite !rat_zero; reflexivity).
    split; [|exact T]. apply (trunc_at_morph (rat 0 0)); [rewrite rat_zero; symmetry; exact Z0|exact T].
Qed.

Lemma store_18_spec : forall m q d w, made_from q d -> trunc_at q 0 w -> Z.abs w < 10 ^ 18 ->
  exists r i v, store_18 m d = Ok r /\ digit_count w i /\ a_scale (fa r) = 18 - i /\ denotes (c_ebcdic m) r v /\ trunc_at q (18 - i) v.
Proof.
  intros m q d w M TW BW. unfold store_18.
  assert (ND : dsc d <> -128) by (destruct M as [(H & _)|(_ & H & _)]; lia).
  destruct (made_cut q d 0 M ltac:(lia)) as (w' & T1 & T2). rewrite (trunc_at_unique _ _ _ _ T1 TW) in *. clear w' T1.
  change (10 ^ 18) with 1000000000000000000 in BW.
  destruct (bin8_fits m 18 0 true w) as (F & HH & L); [lia|change (2 ^ 63) with 9223372036854775808; lia|].
  destruct (store_trunc m d s18 w ND s18_item T2 L F) as (f' & E & A & SZ & D). rewrite E. cbn [obind st_f]. change (held s18 w) with w in D.
  assert (EB : binary_get_int64 f' = w).
  { apply (binary_get_value _ _ _ D); [rewrite A; reflexivity|unfold is_ll, LL_MIN, LL_MAX; lia]. }
  rewrite EB. destruct (count_digits_spec 19 w 0) as (i & EI & DC & _); [change (10 ^ Z.of_nat 19) with 10000000000000000000; lia|]. rewrite EI, Z.add_0_l.
  assert (I18 : 0 <= i <= 18).
  { destruct DC as (I0 & I1 & I2). split; [exact I0|]. destruct (Z.le_gt_cases i 18) as [|G]; auto. specialize (I2 ltac:(lia)).
    assert (10 ^ 18 <= 10 ^ (i - 1)) by (apply Z.pow_le_mono_r; lia). change (10 ^ 18) with 1000000000000000000 in *. lia. }
  destruct (Z.leb_spec i 18); [|lia].
  destruct (made_cut q d (18 - i) M ltac:(lia)) as (v & V1 & V2).
  assert (WV : w = Z.quot v (10 ^ (18 - i))).
  { pose proof (trunc_at_twice q (18 - i) 0 v ltac:(lia) V1) as X. rewrite Z.sub_0_r in X. exact (trunc_at_unique _ _ _ _ TW X). }
  assert (BV : Z.abs v < 10 ^ 18).
  { destruct DC as (_ & I1 & _). pose proof (pow10_gt0 (18 - i) ltac:(lia)) as P.
    assert (QA : Z.abs w = Z.abs v / 10 ^ (18 - i)).
    { rewrite WV. rewrite <- Z.quot_abs by lia. rewrite (Z.abs_eq (10 ^ (18 - i))) by lia. apply Z.quot_div_nonneg; lia. }
    replace 18 with ((18 - i) + i) by lia. rewrite Z.pow_add_r by lia.
    pose proof (Z.div_mod (Z.abs v) (10 ^ (18 - i)) ltac:(lia)). pose proof (Z.mod_pos_bound (Z.abs v) (10 ^ (18 - i)) ltac:(lia)).
    assert (10 ^ (18 - i) * (Z.abs w + 1) <= 10 ^ (18 - i) * 10 ^ i) by (apply Z.mul_le_mono_nonneg_l; lia). rewrite <- QA in H0. lia. }
  change (10 ^ 18) with 1000000000000000000 in BV.
  destruct (bin8_fits m 18 (18 - i) true v) as (F2 & HH2 & L2); [lia|change (2 ^ 63) with 9223372036854775808; lia|].
  destruct (store_trunc m d (fresh (bin_attr 18 (18 - i) true) 8) v ND) as (r & ER & AR & _ & DR); auto.
  - apply bin8_item. lia.
  - rewrite ER. cbn [obind st_f]. exists r, i, v. split; [reflexivity|]. split; [exact DC|]. split; [rewrite AR; reflexivity|].
    rewrite HH2 in DR. split; [exact DR|exact V1].
Qed.

(** ** Ranks *)
Lemma filter_perm : forall {A} (f : A -> bool) l l', Permutation l l' -> length (filter f l) = length (filter f l').
Proof.
  intros A f l l' P. induction P; cbn [filter]; auto; try congruence.
  - destruct (f x); cbn [length]; congruence.
  - destruct (f x), (f y); reflexivity.
Qed.
Lemma ranked_perm : forall l l' k q, Permutation l l' -> ranked l k q -> ranked l' k q.
Proof.
  intros l l' k q P ((x & IX & EX) & A & B). split; [exists x; split; [apply (Permutation_in _ P IX)|exact EX]|].
  split; [rewrite <- (filter_perm _ _ _ P); exact A|rewrite <- (filter_perm _ _ _ P); exact B].
Qed.
Lemma ranked_sorted : forall l k q, StronglySorted Qle l -> nth_error l k = Some q -> ranked l k q.
Proof.
  intros l k q S N. destruct (nth_error_split l k N) as (l1 & l2 & E & L). subst l k.
  assert (H : (forall x, In x l1 -> (x <= q)%Q) /\ (forall x, In x l2 -> (q <= x)%Q)).
  { clear N. induction l1 as [|a l1 IH]; cbn [app] in S; inversion S as [|? ? S' F]; subst.
    - split; [intros x []|]. rewrite Forall_forall in F. exact F.
    - destruct (IH S') as (A & B). split; auto. intros x [<-|I]; auto. rewrite Forall_forall in F. apply F. apply in_or_app. right. left. reflexivity. }
  destruct H as (H1 & H2). split; [exists q; split; [apply in_or_app; right; left; reflexivity|reflexivity]|].
  rewrite !filter_app, !app_length. cbn [filter]. assert (R : Qle_bool q q = true) by (apply Qle_bool_iff; apply Qle_refl). rewrite R. cbn [negb length]. split.
  - assert (E2 : filter (fun x => negb (Qle_bool q x)) l2 = []).
    { clear - H2. induction l2 as [|a l2 IH]; cbn [filter]; [reflexivity|]. rewrite (proj2 (Qle_bool_iff q a) (H2 a (or_introl eq_refl))). cbn [negb].
      apply IH. intros x I. apply H2. right. exact I. }
    rewrite E2. cbn [length]. assert (LL : forall (f : Q -> bool) l, (length (filter f l) <= length l)%nat).
    { intros f l. induction l as [|a l IH]; cbn [filter length]; [lia|]. destruct (f a); cbn [length]; lia. }
    pose proof (LL (fun x => negb (Qle_bool q x)) l1). lia.
  - assert (E1 : filter (fun x => Qle_bool x q) l1 = l1).
    { clear - H1. induction l1 as [|a l1 IH]; cbn [filter]; [reflexivity|]. rewrite (proj2 (Qle_bool_iff a q) (H1 a (or_introl eq_refl))).
      f_equal. apply IH. intros x I. apply H1. right. exact I. }
    rewrite E1. lia.
Qed.

Lemma number_num : forall e f q, number_in e f q -> exists v, denotes e f v /\ (rat v (a_scale (fa f)) == q)%Q.
Proof. intros e f q H. exact H. Qed.

(** What qsort leaves is in ascending order. *)
Lemma sorted_numbers : forall m col args sorted qs, nums (c_ebcdic m) args qs -> qsort_leaves m col args sorted ->
  exists qs', Permutation qs qs' /\ nums (c_ebcdic m) sorted qs' /\ StronglySorted Qle qs'.
Proof.
  intros m col args sorted qs N (P & S). destruct (Permutation_Forall2 P N) as (qs' & P' & N'). exists qs'. split; [exact P'|]. split; [exact N'|].
  apply Sorted_StronglySorted; [intros x y z; apply Qle_trans|]. clear P P' N qs args.
  revert qs' N'. induction S as [|x l S IH H]; intros qs' N'; inversion N' as [|? q ? qs2 NX N2]; subst; [constructor|].
  constructor; [apply IH; exact N2|]. inversion N2 as [|y q2 l2 qs3 NY N3]; subst; constructor.
  inversion H as [|? ? (c & EC & LC)]; subst.
  destruct NX as (vx & DX & QX). destruct NY as (vy & DY & QY). destruct (num_cmp_ok m col x y vx vy DX DY) as (c' & E' & _ & G).
  rewrite EC in E'. injection E' as <-. rewrite <- QX, <- QY. apply Qnot_lt_le. intros X.
  assert (Y : num_less (c_ebcdic m) y x) by (apply (num_less_iff _ _ _ _ _ DY DX); exact X). apply G in Y. lia.
Qed.
Lemma nums_nth : forall e fs qs k f, nums e fs qs -> nth_error fs k = Some f -> exists q, nth_error qs k = Some q /\ number_in e f q.
Proof.
  intros e fs qs k f N. revert k. induction N as [|f0 q0 fs qs H N IH]; intros k E; destruct k as [|k]; cbn [nth_error] in *; try discriminate.
  - injection E as <-. eauto.
  - apply IH. exact E.
Qed.
Lemma nums_forall : forall e fs qs, nums e fs qs -> Forall (fun f => exists v, denotes e f v) fs.
Proof. intros e fs qs N. induction N as [|f q fs qs (v & D & _) N IH]; constructor; eauto. Qed.

(** Least and greatest. *)
Lemma nums_in : forall e fs qs f, nums e fs qs -> In f fs -> exists q, In q qs /\ number_in e f q.
Proof. intros e fs qs f N I. destruct (In_nth_error _ _ I) as (k & K). destruct (nums_nth e fs qs k f N K) as (q & A & B). exists q. split; [apply (nth_error_In _ _ A)|exact B]. Qed.
Lemma nums_in_q : forall e fs qs q, nums e fs qs -> In q qs -> exists f, In f fs /\ number_in e f q.
Proof.
  intros e fs qs q N. induction N as [|f q0 fs qs H N IH]; intros I; [destruct I|]. destruct I as [<-|I]; [exists f; split; [left|]; auto|].
  destruct (IH I) as (g & G1 & G2). exists g. split; [right|]; auto.
Qed.
Lemma first_least : forall e fs qs k, nums e fs qs -> first_best (num_less e) fs k ->
  exists f q, nth_error fs k = Some f /\ number_in e f q /\ least qs q.
Proof.
  intros e fs qs k N (f & NF & B1 & _). destruct (nums_nth e fs qs k f N NF) as (q & NQ & HQ). exists f, q. split; [exact NF|]. split; [exact HQ|].
  split; [exists q; split; [apply (nth_error_In _ _ NQ)|reflexivity]|]. intros x I. destruct (nums_in_q e fs qs x N I) as (g & IG & HG).
  destruct (In_nth_error _ _ IG) as (j & J). apply Qnot_lt_le. intros L. apply (B1 j g J). exists x, q. auto.
Qed.
Lemma first_greatest : forall e fs qs k, nums e fs qs -> first_best (num_more e) fs k ->
  exists f q, nth_error fs k = Some f /\ number_in e f q /\ greatest qs q.
Proof.
  intros e fs qs k N (f & NF & B1 & _). destruct (nums_nth e fs qs k f N NF) as (q & NQ & HQ). exists f, q. split; [exact NF|]. split; [exact HQ|].
  split; [exists q; split; [apply (nth_error_In _ _ NQ)|reflexivity]|]. intros x I. destruct (nums_in_q e fs qs x N I) as (g & IG & HG).
  destruct (In_nth_error _ _ IG) as (j & J). apply Qnot_lt_le. intros L. apply (B1 j g J). exists q, x. auto.
Qed.

(** ** VARIANCE *)
Lemma deviations_spec : forall m fs qs mean acc, nums (c_ebcdic m) fs qs -> scales_ok fs -> 0 <= dsc mean -> 0 <= dsc acc ->
  exists d', deviations m fs mean acc = Ok d' /\ 0 <= dsc d' /\
    (decQ d' == decQ acc + Qsum (map (fun x => (x - decQ mean) * (x - decQ mean)) qs))%Q.
Proof.
  intros m fs qs [vm sm] acc F. revert acc. induction F as [|f q fs qs (v & DV & EQ) F IH]; intros [v0 s0] HS N N0; cbn [deviations dsc] in *.
  - exists (mkDec v0 s0). cbn [dsc map Qsum]. split; [reflexivity|split; [lia|]]. rewrite Qplus_0_r. reflexivity.
  - inversion HS as [|? ? HF HFS]; subst. rewrite (C02_fetch_exact m f v DV). cbn [obind fst]. cbv zeta. set (sf := a_scale (fa f)) in *.
    set (e := dec_sub (mkDec v sf) (mkDec vm sm)).
    assert (ES : dsc e = Z.max sf sm) by (apply dec_sub_scale; lia).
    destruct (C05_arithmetic_exact v sf vm sm ltac:(lia) ltac:(lia)) as (_ & XS & _). cbv zeta in XS. fold e in XS.
    destruct e as [ve se]. cbn [dsc dv] in ES, XS.
    pose proof (dec_mul_scale ve se ve se ltac:(lia) ltac:(lia)) as MS.
    destruct (C05_arithmetic_exact ve se ve se ltac:(lia) ltac:(lia)) as (_ & _ & XM). cbv zeta in XM.
    destruct (dec_mul (mkDec ve se) (mkDec ve se)) as [vv sv]. cbn [dsc dv] in MS, XM.
    pose proof (dec_add_scale v0 s0 vv sv ltac:(lia) ltac:(lia)) as AS.
    destruct (C05_arithmetic_exact v0 s0 vv sv ltac:(lia) ltac:(lia)) as (XA & _ & _). cbv zeta in XA.
    destruct (IH (dec_add (mkDec v0 s0) (mkDec vv sv)) HFS N ltac:(lia)) as (d' & E & LE & Q). exists d'. split; [exact E|]. split; [exact LE|].
    rewrite Q. unfold decQ at 1 4. cbn [dv dsc]. rewrite XA, XM, XS, EQ. cbn [map Qsum]. unfold decQ at 3 4. cbn [dv dsc]. ring.
Qed.

Lemma Qsum_squares : forall qs c, (Qsum (map (fun x => (x - c) * (x - c)) qs) ==
  Qsum (map (fun x => x * x) qs) - (2 # 1) * c * Qsum qs + inject_Z (Z.of_nat (length qs)) * c * c)%Q.
Proof.
  intros qs c. induction qs as [|q qs IH]; cbn [map Qsum length].
  - change (inject_Z (Z.of_nat 0)) with 0%Q. ring.
  - rewrite IH. rewrite Nat2Z.inj_succ, <- Z.add_1_r, inject_Z_plus. change (inject_Z 1) with 1%Q. ring.
Qed.
Lemma variance_about : forall qs c, (0 < length qs)%nat ->
  (Qsum (map (fun x => (x - c) * (x - c)) qs) / inject_Z (Z.of_nat (length qs)) == varianceQ qs + (c - meanQ qs) * (c - meanQ qs))%Q.
Proof.
  intros qs c H. unfold varianceQ. unfold meanQ at 1. rewrite map_length, !Qsum_squares. unfold meanQ.
  assert (NZ : ~ (inject_Z (Z.of_nat (length qs)) == 0)%Q).
  { change 0%Q with (inject_Z 0). rewrite inject_Z_injective. lia. }
  field. exact NZ.
Qed.

(** How far the truncated mean may be off. *)
Lemma trunc_error : forall q s v, trunc_at q s v -> (Qabs (rat v s - q) <= rat 1 s)%Q.
Proof.
  intros q s v (A & B & C). rewrite rat_abs in A. assert (E : (rat (Z.abs v + 1) s == rat (Z.abs v) s + rat 1 s)%Q) by (rewrite rat_add; reflexivity).
  rewrite E in B. clear E. apply Qabs_Qle_condition.
  destruct (Z.lt_trichotomy v 0) as [L|[-> |G]].
  - rewrite (Z.abs_neq v) in A, B by lia. rewrite <- rat_opp in A, B. apply rat_sgn_neg with (s := s) in L.
    assert (QN : (q <= 0)%Q).
    { apply Qnot_lt_le. intros X. assert (Y : (rat v s * q < 0)%Q).
      { setoid_replace 0%Q with (0 * q)%Q by ring. apply Qmult_lt_compat_r; auto. } apply (Qlt_not_le _ _ Y C). }
    rewrite Qabs_neg in A, B by exact QN. split; lra.
  - change (Z.abs 0) with 0 in *. rewrite rat_zero in *. rewrite Qplus_0_l in B. apply Qlt_le_weak in B.
    apply Qabs_Qle_condition in B. split; lra.
  - rewrite (Z.abs_eq v) in A, B by lia. apply rat_sgn_pos with (s := s) in G.
    assert (QN : (0 <= q)%Q).
    { apply Qnot_lt_le. intros X. assert (Y : (rat v s * q < 0)%Q).
      { setoid_replace (rat v s * q)%Q with (q * rat v s)%Q by ring. setoid_replace 0%Q with (0 * rat v s)%Q by ring. apply Qmult_lt_compat_r; auto. }
      apply (Qlt_not_le _ _ Y C). }
    rewrite Qabs_pos in A, B by exact QN. split; lra.
Qed.
