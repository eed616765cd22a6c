(** C77: RANGE, MIDRANGE, MEDIAN, MEAN and VARIANCE describe the numbers they are given. *)
From Coq Require Import QArith Qabs Qround Qfield Lqa Sorting.Permutation Sorting.Sorted.
From Verif Require Import Base BaseFacts Field Sign Decimal SpecNum Numeric SpecStore NumFacts.
From Verif Require Import DispProofs DecProofs BinProofs PackedProofs StoreProofs Move Edited MoveAll SpecMove MoveBin MoveNum IntAccess P_Num P_Move.
From Verif Require Import Compare SpecCmp CmpProofs CmpMore MoveMore Dates SpecDate DatesProofs SpecIntr Intr IntrProofs IntrProofs2 P_Intr.
From Verif Require Import Stats SpecStat StatsProofs.
Local Open Scope Z_scope.

Section Main.
Variables (m : cfg) (col : option (list Z)) (args : list field) (qs : list Q).
(** The arguments are numeric items of any usages, sizes and scales; [qs] are
    the numbers they hold. *)
Hypothesis HN : Forall2 (number_in (c_ebcdic m)) args qs.
Hypothesis HS : Forall (fun f => -128 < a_scale (fa f)) args.
Hypothesis NE : args <> [].

Lemma extremes : exists k1 k2 fl fh lo hi,
  intr_min m col args = Ok (k1, args) /\ intr_max m col args = Ok (k2, args) /\
  nth_error args k1 = Some fl /\ nth_error args k2 = Some fh /\
  number_in (c_ebcdic m) fl lo /\ number_in (c_ebcdic m) fh hi /\ least qs lo /\ greatest qs hi.
Proof.
  destruct (C47_numeric m col args NE (nums_forall _ _ _ HN)) as ((k1 & E1 & L1 & B1) & (k2 & E2 & L2 & B2)).
  destruct (first_least _ _ _ _ HN B1) as (fl & lo & N1 & H1 & LL). destruct (first_greatest _ _ _ _ HN B2) as (fh & hi & N2 & H2 & GG).
  exists k1, k2, fl, fh, lo, hi. repeat split; auto; try apply LL; try apply GG.
Qed.
Lemma least_unique : forall a b, least qs a -> least qs b -> (a == b)%Q.
Proof.
  intros a b ((x & IX & EX) & A) ((y & IY & EY) & B). apply Qle_antisym; [rewrite <- EY; auto|rewrite <- EX; auto].
Qed.
Lemma greatest_unique : forall a b, greatest qs a -> greatest qs b -> (a == b)%Q.
Proof.
  intros a b ((x & IX & EX) & A) ((y & IY & EY) & B). apply Qle_antisym; [rewrite <- EX; auto|rewrite <- EY; auto].
Qed.
Lemma scale_at : forall k f, nth_error args k = Some f -> -128 < a_scale (fa f).
Proof. intros k f E. rewrite Forall_forall in HS. apply HS. apply (nth_error_In _ _ E). Qed.

(** RANGE is exactly the greatest number minus the least one, when the
    difference can be written with 18 digits. *)
Theorem C77_range : forall lo hi S w, least qs lo -> greatest qs hi ->
  Forall (fun f => a_scale (fa f) <= S) args -> (rat w S == hi - lo)%Q -> Z.abs w < 10 ^ 18 ->
  exists r, intr_range m col args = Ok r /\ number_in (c_ebcdic m) r (hi - lo).
Proof.
  intros lo hi S w LO HI FS EW BW. destruct extremes as (k1 & k2 & fl & fh & lo' & hi' & E1 & E2 & N1 & N2 & (vl & D1 & Q1) & (vh & D2 & Q2) & LL & GG).
  unfold intr_range. rewrite E1, E2. cbn [obind fst]. rewrite N1, N2. rewrite (C02_fetch_exact m fh vh D2), (C02_fetch_exact m fl vl D1). cbn [obind fst].
  pose proof (scale_at _ _ N1) as S1. pose proof (scale_at _ _ N2) as S2. rewrite Forall_forall in FS.
  pose proof (FS fl (nth_error_In _ _ N1)) as F1. pose proof (FS fh (nth_error_In _ _ N2)) as F2. cbv beta in F1, F2.
  set (sl := a_scale (fa fl)) in *. set (sh := a_scale (fa fh)) in *.
  assert (ES : (if sl <? sh then sh else sl) = Z.max sh sl) by (destruct (Z.ltb_spec sl sh); lia). rewrite ES. clear ES.
  pose proof (dec_sub_scale vh sh vl sl ltac:(lia) ltac:(lia)) as DS.
  destruct (C05_arithmetic_exact vh sh vl sl ltac:(lia) ltac:(lia)) as (_ & X & _). cbv zeta in X.
  set (d := dec_sub (mkDec vh sh) (mkDec vl sl)) in *. set (s := Z.max sh sl) in *.
  assert (EV : (rat (dv d) (dsc d) == hi - lo)%Q).
  { rewrite X, Q1, Q2. rewrite (least_unique _ _ LL LO), (greatest_unique _ _ GG HI). reflexivity. }
  assert (BV : Z.abs (dv d) < 10 ^ 18).
  { rewrite DS in EV. rewrite (rat_to (dv d) s S) in EV by lia. rewrite <- EW in EV. apply rat_eq in EV. rewrite <- EV in BW.
    rewrite Z.abs_mul in BW. pose proof (pow10_gt0 (S - s) ltac:(lia)). rewrite (Z.abs_eq (10 ^ (S - s))) in BW by lia.
    assert (Z.abs (dv d) * 1 <= Z.abs (dv d) * 10 ^ (S - s)) by (apply Z.mul_le_mono_nonneg_l; lia). lia. }
  change (10 ^ 18) with 1000000000000000000 in BV.
  destruct (bin8_fits m 18 s true (dv d)) as (F & HH & L); [lia|change (2 ^ 63) with 9223372036854775808; lia|].
  destruct (store_exact m d (fresh (bin_attr 18 s true) 8)) as (r & ER & AR & _ & DR); auto; try lia.
  - apply bin8_item. lia.
  - rewrite ER. cbn [obind st_f]. exists r. split; auto. exists (dv d). rewrite HH in DR. split; auto. rewrite AR.
    cbn [fresh bin_attr fa a_scale]. rewrite <- DS. exact EV.
Qed.

(** MIDRANGE: the number converted to COMP-2 is exactly half the sum of the
    least and the greatest number. *)
Theorem C77_midrange : forall lo hi, least qs lo -> greatest qs hi ->
  exists d, intr_midrange m col args = Ok (Comp2 d) /\ (rat (dv d) (dsc d) == (lo + hi) / 2)%Q.
Proof.
  intros lo hi LO HI. destruct extremes as (k1 & k2 & fl & fh & lo' & hi' & E1 & E2 & N1 & N2 & (vl & D1 & Q1) & (vh & D2 & Q2) & LL & GG).
  unfold intr_midrange. rewrite E1, E2. cbn [obind fst]. rewrite N1, N2. rewrite (C02_fetch_exact m fh vh D2), (C02_fetch_exact m fl vl D1). cbn [obind fst].
  pose proof (scale_at _ _ N1) as S1. pose proof (scale_at _ _ N2) as S2.
  eexists. split; [reflexivity|].
  pose proof (dec_add_scale vl (a_scale (fa fl)) vh (a_scale (fa fh)) ltac:(lia) ltac:(lia)) as DS.
  pose proof (half_exact (dec_add (mkDec vl (a_scale (fa fl))) (mkDec vh (a_scale (fa fh)))) ltac:(lia)) as H. unfold decQ in H at 1. rewrite H.
  destruct (C05_arithmetic_exact vl (a_scale (fa fl)) vh (a_scale (fa fh)) ltac:(lia) ltac:(lia)) as (X & _ & _). cbv zeta in X. unfold decQ. rewrite X, Q1, Q2.
  rewrite (least_unique _ _ LL LO), (greatest_unique _ _ GG HI). field.
Qed.

(** MEDIAN of an odd number of arguments: an argument that holds the number in
    the middle, whatever qsort does with equal items. *)
Theorem C77_median_odd : forall sorted, qsort_leaves m col args sorted -> (length args mod 2 = 1)%nat ->
  exists r q, intr_median m args sorted = Ok (Arg r) /\ In r args /\ number_in (c_ebcdic m) r q /\ ranked qs (length args / 2) q.
Proof.
  intros sorted QL ODD. destruct (sorted_numbers m col args sorted qs HN QL) as (qs' & P & N' & SS). destruct QL as (PA & _).
  assert (LA : length args = length sorted) by (apply Permutation_length; exact PA).
  assert (R : forall k, (k < length args)%nat -> exists r q, nth_error sorted k = Some r /\ In r args /\ number_in (c_ebcdic m) r q /\ ranked qs k q).
  { intros k H. destruct (nth_error sorted k) as [f|] eqn:E; [|apply nth_error_None in E; lia].
    destruct (nums_nth _ _ _ _ _ N' E) as (q & NQ & HQ). exists f, q. split; [reflexivity|].
    split; [apply (Permutation_in _ (Permutation_sym PA)); apply (nth_error_In _ _ E)|]. split; [exact HQ|].
    apply (ranked_perm qs'); [apply Permutation_sym; exact P|]. apply ranked_sorted; auto. }
  unfold intr_median. destruct args as [|a [|b t]] eqn:EA; [congruence| |].
  - destruct (R 0%nat ltac:(cbn; lia)) as (r & q & NR & IR & HQ & RK). cbn [length] in LA. destruct sorted as [|z [|]]; cbn in LA; try discriminate.
    apply Permutation_length_1 in PA. subst z. cbn in NR. injection NR as <-. exists a, q. change (length [a] / 2)%nat with 0%nat. auto.
  - rewrite <- EA in *. rewrite (proj2 (Nat.eqb_eq _ _) ODD). assert (L : (length args / 2 < length args)%nat).
    { apply Nat.div_lt; [rewrite EA; cbn; lia|lia]. }
    destruct (R _ L) as (r & q & NR & X). rewrite NR. exists r, q. split; [reflexivity|exact X].
Qed.

(** MEDIAN of an even number of arguments: the number converted to COMP-2 is
    exactly half the sum of the two numbers in the middle. *)
Theorem C77_median_even : forall sorted, qsort_leaves m col args sorted -> (length args mod 2 = 0)%nat ->
  exists d a b, intr_median m args sorted = Ok (Comp2 d) /\ ranked qs (length args / 2 - 1) a /\ ranked qs (length args / 2) b /\
    (rat (dv d) (dsc d) == (a + b) / 2)%Q.
Proof.
  intros sorted QL EVEN. destruct (sorted_numbers m col args sorted qs HN QL) as (qs' & P & N' & SS). destruct QL as (PA & _).
  assert (LA : length args = length sorted) by (apply Permutation_length; exact PA).
  assert (R : forall k, (k < length args)%nat -> exists r q, nth_error sorted k = Some r /\ -128 < a_scale (fa r) /\ number_in (c_ebcdic m) r q /\ ranked qs k q).
  { intros k H. destruct (nth_error sorted k) as [f|] eqn:E; [|apply nth_error_None in E; lia].
    destruct (nums_nth _ _ _ _ _ N' E) as (q & NQ & HQ). exists f, q. split; [reflexivity|].
    split; [rewrite Forall_forall in HS; apply HS; apply (Permutation_in _ (Permutation_sym PA)); apply (nth_error_In _ _ E)|]. split; [exact HQ|].
    apply (ranked_perm qs'); [apply Permutation_sym; exact P|]. apply ranked_sorted; auto. }
  unfold intr_median. destruct args as [|x0 [|x1 t]] eqn:EA; [congruence|discriminate EVEN|]. rewrite <- EA in *. rewrite EVEN. change (0 =? 1)%nat with false. cbv iota zeta.
  assert (L2 : (2 <= length args)%nat) by (rewrite EA; cbn; lia).
  assert (L : (length args / 2 < length args)%nat) by (apply Nat.div_lt; lia).
  destruct (R (length args / 2 - 1)%nat ltac:(lia)) as (f1 & q1 & E1 & S1 & (v1 & D1 & Q1) & R1).
  destruct (R _ L) as (f2 & q2 & E2 & S2 & (v2 & D2 & Q2) & R2). rewrite E1, E2.
  rewrite (C02_fetch_exact m f1 v1 D1), (C02_fetch_exact m f2 v2 D2). cbn [obind fst].
  eexists. exists q1, q2. split; [reflexivity|]. split; [exact R1|]. split; [exact R2|].
  pose proof (dec_add_scale v1 (a_scale (fa f1)) v2 (a_scale (fa f2)) ltac:(lia) ltac:(lia)) as DS.
  pose proof (half_exact (dec_add (mkDec v1 (a_scale (fa f1))) (mkDec v2 (a_scale (fa f2)))) ltac:(lia)) as H. unfold decQ in H at 1. rewrite H.
  destruct (C05_arithmetic_exact v1 (a_scale (fa f1)) v2 (a_scale (fa f2)) ltac:(lia) ltac:(lia)) as (X & _ & _). cbv zeta in X. unfold decQ. rewrite X, Q1, Q2. field.
Qed.

Lemma lengths : length args = length qs.
Proof. clear NE HS. induction HN as [|? ? ? ? ? ? IH]; cbn [length]; [reflexivity|now rewrite IH]. Qed.

(** MEAN: the mean of the numbers, truncated to 18 digits. *)
Theorem C77_mean : forall w, trunc_at (meanQ qs) 0 w -> Z.abs w < 10 ^ 18 ->
  exists r i v, intr_mean m args = Ok r /\ digit_count w i /\ a_scale (fa r) = 18 - i /\
    denotes (c_ebcdic m) r v /\ trunc_at (meanQ qs) (a_scale (fa r)) v.
Proof.
  intros w TW BW. unfold intr_mean. destruct (total_spec m args qs (mkDec 0 0) HN HS) as (d & E & LE & Q); [cbn; lia|]. rewrite E. cbn [obind]. cbn [dsc] in LE.
  destruct (by_count_spec d (length args)) as (_ & B); [lia|destruct args; cbn [length]; [congruence|lia]|].
  assert (EQ : (decQ d / inject_Z (Z.of_nat (length args)) == meanQ qs)%Q).
  { unfold meanQ. rewrite lengths, Q. unfold decQ. cbn [dv dsc]. rewrite rat_zero, Qplus_0_l. reflexivity. }
  assert (M : made_from (meanQ qs) (by_count d (length args))).
  { destruct B as [(H & T)|(H1 & H2 & H3)]; [left; split; [exact H|apply (trunc_at_morph _ _ _ _ EQ T)]|right]. split; [exact H1|]. split; [exact H2|]. rewrite <- EQ. exact H3. }
  destruct (store_18_spec m (meanQ qs) _ w M TW BW) as (r & i & v & ER & DC & SC & D & T). exists r, i, v. rewrite SC. auto.
Qed.

(** VARIANCE: the variance of the numbers, plus an error below 10^-74 that comes
    from the mean being computed with 37 decimals or more (and is 0 when the
    mean has no more than that), truncated to 18 digits. *)
Theorem C77_variance : forall q, (2 <= length args)%nat -> (varianceQ qs <= inject_Z (10 ^ 18) - 1)%Q -> q = varianceQ qs ->
  exists r w i v e, intr_variance m args = Ok r /\ (0 <= e <= rat 1 74)%Q /\ ((exists k, meanQ qs == rat k 37)%Q -> (e == 0)%Q) /\
    trunc_at (q + e) 0 w /\ digit_count w i /\ a_scale (fa r) = 18 - i /\
    denotes (c_ebcdic m) r v /\ trunc_at (q + e) (a_scale (fa r)) v.
Proof.
  intros q L2 BV ->. unfold intr_variance. destruct (Nat.eqb_spec (length args) 1); [lia|].
  destruct (total_spec m args qs (mkDec 0 0) HN HS) as (d & E & LE & Q); [cbn; lia|]. rewrite E. cbn [obind]. cbn [dsc] in LE.
  destruct (by_count_spec d (length args)) as (S0 & B); [lia|lia|]. set (c := by_count d (length args)) in *.
  assert (EQ : (decQ d / inject_Z (Z.of_nat (length args)) == meanQ qs)%Q).
  { unfold meanQ. rewrite lengths, Q. unfold decQ. cbn [dv dsc]. rewrite rat_zero, Qplus_0_l. reflexivity. }
  destruct (deviations_spec m args qs c (mkDec 0 0) HN HS S0) as (d2 & E2 & LE2 & Q2); [cbn; lia|]. rewrite E2. cbn [obind].
  unfold decQ in Q2 at 2. cbn [dv dsc] in Q2. rewrite rat_zero, Qplus_0_l in Q2.
  set (e := ((decQ c - meanQ qs) * (decQ c - meanQ qs))%Q).
  assert (LQ : (0 < length qs)%nat) by (rewrite <- lengths; lia).
  assert (VQ : (decQ d2 / inject_Z (Z.of_nat (length args)) == varianceQ qs + e)%Q).
  { rewrite Q2, lengths. apply variance_about. exact LQ. }
  assert (ERR : (Qabs (decQ c - meanQ qs) <= rat 1 37)%Q /\ ((exists k, meanQ qs == rat k 37)%Q -> (decQ c == meanQ qs)%Q)).
  { destruct B as [(H & T)|(H1 & H2 & H3)].
    - pose proof (trunc_at_morph _ _ _ _ EQ T) as T'. split.
      + apply Qle_trans with (rat 1 (dsc c)); [apply trunc_error; exact T'|]. rewrite (rat_to 1 37 (dsc c)) by lia. apply rat_le.
        pose proof (pow10_gt0 (dsc c - 37) ltac:(lia)). lia.
      + intros (k & K). pose proof (DecProofs.trunc_at_exact k 37 (dsc c) H) as T2. assert (KM : (rat k 37 == meanQ qs)%Q) by (symmetry; exact K).
        pose proof (trunc_at_morph _ _ _ _ KM T2) as T3. unfold decQ. rewrite (trunc_at_unique _ _ _ _ T' T3). rewrite <- (rat_to k 37 (dsc c)) by lia. exact KM.
    - assert (Z0 : (decQ c == meanQ qs)%Q). { unfold decQ. rewrite H1, rat_zero, <- EQ. symmetry. exact H3. }
      split; [|intros _; exact Z0]. rewrite Z0. setoid_replace (meanQ qs - meanQ qs)%Q with 0%Q by ring. vm_compute. discriminate. }
  destruct ERR as (ER1 & ER2).
  assert (E0 : (0 <= e <= rat 1 74)%Q).
  { apply Qabs_Qle_condition in ER1. subst e. set (x := (decQ c - meanQ qs)%Q) in *. assert (R1 : (rat 1 74 == rat 1 37 * rat 1 37)%Q) by (rewrite rat_mul; reflexivity).
    rewrite R1. clear R1. set (t := rat 1 37) in *. split; nra. }
  assert (W : exists w, trunc_at (varianceQ qs + e) 0 w).
  { destruct (by_count_spec d2 (length args)) as (_ & B2); [lia|lia|].
    assert (M2 : made_from (varianceQ qs + e) (by_count d2 (length args))).
    { destruct B2 as [(H & T)|(H1 & H2 & H3)]; [left; split; [exact H|apply (trunc_at_morph _ _ _ _ VQ T)]|right]. split; [exact H1|]. split; [exact H2|]. rewrite <- VQ. exact H3. }
    destruct (made_cut _ _ 0 M2 ltac:(lia)) as (w & T1 & _). exists w. exact T1. }
  destruct W as (w & TW).
  assert (VN : (0 <= varianceQ qs)%Q).
  { unfold varianceQ. unfold meanQ at 1. rewrite map_length. apply Qle_shift_div_l; [change 0%Q with (inject_Z 0); rewrite <- Zlt_Qlt; lia|]. rewrite Qmult_0_l.
    generalize (meanQ qs). intros mu. clear. induction qs as [|x l IH]; cbn [map Qsum]; [apply Qle_refl|]. assert (SQ : forall y, (0 <= y * y)%Q).
    { intros y. destruct (Qlt_le_dec y 0) as [L|L]; [setoid_replace (y * y)%Q with ((- y) * (- y))%Q by ring|]; apply Qmult_le_0_compat; lra. }
    pose proof (SQ (x - mu)%Q). lra. }
  assert (BW : Z.abs w < 10 ^ 18).
  { destruct TW as (A & _ & _). rewrite rat_abs, rat0 in A. rewrite Qabs_pos in A by lra. assert (T1 : (rat 1 74 < 1)%Q) by (vm_compute; reflexivity).
    rewrite Zlt_Qlt. apply Qle_lt_trans with (1 := A). lra. }
  destruct (by_count_spec d2 (length args)) as (_ & B2); [lia|lia|].
  assert (M2 : made_from (varianceQ qs + e) (by_count d2 (length args))).
  { destruct B2 as [(H & T)|(H1 & H2 & H3)]; [left; split; [exact H|apply (trunc_at_morph _ _ _ _ VQ T)]|right]. split; [exact H1|]. split; [exact H2|]. rewrite <- VQ. exact H3. }
  destruct (store_18_spec m (varianceQ qs + e) _ w M2 TW BW) as (r & i & v & ER & DC & SC & D & T).
  exists r, w, i, v, e. split; [exact ER|]. split; [exact E0|]. split; [|rewrite SC; auto].
  intros K. subst e. rewrite (ER2 K). ring.
Qed.
End Main.
Print Assumptions C77_range.
Print Assumptions C77_midrange.
Print Assumptions C77_median_odd.
Print Assumptions C77_median_even.
Print Assumptions C77_mean.
Print Assumptions C77_variance.

(** VARIANCE of a single argument is 0. *)
Theorem C77_variance_one : forall m f, exists r, intr_variance m [f] = Ok r /\ holds_int (c_ebcdic m) r 0.
Proof.
  intros m f. unfold intr_variance. cbn [length Nat.eqb].
  destruct (C52_set_int m s18 0) as (g & E & A & SZ & R).
  - unfold is_int, INT_MIN, INT_MAX. lia.
  - exact s18_item.
  - intros _. change (a_scale (fa s18)) with 0. split; [cbn; lia|]. split; [lia|]. intros w T. rewrite (trunc_at_unique _ _ _ _ T (trunc_id 0 0)).
    split; [lia|]. replace (kept_digits m s18 0) with 0; [unfold bin_range, bits; change (8 * Z.of_nat (f_size s18) - 1) with 63; change (8 * Z.of_nat (f_size s18)) with 64; cbn [s18 fresh bin_attr fa a_sign]; lia|]. unfold kept_digits. destruct (_ && _); [|reflexivity]. reflexivity.
  - exists g. split; [exact E|]. split; [|rewrite A; reflexivity]. change (a_scale (fa s18)) with 0 in R. specialize (R 0 (trunc_id 0 0)).
    replace (held s18 (kept_digits m s18 0)) with 0 in R; [exact R|]. unfold kept_digits. destruct (_ && _); reflexivity.
Qed.
Print Assumptions C77_variance_one.

(** Values of several usages: 1, 2.5 (DISPLAY), -4 (binary), 3.25 (COMP-3): the
    range is 7.25, the middle is the mean of 1 and 2.5, the mean 0.6875, the
    variance 7.98046875. *)
Definition st_one : field := mkField (disp 2 0 false false false) [48; 49].
Definition st_two : field := mkField (disp 2 1 false false false) [50; 53].
Definition st_neg : field := mkField (bin_attr 4 0 true) [252; 255].
Definition st_dec : field := mkField (pack 3 2 true) (packed (pack 3 2 true) false [3; 2; 5]).
Definition st_args : list field := [st_one; st_two; st_neg; st_dec].
Definition st_qs : list Q := [rat 1 0; rat 25 1; rat (-4) 0; rat 325 2].
Example C77_numbers : Forall2 (number_in (c_ebcdic default_cfg)) st_args st_qs /\ Forall (fun f => -128 < a_scale (fa f)) st_args /\ st_args <> [].
Proof.
  split; [|split; [repeat constructor; cbn; lia|discriminate]]. unfold st_args, st_qs. repeat constructor.
  - exists 1. split; [|reflexivity]. apply (den_display false (disp 2 0 false false false) false [0; 1]); try reflexivity; try discriminate. repeat constructor; unfold is_dig; lia.
  - exists 25. split; [|reflexivity]. apply (den_display false (disp 2 1 false false false) false [2; 5]); try reflexivity; try discriminate. repeat constructor; unfold is_dig; lia.
  - exists (-4). split; [|reflexivity]. apply (den_binary false (bin_attr 4 0 true) [252; 255]); [reflexivity|cbn; lia|]. repeat constructor; discriminate.
  - exists 325. split; [|reflexivity]. apply (den_packed false (pack 3 2 true) false [3; 2; 5]); try reflexivity; try discriminate. repeat constructor; unfold is_dig; lia.
Qed.
Example C77_range_ex : least st_qs (rat (-4) 0) /\ greatest st_qs (rat 325 2) /\ (rat 725 2 == rat 325 2 - rat (-4) 0)%Q /\ (do r <- intr_range default_cfg None st_args; Ok (binary_get_int64 r, a_scale (fa r))) = Ok (725, 2).
Proof.
  split; [|split; [|split; [reflexivity|vm_compute; reflexivity]]].
  - split; [exists (rat (-4) 0); split; [cbn; auto|reflexivity]|]. intros x [<-|[<-|[<-|[<-|[]]]]]; vm_compute; discriminate.
  - split; [exists (rat 325 2); split; [cbn; auto|reflexivity]|]. intros x [<-|[<-|[<-|[<-|[]]]]]; vm_compute; discriminate.
Qed.
Example C77_midrange_ex : exists d, intr_midrange default_cfg None st_args = Ok (Comp2 d) /\ (rat (dv d) (dsc d) == rat (-375) 3)%Q.
Proof. eexists. split; [vm_compute; reflexivity|vm_compute; reflexivity]. Qed.
Example C77_median_ex : qsort_leaves default_cfg None st_args [st_neg; st_one; st_two; st_dec] /\ exists d, intr_median default_cfg st_args [st_neg; st_one; st_two; st_dec] = Ok (Comp2 d) /\ (rat (dv d) (dsc d) == rat 175 2)%Q.
Proof.
  split; [|eexists; split; [vm_compute; reflexivity|vm_compute; reflexivity]]. split.
  - unfold st_args. apply Permutation_trans with ([st_neg] ++ [st_one; st_two; st_dec]); [|apply Permutation_refl].
    change [st_one; st_two; st_neg; st_dec] with ([st_one; st_two] ++ st_neg :: [st_dec]). apply Permutation_sym. apply (Permutation_middle [st_one; st_two] [st_dec] st_neg).
  - repeat constructor; unfold comp_field_le; eexists; (split; [vm_compute; reflexivity|lia]).
Qed.
Example C77_median_odd_ex : qsort_leaves default_cfg None [st_two; st_neg; st_one] [st_neg; st_one; st_two] /\ intr_median default_cfg [st_two; st_neg; st_one] [st_neg; st_one; st_two] = Ok (Arg st_one) /\ ranked [rat 25 1; rat (-4) 0; rat 1 0] 1 (rat 1 0).
Proof.
  split; [|split; [vm_compute; reflexivity|]].
  - split; [|repeat constructor; unfold comp_field_le; eexists; (split; [vm_compute; reflexivity|lia])].
    apply Permutation_trans with [st_neg; st_two; st_one]; [apply perm_swap|apply perm_skip; apply perm_swap].
  - split; [exists (rat 1 0); split; [cbn; auto|reflexivity]|]. split; vm_compute; lia.
Qed.
Example C77_mean_ex : trunc_at (meanQ st_qs) 0 0 /\ (do r <- intr_mean default_cfg st_args; Ok (binary_get_int64 r, a_scale (fa r))) = Ok (687500000000000000, 18).
Proof. split; [|vm_compute; reflexivity]. unfold trunc_at. vm_compute. repeat split; discriminate || reflexivity. Qed.
(** The mean of 10, 10 and 11: 10.3333333333333333, 18 digits. *)
Example C77_mean_third : (do r <- intr_mean default_cfg [mkField (disp 2 0 false false false) [49; 48]; mkField (disp 2 0 false false false) [49; 48]; mkField (disp 2 0 false false false) [49; 49]];
  Ok (binary_get_int64 r, a_scale (fa r))) = Ok (103333333333333333, 16).
Proof. vm_compute. reflexivity. Qed.
Example C77_variance_ex : (varianceQ st_qs <= inject_Z (10 ^ 18) - 1)%Q /\ (varianceQ st_qs == rat 798046875 8)%Q /\ (do r <- intr_variance default_cfg st_args; Ok (binary_get_int64 r, a_scale (fa r))) = Ok (798046875 * 10 ^ 9, 17).
Proof. split; [vm_compute; discriminate|split; [vm_compute; reflexivity|vm_compute; reflexivity]]. Qed.
