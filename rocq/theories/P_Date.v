(** Theorems C42 (date functions) and C48 (year windowing). *)
From Coq Require Import QArith Qabs.
From Verif Require Import Base BaseFacts Field Sign Decimal SpecNum Numeric SpecStore NumFacts.
From Verif Require Import DispProofs StoreProofs Move Edited MoveAll SpecMove P_Num P_Move.
From Verif Require Import MoveMore Dates SpecDate DatesProofs.
Local Open Scope Z_scope.

(** ** the calendar itself (facts about the specification) *)
Theorem C42_calendar : forall n n' d d', nth_day n d -> nth_day n' d' ->
  valid_date d /\ (n = n' <-> d = d') /\ (n < n' <-> yyyymmdd d < yyyymmdd d').
Proof.
  assert (MONO : forall d d', in_cal d -> in_cal d' -> yyyymmdd d < yyyymmdd d' -> ordinal d < ordinal d').
  { intros [[y m] d] [[y' m'] d'] (A & B & C) (A' & B' & C') L. unfold yyyymmdd in L. unfold ordinal.
    pose proof (mlen_pos y m B) as P. pose proof (mlen_pos y' m' B') as P'.
    destruct (Z.lt_ge_cases y y') as [LY|LY].
    - replace (Z.to_nat (y' - 1601)) with (Z.to_nat (y - 1601) + S (Z.to_nat (y' - y - 1)))%nat by lia.
      rewrite span_add. cbn [span]. replace (1601 + Z.of_nat (Z.to_nat (y - 1601))) with y by lia.
      pose proof (before_range y m d B C). pose proof (before_range y' m' d' B' C').
      pose proof (span_bound (Z.to_nat (y' - y - 1)) (y + 1)). lia.
    - assert (y = y') by lia. subst y'. destruct (Z.lt_ge_cases m m') as [LM|LM].
      + pose proof (before_mono y (m + 1) m' ltac:(lia) ltac:(lia)). unfold mlen in C. lia.
      + assert (m = m') by lia. subst m'. lia. }
  assert (KEY : forall d d', in_cal d -> in_cal d' -> yyyymmdd d = yyyymmdd d' -> d = d').
  { intros [[y m] d] [[y' m'] d'] (A & B & C) (A' & B' & C') L. unfold yyyymmdd in L.
    pose proof (mlen_pos y m B) as P. pose proof (mlen_pos y' m' B') as P'.
    assert (y = y') by lia. assert (m = m') by lia. assert (d = d') by lia. congruence. }
  intros n n' d d' H H'. destruct (nth_day_ordinal _ _ H) as (I & ->). destruct (nth_day_ordinal _ _ H') as (I' & ->).
  split.
  - destruct d as [[y m] d]. apply valid_in_cal; auto. apply I.
  - split.
    + split; [apply ordinal_inj; auto|congruence].
    + split; intros L.
      * destruct (Z.lt_ge_cases (yyyymmdd d) (yyyymmdd d')) as [|G]; auto. exfalso.
        destruct (Z.eq_dec (yyyymmdd d) (yyyymmdd d')) as [E|E].
        -- apply KEY in E; auto. subst d'. lia.
        -- specialize (MONO d' d I' I ltac:(lia)). lia.
      * apply MONO; auto.
Qed.
Print Assumptions C42_calendar.
Theorem C42_last_day : nth_day 3067671 (9999, 12, 31).
Proof.
  assert (I : in_cal (9999, 12, 31)) by (pose proof (before_last 9999) as (_ & _ & M & _); unfold in_cal; lia).
  pose proof (ordinal_nth _ I) as H.
  assert (E : ordinal (9999, 12, 31) = 3067671) by (vm_compute; reflexivity). rewrite E in H. exact H.
Qed.
Print Assumptions C42_last_day.

(** ** DATE-OF-INTEGER *)
Lemma fmt_date : forall ebc y m d, 0 <= y <= 9999 -> 0 <= m <= 99 -> 0 <= d <= 99 ->
  holds_int ebc (mkField (disp_attr 8) (fmt_cut 8 (fmt_d 4 y ++ fmt_d 2 m ++ fmt_d 2 d))) (10000 * y + 100 * m + d).
Proof.
  intros ebc y m d HY HM HD. split; [|reflexivity].
  rewrite !fmt_d_fixed by (first [change (10 ^ Z.of_nat 4) with 10000|change (10 ^ Z.of_nat 2) with 100|idtac]; lia).
  rewrite !fixed_low. rewrite <- !map_app.
  set (ds := low_digits 4 y ++ low_digits 2 m ++ low_digits 2 d).
  assert (L : length ds = 8%nat) by (subst ds; rewrite !app_length, !low_digits_length; reflexivity).
  unfold fmt_cut. rewrite firstn_firstn. rewrite firstn_all2 by (rewrite map_length, L; reflexivity).
  pose proof (den_display ebc (disp_attr 8) false ds) as D. cbn [zoned disp_attr a_sign negb] in D.
  replace (10000 * y + 100 * m + d) with (signed_value false ds).
  - apply D; auto.
    + intros E. rewrite E in L. discriminate.
    + subst ds. rewrite !Forall_app. repeat split; apply low_digits_dig.
  - unfold signed_value. subst ds.
    rewrite !digits_value_app. rewrite !app_length, !low_digits_length. rewrite !low_digits_value by lia.
    change (10 ^ Z.of_nat 4) with 10000. change (10 ^ Z.of_nat 2) with 100. change (10 ^ Z.of_nat (2 + 2)) with 10000.
    rewrite !Z.mod_small by lia. lia.
Qed.

Lemma fmt_day : forall ebc y d, 0 <= y <= 9999 -> 0 <= d <= 999 ->
  holds_int ebc (mkField (disp_attr 7) (fmt_cut 7 (fmt_d 4 y ++ fmt_d 3 d))) (1000 * y + d).
Proof.
  intros ebc y d HY HD. split; [|reflexivity].
  rewrite !fmt_d_fixed by (first [change (10 ^ Z.of_nat 4) with 10000|change (10 ^ Z.of_nat 3) with 1000|idtac]; lia).
  rewrite !fixed_low. rewrite <- !map_app.
  set (ds := low_digits 4 y ++ low_digits 3 d).
  assert (L : length ds = 7%nat) by (subst ds; rewrite !app_length, !low_digits_length; reflexivity).
  unfold fmt_cut. rewrite firstn_firstn. rewrite firstn_all2 by (rewrite map_length, L; reflexivity).
  pose proof (den_display ebc (disp_attr 7) false ds) as D. cbn [zoned disp_attr a_sign negb] in D.
  replace (1000 * y + d) with (signed_value false ds).
  - apply D; auto.
    + intros E. rewrite E in L. discriminate.
    + subst ds. rewrite !Forall_app. repeat split; apply low_digits_dig.
  - unfold signed_value. subst ds.
    rewrite !digits_value_app. rewrite !low_digits_length. rewrite !low_digits_value by lia.
    change (10 ^ Z.of_nat 4) with 10000. change (10 ^ Z.of_nat 3) with 1000.
    rewrite !Z.mod_small by lia. lia.
Qed.
Lemma zeros_hold : forall ebc n k, k = Z.of_nat n -> (1 <= n)%nat -> holds_int ebc (mkField (disp_attr k) (repeat 48 n)) 0.
Proof.
  intros ebc n k -> HN. split; [|reflexivity].
  pose proof (den_display ebc (disp_attr (Z.of_nat n)) false (repeat 0 n)) as D. cbn [zoned disp_attr a_sign negb] in D.
  assert (MR : map digit_char (repeat 0 n) = repeat 48 n) by (clear; induction n; cbn [repeat map]; f_equal; auto). rewrite MR in D.
  assert (V : signed_value false (repeat 0 n) = 0).
  { unfold signed_value. clear. induction n; [reflexivity|]. cbn [repeat]. rewrite digits_value_cons, IHn. lia. }
  rewrite V in D. apply D; auto.
  - destruct n; [lia|discriminate].
  - apply Forall_forall. intros x Hx. apply repeat_spec in Hx. subst x. unfold is_dig. lia.
Qed.

(** Day number to date: the date is the n-th day of the calendar. *)
Theorem C42_date_of_integer : forall m f n, int_arg (c_ebcdic m) f n -> 1 <= n <= 3067671 ->
  exists r d, date_of_integer m f = Ok (r, false) /\ holds_int (c_ebcdic m) r (yyyymmdd d) /\ f_size r = 8%nat /\ nth_day n d.
Proof.
  intros m f n A HN. pose proof (int_arg_get m f n A) as G. unfold date_of_integer. rewrite G. cbn [obind fst].
  destruct (Z.ltb_spec n 1); [lia|]. destruct (Z.ltb_spec 3067671 n); [lia|]. cbn [orb].
  destruct (day_number_split (Z.to_nat (n - 1))) as (k & r & E & HR).
  replace (Z.of_nat (S (Z.to_nat (n - 1)))) with n in E by lia. set (y := 1601 + Z.of_nat k) in *.
  assert (EX : exists mm d, 1 <= mm <= 12 /\ 1 <= d <= mlen y mm /\ r = before y mm + d).
  { clear - HR. pose proof (before_last y) as (L & F & _ & _). 
    assert (S1 : forall j : nat, (j <= 12)%nat -> r <= before y (1 + Z.of_nat j) ->
              exists mm d, 1 <= mm <= 12 /\ 1 <= d <= mlen y mm /\ r = before y mm + d).
    { induction j as [|j IH]; intros HJ HB; [change (1 + Z.of_nat 0) with 1 in HB; lia|].
      destruct (Z.le_gt_cases r (before y (1 + Z.of_nat j))) as [L1|L1]; [apply IH; auto; lia|].
      exists (1 + Z.of_nat j), (r - before y (1 + Z.of_nat j)). unfold mlen.
      replace (1 + Z.of_nat j + 1) with (1 + Z.of_nat (S j)) by lia. lia. }
    apply (S1 12%nat); [lia|]. assert (Q : before y (1 + Z.of_nat 12) = ylen y) by (unfold before, mtab, ylen; destruct (leap_year y); reflexivity).
    lia. }
  destruct EX as (mm & d & HM & HD & ->).
  assert (I : in_cal (y, mm, d)) by (unfold in_cal; subst y; lia).
  assert (O : n = ordinal (y, mm, d)).
  { rewrite E. unfold ordinal. subst y. replace (Z.to_nat (1601 + Z.of_nat k - 1601)) with k by lia. lia. }
  destruct (decode_ordinal y mm d I) as (r & L1 & L2 & _). rewrite <- O in L1. rewrite L1. cbn [obind fst snd].
  rewrite L2. cbn [obind fst snd].
  pose proof (ordinal_upper y mm d I) as UP. pose proof (mlen_pos y mm HM).
  pose proof (fmt_date (c_ebcdic m) y mm d ltac:(lia) ltac:(lia) ltac:(lia)) as H'.
  eexists _, (y, mm, d). split; [reflexivity|]. split; [exact H'|]. split.
  - unfold f_size, fmt_cut. cbn [fd]. rewrite !firstn_length, !app_length.
    rewrite !fmt_d_fixed by (first [change (10 ^ Z.of_nat 4) with 10000|change (10 ^ Z.of_nat 2) with 100|idtac]; lia).
    rewrite !fixed_length. reflexivity.
  - rewrite O. apply ordinal_nth. exact I.
Qed.
Print Assumptions C42_date_of_integer.
Theorem C42_date_of_integer_invalid : forall m f n, int_arg (c_ebcdic m) f n -> ~ 1 <= n <= 3067671 ->
  exists r, date_of_integer m f = Ok (r, true) /\ holds_int (c_ebcdic m) r 0.
Proof.
  intros m f n A HN. pose proof (int_arg_get m f n A) as G. unfold date_of_integer. rewrite G. cbn [obind fst].
  eexists. split; [|apply (zeros_hold (c_ebcdic m) 8); auto; lia].
  destruct (Z.ltb_spec n 1); [reflexivity|]. destruct (Z.ltb_spec 3067671 n); [reflexivity|]. lia.
Qed.
Print Assumptions C42_date_of_integer_invalid.

(** Date to day number. *)
Lemma check_date_spec : forall n, exists c, check_date n = Ok c /\
  let y := Z.quot n 10000 in let mm := Z.quot (Z.rem n 10000) 100 in let d := Z.rem (Z.rem n 10000) 100 in
  (c = 0 <-> 1601 <= y <= 9999 /\ in_cal (y, mm, d)) /\
  (c = 1 <-> ~ 1601 <= y <= 9999) /\
  (c = 2 <-> 1601 <= y <= 9999 /\ ~ 1 <= mm <= 12) /\
  (c = 3 <-> 1601 <= y <= 9999 /\ 1 <= mm <= 12 /\ ~ 1 <= d <= mlen y mm).
Proof.
  intros n. unfold check_date. cbv zeta. set (y := Z.quot n 10000). set (mm := Z.quot (Z.rem n 10000) 100).
  set (d := Z.rem (Z.rem n 10000) 100). unfold in_cal.
  destruct (Z.ltb_spec y 1601); cbn [orb]; [exists 1; split; [reflexivity|lia]|].
  destruct (Z.ltb_spec 9999 y); cbn [orb]; [exists 1; split; [reflexivity|lia]|].
  destruct (Z.ltb_spec mm 1); cbn [orb]; [exists 2; split; [reflexivity|lia]|].
  destruct (Z.ltb_spec 12 mm); cbn [orb]; [exists 2; split; [reflexivity|lia]|].
  assert (HM : 1 <= mm <= 12) by lia. pose proof (mlen_pos y mm HM) as MP.
  assert (T : tab (if leap_year y then leap_month_days else normal_month_days) mm = Ok (mlen y mm)).
  { unfold mlen, before, mtab. clear - HM. clearbody mm. month_cases mm HM; destruct (leap_year y); reflexivity. }
  rewrite T. cbn [obind].
  destruct (Z.ltb_spec d 1); cbn [orb]; [exists 3; split; [reflexivity|lia]|].
  destruct (Z.ltb_spec 31 d); cbn [orb]; [exists 3; split; [reflexivity|lia]|].
  destruct (Z.ltb_spec (mlen y mm) d); [exists 3; split; [reflexivity|lia]|exists 0; split; [reflexivity|lia]].
Qed.
Lemma yyyymmdd_split : forall y mm d, 0 <= y -> 0 <= mm <= 99 -> 0 <= d <= 99 ->
  let n := yyyymmdd (y, mm, d) in
  Z.quot n 10000 = y /\ Z.quot (Z.rem n 10000) 100 = mm /\ Z.rem (Z.rem n 10000) 100 = d.
Proof.
  intros y mm d HY HM HD. unfold yyyymmdd. cbv zeta. set (n := 10000 * y + 100 * mm + d).
  assert (n >= 0) by (subst n; lia).
  rewrite (Z.rem_mod_nonneg n) by lia. assert (0 <= n mod 10000) by (apply Z.mod_pos_bound; lia).
  rewrite !Z.quot_div_nonneg by lia. rewrite Z.rem_mod_nonneg by lia. subst n. lia.
Qed.
Lemma in_cal_valid_range : forall n y mm d, y = Z.quot n 10000 -> mm = Z.quot (Z.rem n 10000) 100 -> d = Z.rem (Z.rem n 10000) 100 ->
  1601 <= y -> in_cal (y, mm, d) -> n = yyyymmdd (y, mm, d).
Proof.
  intros n y mm d -> -> -> HY (A & B & C). unfold yyyymmdd.
  pose proof (Z.quot_rem' n 10000). pose proof (Z.quot_rem' (Z.rem n 10000) 100). lia.
Qed.

Theorem C42_integer_of_date : forall m f d, int_arg (c_ebcdic m) f (yyyymmdd d) ->
  valid_date d -> 1601 <= fst (fst d) <= 9999 ->
  exists r n, integer_of_date m f = Ok (r, false) /\ holds_int (c_ebcdic m) r n /\ nth_day n d /\ 1 <= n <= 3067671.
Proof.
  intros m f [[y mm] d] A V HY. cbn [fst] in HY. pose proof (int_arg_get m f _ A) as G.
  apply valid_in_cal in V; [|lia]. pose proof V as (_ & HM & HD). pose proof (mlen_pos y mm HM) as MP.
  destruct (yyyymmdd_split y mm d ltac:(lia) ltac:(lia) ltac:(lia)) as (Q1 & Q2 & Q3).
  set (n := yyyymmdd (y, mm, d)) in *.
  unfold integer_of_date. rewrite G. cbn [obind fst].
  destruct (check_date_spec n) as (c & E & C0 & _). cbv zeta in C0. rewrite Q1, Q2, Q3 in C0. rewrite E. cbn [obind].
  assert (c = 0) by (apply C0; auto). subst c. cbn [Z.eqb negb]. cbv zeta. rewrite Q1, Q2, Q3.
  rewrite total_loop_spec. cbn [fst snd]. replace (1601 + Z.of_nat (Z.to_nat (y - 1601))) with y by lia.
  change (if leap_year y then leap_days else normal_days) with (mtab y). rewrite tab_mtab by lia. cbn [obind].
  replace (mm - 1 + 1) with mm by lia. rewrite Z.add_0_l.
  change (span 1601 (Z.to_nat (y - 1601)) + before y mm + d) with (ordinal (y, mm, d)).
  pose proof (ordinal_upper y mm d V) as UP.
  assert (P : 1 <= ordinal (y, mm, d)).
  { unfold ordinal. pose proof (span_bound (Z.to_nat (y - 1601)) 1601). pose proof (before_range y mm d HM HD). lia. }
  destruct (int_result_spec m (ordinal (y, mm, d)) false ltac:(lia)) as (r & R1 & R2).
  exists r, (ordinal (y, mm, d)). split; auto. split; auto. split; [apply ordinal_nth; auto|lia].
Qed.
Print Assumptions C42_integer_of_date.
Theorem C42_integer_of_date_invalid : forall m f n, int_arg (c_ebcdic m) f n ->
  (forall d, valid_date d -> 1601 <= fst (fst d) <= 9999 -> n <> yyyymmdd d) ->
  exists r, integer_of_date m f = Ok (r, true) /\ holds_int (c_ebcdic m) r 0.
Proof.
  intros m f n A NV. pose proof (int_arg_get m f _ A) as G. unfold integer_of_date. rewrite G. cbn [obind fst].
  destruct (check_date_spec n) as (c & E & C0 & _). cbv zeta in C0. rewrite E. cbn [obind].
  destruct (Z.eqb_spec c 0) as [C|C]; cbn [negb].
  - exfalso. apply C0 in C. destruct C as (HY & I). 
    apply (NV (Z.quot n 10000, Z.quot (Z.rem n 10000) 100, Z.rem (Z.rem n 10000) 100)).
    + apply valid_in_cal; auto. lia.
    + exact HY.
    + apply in_cal_valid_range; auto. lia.
  - apply int_result_spec. lia.
Qed.
Print Assumptions C42_integer_of_date_invalid.

(** TEST-DATE-YYYYMMDD: 0 exactly for the valid dates of 1601..9999; else 1, 2, 3
    for a wrong year, month, day. *)
Theorem C42_test_date : forall m f n, int_arg (c_ebcdic m) f n -> 0 <= n ->
  exists r c, test_date m f = Ok (r, false) /\ holds_int (c_ebcdic m) r c /\
  (c = 0 <-> exists d, n = yyyymmdd d /\ valid_date d /\ 1601 <= fst (fst d) <= 9999) /\
  (c = 1 <-> ~ 1601 <= n / 10000 <= 9999) /\
  (c = 2 <-> 1601 <= n / 10000 <= 9999 /\ ~ 1 <= n / 100 mod 100 <= 12) /\
  (c = 3 <-> 1601 <= n / 10000 <= 9999 /\ exists k, month_days (n / 10000) (n / 100 mod 100) k /\ ~ 1 <= n mod 100 <= k).
Proof.
  intros m f n A HN. pose proof (int_arg_get m f _ A) as G. unfold test_date. rewrite G. cbn [obind fst].
  destruct (check_date_spec n) as (c & E & C0 & C1 & C2 & C3). cbv zeta in C0, C1, C2, C3. rewrite E. cbn [obind].
  assert (Q : Z.quot n 10000 = n / 10000 /\ Z.quot (Z.rem n 10000) 100 = n / 100 mod 100 /\ Z.rem (Z.rem n 10000) 100 = n mod 100).
  { rewrite (Z.rem_mod_nonneg n) by lia. assert (0 <= n mod 10000) by (apply Z.mod_pos_bound; lia).
    rewrite !Z.quot_div_nonneg by lia. rewrite Z.rem_mod_nonneg by lia. lia. }
  destruct Q as (Q1 & Q2 & Q3). 
  assert (HC : 0 <= c <= 3).
  { revert E. unfold check_date. cbv zeta. repeat match goal with |- context [if ?b then _ else _] => destruct b end;
    try (intros E; inversion E; lia); unfold tab; repeat match goal with |- context [if ?b then _ else _] => destruct b end;
    try discriminate; destruct (nth_error _ _); try discriminate; cbn [obind];
    repeat match goal with |- context [if ?b then _ else _] => destruct b end; intros E; inversion E; lia. }
  destruct (int_result_spec m c false ltac:(lia)) as (r & R1 & R2).
  exists r, c. split; auto. split; auto.
  split; [|split; [|split]].
  - rewrite C0. split.
    + intros (HY & I). exists (Z.quot n 10000, Z.quot (Z.rem n 10000) 100, Z.rem (Z.rem n 10000) 100).
      split; [apply in_cal_valid_range; auto; lia|]. split; auto. apply valid_in_cal; auto. lia.
    + intros ([[y mm] d] & -> & V & HY). cbn [fst] in HY. apply valid_in_cal in V; [|lia].
      pose proof V as (_ & HM & HD). pose proof (mlen_pos y mm HM).
      destruct (yyyymmdd_split y mm d ltac:(lia) ltac:(lia) ltac:(lia)) as (-> & -> & ->). auto.
  - rewrite C1, Q1. reflexivity.
  - rewrite C2, Q1, Q2. reflexivity.
  - rewrite C3, Q1, Q2, Q3. split.
    + intros (HY & HM & HD). split; auto. eexists. split; [|exact HD]. apply month_days_mlen; [lia|]. auto.
    + intros (HY & k & HK & HD). apply month_days_mlen in HK; [|lia]. destruct HK as (HM & ->). auto.
Qed.
Print Assumptions C42_test_date.

(** The two functions are inverse of each other. *)
Lemma holds_int_arg : forall ebc f n, holds_int ebc f n -> Z.abs n <= INT_MAX -> int_arg ebc f n.
Proof.
  intros ebc f n (D & S) B. exists n. split; auto. rewrite S. split; [apply trunc_at_exact; reflexivity|]. split; auto.
  repeat split; intros; try lia. inversion D; subst; cbn [fa] in *; try congruence. lia.
Qed.
Theorem C42_roundtrip : forall m f n, int_arg (c_ebcdic m) f n -> 1 <= n <= 3067671 ->
  exists r r', date_of_integer m f = Ok (r, false) /\ integer_of_date m r = Ok (r', false) /\ holds_int (c_ebcdic m) r' n.
Proof.
  intros m f n A HN. destruct (C42_date_of_integer m f n A HN) as (r & d & E & H & SZ & ND).
  pose proof (nth_day_ordinal _ _ ND) as (I & _). destruct d as [[y mm] d]. pose proof I as (HY & HM & HD).
  pose proof (mlen_pos y mm HM) as MP.
  assert (Y9 : y <= 9999).
  { apply (ordinal_upper y mm d I). pose proof (nth_day_ordinal _ _ ND) as (_ & <-). lia. }
  assert (A' : int_arg (c_ebcdic m) r (yyyymmdd (y, mm, d))).
  { apply holds_int_arg; auto. unfold yyyymmdd, INT_MAX. lia. }
  destruct (C42_integer_of_date m r (y, mm, d) A') as (r' & n' & E' & H' & ND' & _).
  - apply valid_in_cal; auto.
  - cbn [fst]. lia.
  - exists r, r'. split; auto. split; auto.
    pose proof (C42_calendar _ _ _ _ ND ND') as (_ & K & _). assert (n = n') by (apply K; reflexivity). subst n'. exact H'.
Qed.
Print Assumptions C42_roundtrip.
Theorem C42_roundtrip_back : forall m f d, int_arg (c_ebcdic m) f (yyyymmdd d) -> valid_date d -> 1601 <= fst (fst d) <= 9999 ->
  exists r r', integer_of_date m f = Ok (r, false) /\ date_of_integer m r = Ok (r', false) /\ holds_int (c_ebcdic m) r' (yyyymmdd d).
Proof.
  intros m f d A V HY. destruct (C42_integer_of_date m f d A V HY) as (r & n & E & H & ND & HN).
  assert (A' : int_arg (c_ebcdic m) r n) by (apply holds_int_arg; auto; unfold INT_MAX; lia).
  destruct (C42_date_of_integer m r n A' HN) as (r' & d' & E' & H' & _ & ND').
  pose proof (C42_calendar _ _ _ _ ND ND') as (_ & K & _). assert (d = d') by (apply K; reflexivity). subst d'.
  exists r, r'. auto.
Qed.
Print Assumptions C42_roundtrip_back.
(** 29 February 2024 (day 154557), from a 9(8) item. *)
Definition d20240229 : field := mkField (disp_attr 8) [50;48;50;52;48;50;50;57].
Example C42_ex : int_arg false d20240229 (yyyymmdd (2024, 2, 29)) /\ valid_date (2024, 2, 29) /\
  exists r, integer_of_date default_cfg d20240229 = Ok (r, false) /\ get_int default_cfg r = Ok (154557, r) /\
  date_of_integer default_cfg r = Ok (d20240229, false).
Proof.
  split; [|split].
  - apply holds_int_arg; [|cbn; unfold INT_MAX; lia]. split; [|reflexivity].
    apply (den_display false (disp_attr 8) false [2;0;2;4;0;2;2;9]); try reflexivity; try discriminate.
    repeat constructor; discriminate.
  - apply vd with 29; [|lia]. apply md29. split; [reflexivity|left; discriminate].
  - eexists. split; [vm_compute; reflexivity|]. split; [vm_compute; reflexivity|vm_compute; reflexivity].
Qed.
Example C42_invalid_ex : forall d, valid_date d -> 1601 <= fst (fst d) <= 9999 -> 20230229 <> yyyymmdd d.
Proof.
  intros [[y mm] d] V HY E. cbn [fst] in HY. apply valid_in_cal in V; [|lia]. pose proof V as (_ & HM & HD).
  pose proof (mlen_pos y mm HM). unfold yyyymmdd in E. assert (y = 2023) by lia. assert (mm = 2) by lia. subst y mm.
  change (mlen 2023 2) with 28 in HD. lia.
Qed.

(** ** day-of-year functions *)
Theorem C42_day_calendar : forall n n' d d', nth_yday n d -> nth_yday n' d' ->
  valid_day d /\ (n = n' <-> d = d') /\ (n < n' <-> yyyyddd d < yyyyddd d').
Proof.
  assert (MONO : forall d d', 1601 <= fst d -> 1 <= snd d <= ylen (fst d) -> 1601 <= fst d' -> 1 <= snd d' <= ylen (fst d') ->
            yyyyddd d < yyyyddd d' -> ordinal_day d < ordinal_day d').
  { intros [y d] [y' d'] A C A' C' L. unfold yyyyddd in L. unfold ordinal_day. cbn [fst snd] in *.
    pose proof (ylen_bound y) as P. pose proof (ylen_bound y') as P'.
    destruct (Z.lt_ge_cases y y') as [LY|LY].
    - replace (Z.to_nat (y' - 1601)) with (Z.to_nat (y - 1601) + S (Z.to_nat (y' - y - 1)))%nat by lia.
      rewrite span_add. cbn [span]. replace (1601 + Z.of_nat (Z.to_nat (y - 1601))) with y by lia.
      pose proof (span_bound (Z.to_nat (y' - y - 1)) (y + 1)). lia.
    - assert (y = y') by lia. subst y'. lia. }
  assert (KEY : forall d d', 1 <= snd d <= ylen (fst d) -> 1 <= snd d' <= ylen (fst d') -> yyyyddd d = yyyyddd d' -> d = d').
  { intros [y d] [y' d'] C C' L. unfold yyyyddd in L. cbn [fst snd] in *.
    pose proof (ylen_bound y) as P. pose proof (ylen_bound y') as P'.
    assert (y = y') by lia. assert (d = d') by lia. congruence. }
  intros n n' d d' H H'. destruct (nth_yday_ordinal _ _ H) as (I & J & ->). destruct (nth_yday_ordinal _ _ H') as (I' & J' & ->).
  split.
  - destruct d as [y d]. cbn [fst snd] in *. apply vday with (ylen y); auto. apply year_days_ylen; lia.
  - split.
    + split; [apply ordinal_day_inj; auto|congruence].
    + split; intros L.
      * destruct (Z.lt_ge_cases (yyyyddd d) (yyyyddd d')) as [|G]; auto. exfalso.
        destruct (Z.eq_dec (yyyyddd d) (yyyyddd d')) as [E|E].
        -- apply KEY in E; auto. subst d'. lia.
        -- specialize (MONO d' d I' J' I J ltac:(lia)). lia.
      * apply MONO; auto.
Qed.
Print Assumptions C42_day_calendar.

Theorem C42_day_of_integer : forall m f n, int_arg (c_ebcdic m) f n -> 1 <= n <= 3067671 ->
  exists r d, day_of_integer m f = Ok (r, false) /\ holds_int (c_ebcdic m) r (yyyyddd d) /\ f_size r = 7%nat /\ nth_yday n d.
Proof.
  intros m f n A HN. pose proof (int_arg_get m f n A) as G. unfold day_of_integer. rewrite G. cbn [obind fst].
  destruct (Z.ltb_spec n 1); [lia|]. destruct (Z.ltb_spec 3067671 n); [lia|]. cbn [orb].
  destruct (day_number_split (Z.to_nat (n - 1))) as (k & r & E & HR).
  replace (Z.of_nat (S (Z.to_nat (n - 1)))) with n in E by lia. set (y := 1601 + Z.of_nat k) in *.
  assert (O : n = ordinal_day (y, r)).
  { rewrite E. unfold ordinal_day. cbn [fst snd]. subst y. replace (Z.to_nat (1601 + Z.of_nat k - 1601)) with k by lia. lia. }
  pose proof (ordinal_day_upper (y, r) ltac:(cbn [fst]; subst y; lia) HR) as UP. cbn [fst] in UP.
  pose proof (year_loop_1601 y r ltac:(subst y; lia) HR) as L. cbv zeta in L.
  change (span 1601 (Z.to_nat (y - 1601)) + r) with (ordinal_day (y, r)) in L. rewrite <- O in L. rewrite L. cbn [obind fst snd].
  pose proof (ylen_bound y).
  pose proof (fmt_day (c_ebcdic m) y r ltac:(subst y; lia) ltac:(lia)) as H'.
  eexists _, (y, r). split; [reflexivity|]. split; [exact H'|]. split.
  - unfold f_size, fmt_cut. cbn [fd]. rewrite !firstn_length, !app_length.
    rewrite !fmt_d_fixed by (first [change (10 ^ Z.of_nat 4) with 10000|change (10 ^ Z.of_nat 3) with 1000|idtac]; subst y; lia).
    rewrite !fixed_length. reflexivity.
  - rewrite O. apply ordinal_day_nth; cbn [fst snd]; auto. subst y. lia.
Qed.
Print Assumptions C42_day_of_integer.
Theorem C42_day_of_integer_invalid : forall m f n, int_arg (c_ebcdic m) f n -> ~ 1 <= n <= 3067671 ->
  exists r, day_of_integer m f = Ok (r, true) /\ holds_int (c_ebcdic m) r 0.
Proof.
  intros m f n A HN. pose proof (int_arg_get m f n A) as G. unfold day_of_integer. rewrite G. cbn [obind fst].
  eexists. split; [|apply (zeros_hold (c_ebcdic m) 7); auto; lia].
  destruct (Z.ltb_spec n 1); [reflexivity|]. destruct (Z.ltb_spec 3067671 n); [reflexivity|]. lia.
Qed.
Print Assumptions C42_day_of_integer_invalid.

Lemma check_day_spec : forall n, let y := Z.quot n 1000 in let d := Z.rem n 1000 in
  0 <= check_day n <= 2 /\
  (check_day n = 0 <-> 1601 <= y <= 9999 /\ 1 <= d <= ylen y) /\
  (check_day n = 1 <-> ~ 1601 <= y <= 9999).
Proof.
  intros n. unfold check_day, ylen. cbv zeta. set (y := Z.quot n 1000). set (d := Z.rem n 1000).
  destruct (Z.ltb_spec y 1601); cbn [orb]; [lia|]. destruct (Z.ltb_spec 9999 y); cbn [orb]; [lia|].
  destruct (leap_year y); destruct (Z.ltb_spec d 1); cbn [orb]; try lia;
  match goal with |- context [?a <? d] => destruct (Z.ltb_spec a d) end; lia.
Qed.
Lemma yyyyddd_split : forall y d, 0 <= y -> 0 <= d <= 999 ->
  Z.quot (yyyyddd (y, d)) 1000 = y /\ Z.rem (yyyyddd (y, d)) 1000 = d.
Proof.
  intros y d HY HD. unfold yyyyddd. cbn [fst snd]. set (n := 1000 * y + d).
  assert (n >= 0) by (subst n; lia).
  rewrite Z.rem_mod_nonneg by lia. rewrite Z.quot_div_nonneg by lia. subst n. lia.
Qed.
Theorem C42_integer_of_day : forall m f d, int_arg (c_ebcdic m) f (yyyyddd d) ->
  valid_day d -> 1601 <= fst d <= 9999 ->
  exists r n, integer_of_day m f = Ok (r, false) /\ holds_int (c_ebcdic m) r n /\ nth_yday n d /\ 1 <= n <= 3067671.
Proof.
  intros m f [y d] A V HY. cbn [fst] in HY. pose proof (int_arg_get m f _ A) as G.
  assert (HD : 1 <= d <= ylen y) by (inversion V as [? ? k Hk Hd]; subst; apply year_days_ylen in Hk; [subst k; lia|lia]).
  pose proof (ylen_bound y) as MP. destruct (yyyyddd_split y d ltac:(lia) ltac:(lia)) as (Q1 & Q2).
  set (n := yyyyddd (y, d)) in *. unfold integer_of_day. rewrite G. cbn [obind fst].
  destruct (check_day_spec n) as (_ & C0 & _). cbv zeta in C0. rewrite Q1, Q2 in C0.
  assert (C : check_day n = 0) by (apply C0; auto). rewrite C. cbn [Z.eqb negb]. rewrite Q1, Q2.
  rewrite total_loop_spec. cbn [fst snd]. rewrite Z.add_0_l.
  change (span 1601 (Z.to_nat (y - 1601)) + d) with (ordinal_day (y, d)).
  pose proof (ordinal_day_upper (y, d) ltac:(cbn [fst]; lia) HD) as UP. cbn [fst] in UP.
  assert (P : 1 <= ordinal_day (y, d)).
  { unfold ordinal_day. cbn [fst snd]. pose proof (span_bound (Z.to_nat (y - 1601)) 1601). lia. }
  destruct (int_result_spec m (ordinal_day (y, d)) false ltac:(lia)) as (r & R1 & R2).
  exists r, (ordinal_day (y, d)). split; auto. split; auto. split; [apply ordinal_day_nth; cbn [fst snd]; auto; lia|lia].
Qed.
Print Assumptions C42_integer_of_day.
Theorem C42_integer_of_day_invalid : forall m f n, int_arg (c_ebcdic m) f n ->
  (forall d, valid_day d -> 1601 <= fst d <= 9999 -> n <> yyyyddd d) ->
  exists r, integer_of_day m f = Ok (r, true) /\ holds_int (c_ebcdic m) r 0.
Proof.
  intros m f n A NV. pose proof (int_arg_get m f _ A) as G. unfold integer_of_day. rewrite G. cbn [obind fst].
  destruct (check_day_spec n) as (_ & C0 & _). cbv zeta in C0.
  destruct (Z.eqb_spec (check_day n) 0) as [C|C]; cbn [negb].
  - exfalso. apply C0 in C. destruct C as (HY & I). apply (NV (Z.quot n 1000, Z.rem n 1000)).
    + apply vday with (ylen (Z.quot n 1000)); auto. apply year_days_ylen; lia.
    + exact HY.
    + unfold yyyyddd. cbn [fst snd]. apply Z.quot_rem'.
  - apply int_result_spec. lia.
Qed.
Print Assumptions C42_integer_of_day_invalid.
Theorem C42_test_day : forall m f n, int_arg (c_ebcdic m) f n -> 0 <= n ->
  exists r c, test_day m f = Ok (r, false) /\ holds_int (c_ebcdic m) r c /\
  (c = 0 <-> exists d, n = yyyyddd d /\ valid_day d /\ 1601 <= fst d <= 9999) /\
  (c = 1 <-> ~ 1601 <= n / 1000 <= 9999) /\ 0 <= c <= 2.
Proof.
  intros m f n A HN. pose proof (int_arg_get m f _ A) as G. unfold test_day. rewrite G. cbn [obind fst].
  destruct (check_day_spec n) as (HC & C0 & C1). cbv zeta in C0, C1. set (c := check_day n) in *.
  destruct (int_result_spec m c false ltac:(lia)) as (r & R1 & R2).
  exists r, c. split; auto. split; auto. split; [|split; auto].
  - rewrite C0. split.
    + intros (HY & I). exists (Z.quot n 1000, Z.rem n 1000). split; [apply Z.quot_rem'|]. split; auto.
      apply vday with (ylen (Z.quot n 1000)); auto. apply year_days_ylen; lia.
    + intros ([y d] & -> & V & HY). cbn [fst] in HY.
      assert (HD : 1 <= d <= ylen y) by (inversion V as [? ? k Hk Hd]; subst; apply year_days_ylen in Hk; [subst k; lia|lia]).
      pose proof (ylen_bound y). destruct (yyyyddd_split y d ltac:(lia) ltac:(lia)) as (-> & ->). auto.
  - rewrite C1. rewrite Z.quot_div_nonneg by lia. reflexivity.
Qed.
Print Assumptions C42_test_day.
Theorem C42_day_roundtrip : forall m f n, int_arg (c_ebcdic m) f n -> 1 <= n <= 3067671 ->
  exists r r', day_of_integer m f = Ok (r, false) /\ integer_of_day m r = Ok (r', false) /\ holds_int (c_ebcdic m) r' n.
Proof.
  intros m f n A HN. destruct (C42_day_of_integer m f n A HN) as (r & d & E & H & SZ & ND).
  pose proof (nth_yday_ordinal _ _ ND) as (I & J & O). pose proof (ylen_bound (fst d)).
  assert (Y9 : fst d <= 9999) by (apply (ordinal_day_upper d I J); lia).
  assert (A' : int_arg (c_ebcdic m) r (yyyyddd d)) by (apply holds_int_arg; auto; unfold yyyyddd, INT_MAX; lia).
  destruct (C42_integer_of_day m r d A') as (r' & n' & E' & H' & ND' & _).
  - apply (C42_day_calendar _ _ _ _ ND ND).
  - lia.
  - exists r, r'. split; auto. split; auto.
    pose proof (C42_day_calendar _ _ _ _ ND ND') as (_ & K & _). assert (n = n') by (apply K; reflexivity). subst n'. exact H'.
Qed.
Print Assumptions C42_day_roundtrip.
Theorem C42_day_roundtrip_back : forall m f d, int_arg (c_ebcdic m) f (yyyyddd d) -> valid_day d -> 1601 <= fst d <= 9999 ->
  exists r r', integer_of_day m f = Ok (r, false) /\ day_of_integer m r = Ok (r', false) /\ holds_int (c_ebcdic m) r' (yyyyddd d).
Proof.
  intros m f d A V HY. destruct (C42_integer_of_day m f d A V HY) as (r & n & E & H & ND & HN).
  assert (A' : int_arg (c_ebcdic m) r n) by (apply holds_int_arg; auto; unfold INT_MAX; lia).
  destruct (C42_day_of_integer m r n A' HN) as (r' & d' & E' & H' & _ & ND').
  pose proof (C42_day_calendar _ _ _ _ ND ND') as (_ & K & _). assert (d = d') by (apply K; reflexivity). subst d'.
  exists r, r'. auto.
Qed.
Print Assumptions C42_day_roundtrip_back.
Example C42_day_ex : valid_day (2024, 366) /\ exists r, integer_of_day default_cfg (mkField (disp_attr 7) [50;48;50;52;51;54;54]) = Ok (r, false) /\
  get_int default_cfg r = Ok (154863, r).
Proof.
  split; [apply vday with 366; [left; split; [split; [reflexivity|left; discriminate]|reflexivity]|lia]|].
  eexists. split; [vm_compute; reflexivity|]. vm_compute; reflexivity.
Qed.

(** ** C48.  Year windowing. *)
Definition opt_arg (ebc : bool) (o : option field) (dflt n : Z) : Prop :=
  match o with None => n = dflt | Some f => int_arg ebc f n end.
Lemma opt_arg_get : forall m o dflt n, opt_arg (c_ebcdic m) o dflt n -> opt_int m o dflt = Ok n.
Proof. intros m [f|] dflt n H; cbn [opt_arg opt_int] in *; [|congruence]. rewrite (int_arg_get m f n H). reflexivity. Qed.

(** For a reference year in 1601..9999 and window end in 1700..9999: the result
    is the unique year ending in [yy] in the 100 years up to the window end. *)
Theorem C48_year_to_yyyy : forall m now f iv xq yy i x,
  int_arg (c_ebcdic m) f yy -> opt_arg (c_ebcdic m) iv 50 i -> opt_arg (c_ebcdic m) xq now x ->
  0 <= yy <= 99 -> 1601 <= x <= 9999 -> 1700 <= x + i <= 9999 ->
  exists r y, year_to_yyyy m now f iv xq = Ok (r, false) /\ holds_int (c_ebcdic m) r y /\
    y mod 100 = yy /\ x + i - 100 < y <= x + i /\
    (forall y', y' mod 100 = yy -> x + i - 100 < y' <= x + i -> y' = y).
Proof.
  intros m now f iv xq yy i x A1 A2 A3 HY HX HI. unfold year_to_yyyy.
  rewrite (int_arg_get m f yy A1), (opt_arg_get _ _ _ _ A2), (opt_arg_get _ _ _ _ A3). cbn [obind fst].
  destruct (Z.ltb_spec yy 0); [lia|]. destruct (Z.ltb_spec 99 yy); [lia|]. cbn [orb]. unfold window.
  destruct (Z.ltb_spec x 1601); [lia|]. destruct (Z.ltb_spec 9999 x); [lia|]. cbn [orb].
  assert (IB : is_intb (x + i) = true) by (unfold is_intb, INT_MIN, INT_MAX; lia). rewrite IB. cbn [negb]. cbv zeta.
  destruct (Z.ltb_spec (x + i) 1700); [lia|]. destruct (Z.ltb_spec 9999 (x + i)); [lia|]. cbn [orb].
  rewrite Z.rem_mod_nonneg, Z.quot_div_nonneg by lia.
  set (y := if yy <=? (x + i) mod 100 then yy + 100 * ((x + i) / 100) else yy + 100 * ((x + i) / 100 - 1)).
  assert (HYY : y mod 100 = yy /\ x + i - 100 < y <= x + i) by (subst y; destruct (Z.leb_spec yy ((x + i) mod 100)); lia).
  destruct (int_result_spec m y false ltac:(lia)) as (r & R1 & R2).
  exists r, y. split.
  - subst y. destruct (Z.leb_spec yy ((x + i) mod 100)); cbn [obind]; exact R1.
  - split; auto. split; [lia|]. split; [lia|]. intros y' Q1 Q2. lia.
Qed.
Print Assumptions C48_year_to_yyyy.
(** Arguments outside the ranges raise the exception and give 0. *)
Theorem C48_year_to_yyyy_invalid : forall m now f iv xq yy i x,
  int_arg (c_ebcdic m) f yy -> opt_arg (c_ebcdic m) iv 50 i -> opt_arg (c_ebcdic m) xq now x ->
  is_int (x + i) -> ~ (0 <= yy <= 99 /\ 1601 <= x <= 9999 /\ 1700 <= x + i <= 9999) ->
  exists r, year_to_yyyy m now f iv xq = Ok (r, true) /\ holds_int (c_ebcdic m) r 0.
Proof.
  intros m now f iv xq yy i x A1 A2 A3 HI HN. unfold year_to_yyyy.
  rewrite (int_arg_get m f yy A1), (opt_arg_get _ _ _ _ A2), (opt_arg_get _ _ _ _ A3). cbn [obind fst].
  pose proof (int_result_spec m 0 true ltac:(lia)) as R.
  destruct (Z.ltb_spec yy 0); [exact R|]. destruct (Z.ltb_spec 99 yy); [exact R|]. cbn [orb]. unfold window.
  destruct (Z.ltb_spec x 1601); [exact R|]. destruct (Z.ltb_spec 9999 x); [exact R|]. cbn [orb].
  assert (IB : is_intb (x + i) = true) by (unfold is_intb, is_int, INT_MIN, INT_MAX in *; lia). rewrite IB. cbn [negb]. cbv zeta.
  destruct (Z.ltb_spec (x + i) 1700); [exact R|]. destruct (Z.ltb_spec 9999 (x + i)); [exact R|]. lia.
Qed.
Print Assumptions C48_year_to_yyyy_invalid.

(** DATE-TO-YYYYMMDD and DAY-TO-YYYYDDD: the same window for the year, the rest kept. *)
Lemma to_yyyy_gen_spec : forall unit m now f iv xq yy rest i x, 100 <= unit <= 10000 -> 0 <= rest < unit ->
  int_arg (c_ebcdic m) f (unit * yy + rest) -> opt_arg (c_ebcdic m) iv 50 i -> opt_arg (c_ebcdic m) xq now x ->
  0 <= yy <= 99 -> 1601 <= x <= 9999 -> 1700 <= x + i <= 9999 ->
  exists r y, to_yyyy_gen unit m now f iv xq = Ok (r, false) /\ holds_int (c_ebcdic m) r (unit * y + rest) /\
    y mod 100 = yy /\ x + i - 100 < y <= x + i.
Proof.
  intros unit m now f iv xq yy rest i x HU HRs A1 A2 A3 HY HX HI. unfold to_yyyy_gen.
  rewrite (int_arg_get m f _ A1), (opt_arg_get _ _ _ _ A2), (opt_arg_get _ _ _ _ A3). cbn [obind fst].
  assert (P0 : 0 <= unit * yy) by (apply Z.mul_nonneg_nonneg; lia).
  assert (Q1 : Z.quot (unit * yy + rest) unit = yy).
  { rewrite Z.quot_div_nonneg by lia. rewrite Z.mul_comm, Z.div_add_l by lia. rewrite (Z.div_small rest) by lia. lia. }
  assert (Q2 : Z.rem (unit * yy + rest) unit = rest).
  { rewrite Z.rem_mod_nonneg by lia. rewrite Z.add_comm, Z.mul_comm, Z.mod_add by lia. apply Z.mod_small. lia. }
  rewrite Q1, Q2.
  destruct (Z.ltb_spec yy 0); [lia|]. destruct (Z.ltb_spec 999999 yy); [lia|]. cbn [orb]. unfold window.
  destruct (Z.ltb_spec x 1601); [lia|]. destruct (Z.ltb_spec 9999 x); [lia|]. cbn [orb].
  assert (IB : is_intb (x + i) = true) by (unfold is_intb, INT_MIN, INT_MAX; lia). rewrite IB. cbn [negb]. cbv zeta.
  destruct (Z.ltb_spec (x + i) 1700); [lia|]. destruct (Z.ltb_spec 9999 (x + i)); [lia|]. cbn [orb].
  rewrite Z.rem_mod_nonneg, Z.quot_div_nonneg by lia.
  set (y := if yy <=? (x + i) mod 100 then yy + 100 * ((x + i) / 100) else yy + 100 * ((x + i) / 100 - 1)).
  assert (HYY : y mod 100 = yy /\ x + i - 100 < y <= x + i) by (subst y; destruct (Z.leb_spec yy ((x + i) mod 100)); lia).
  assert (YB : 0 <= y * unit <= 9999 * 10000) by (split; [apply Z.mul_nonneg_nonneg; lia|apply Z.mul_le_mono_nonneg; lia]).
  assert (YB2 : unit * y + rest < 100000000).
  { assert (y * unit + rest < (y + 1) * unit) by lia.
    assert ((y + 1) * unit <= 10000 * 10000) by (apply Z.mul_le_mono_nonneg; lia). lia. }
  destruct (int_result_spec m (unit * y + rest) false ltac:(lia)) as (r & R1 & R2).
  exists r, y. split; [|split; auto].
  replace (y * unit + rest) with (unit * y + rest) in * by lia.
  assert (I1 : is_intb (y * unit) = true) by (unfold is_intb, INT_MIN, INT_MAX; lia).
  assert (I2 : is_intb (y * unit + rest) = true) by (unfold is_intb, INT_MIN, INT_MAX; lia).
  subst y. destruct (Z.leb_spec yy ((x + i) mod 100)); cbn [obind]; rewrite I1, I2; cbn [andb];
    (etransitivity; [|exact R1]); f_equal; lia.
Qed.
Theorem C48_date_to_yyyymmdd : forall m now f iv xq yy mmdd i x, 0 <= mmdd < 10000 ->
  int_arg (c_ebcdic m) f (10000 * yy + mmdd) -> opt_arg (c_ebcdic m) iv 50 i -> opt_arg (c_ebcdic m) xq now x ->
  0 <= yy <= 99 -> 1601 <= x <= 9999 -> 1700 <= x + i <= 9999 ->
  exists r y, date_to_yyyymmdd m now f iv xq = Ok (r, false) /\ holds_int (c_ebcdic m) r (10000 * y + mmdd) /\
    y mod 100 = yy /\ x + i - 100 < y <= x + i.
Proof. intros. eapply to_yyyy_gen_spec; eauto. lia. Qed.
Print Assumptions C48_date_to_yyyymmdd.
Theorem C48_day_to_yyyyddd : forall m now f iv xq yy ddd i x, 0 <= ddd < 1000 ->
  int_arg (c_ebcdic m) f (1000 * yy + ddd) -> opt_arg (c_ebcdic m) iv 50 i -> opt_arg (c_ebcdic m) xq now x ->
  0 <= yy <= 99 -> 1601 <= x <= 9999 -> 1700 <= x + i <= 9999 ->
  exists r y, day_to_yyyyddd m now f iv xq = Ok (r, false) /\ holds_int (c_ebcdic m) r (1000 * y + ddd) /\
    y mod 100 = yy /\ x + i - 100 < y <= x + i.
Proof. intros. eapply to_yyyy_gen_spec; eauto. lia. Qed.
Print Assumptions C48_day_to_yyyyddd.
(** 851003 with window 2024+50 is 19851003. *)
Example C48_ex : exists r, date_to_yyyymmdd default_cfg 2024 (mkField (disp_attr 6) [56;53;49;48;48;51]) None None = Ok (r, false) /\
  get_int default_cfg r = Ok (19851003, r).
Proof. eexists. split; [vm_compute; reflexivity|vm_compute; reflexivity]. Qed.
(** Finding: a date that already has a four-digit year is not rejected (the limit
    tested is 999999): 20241003 becomes year 3924. *)
Theorem C48_four_digit_year_refuted : exists r,
  date_to_yyyymmdd default_cfg 2024 (mkField (disp_attr 8) [50;48;50;52;49;48;48;51]) None None = Ok (r, false) /\
  get_int default_cfg r = Ok (39241003, r).
Proof. eexists. split; [vm_compute; reflexivity|vm_compute; reflexivity]. Qed.
Print Assumptions C48_four_digit_year_refuted.
