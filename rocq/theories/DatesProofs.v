(** Proofs about the date functions. *)
From Coq Require Import QArith Qabs.
From Verif Require Import Base BaseFacts Field Sign Decimal SpecNum Numeric SpecStore NumFacts.
From Verif Require Import DispProofs StoreProofs Move Edited MoveAll SpecMove MoveNum IntAccess P_Num P_Move.
From Verif Require Import MoveMore Dates SpecDate.
Local Open Scope Z_scope.

Lemma leap_year_spec : forall y, 0 <= y -> (leap_year y = true <-> leap y).
Proof.
  intros y H. unfold leap_year, leap. rewrite !Z.rem_mod_nonneg by lia.
  split.
  - intros K. apply orb_true_iff in K. destruct K as [K|K].
    + apply andb_true_iff in K. destruct K as [K1 K2]. apply negb_true_iff in K2. lia.
    + lia.
  - intros [A [B|B]]; apply orb_true_iff; [left|right]; [|lia].
    apply andb_true_iff. split; [lia|]. apply negb_true_iff. lia.
Qed.
Lemma leap_year_false : forall y, 0 <= y -> (leap_year y = false <-> ~ leap y).
Proof. intros y H. pose proof (leap_year_spec y H). destruct (leap_year y); intuition congruence. Qed.

Definition ylen (y : Z) : Z := if leap_year y then 366 else 365.
Fixpoint span (y : Z) (k : nat) : Z := match k with O => 0 | S j => ylen y + span (y + 1) j end.
Lemma ylen_bound : forall y, 365 <= ylen y <= 366.
Proof. intros y. unfold ylen. destruct (leap_year y); lia. Qed.
Lemma span_bound : forall k y, 365 * Z.of_nat k <= span y k.
Proof. induction k; intros y; cbn [span]; [lia|]. pose proof (ylen_bound y). specialize (IHk (y + 1)). lia. Qed.
Lemma span_snoc : forall k y, span y (S k) = span y k + ylen (y + Z.of_nat k).
Proof.
  induction k; intros y.
  - cbn [span]. change (Z.of_nat 0) with 0. rewrite !Z.add_0_r. lia.
  - change (span y (S (S k))) with (ylen y + span (y + 1) (S k)). rewrite IHk. cbn [span].
    replace (y + 1 + Z.of_nat k) with (y + Z.of_nat (S k)) by lia. lia.
Qed.
Lemma span_add : forall k j y, span y (k + j) = span y k + span (y + Z.of_nat k) j.
Proof.
  induction k; intros j y.
  - cbn [span Nat.add]. change (Z.of_nat 0) with 0. rewrite !Z.add_0_r. lia.
  - cbn [Nat.add span]. rewrite IHk. replace (y + 1 + Z.of_nat k) with (y + Z.of_nat (S k)) by lia. lia.
Qed.

(** ** years *)
Lemma year_loop_spec : forall k fuel y r, (k <= fuel)%nat -> 1 <= r <= ylen (y + Z.of_nat k) ->
  year_loop fuel (span y k + r) y (ylen y) = Ok (r, y + Z.of_nat k).
Proof.
  induction k as [|k IH]; intros fuel y r HF HR.
  - cbn [span Z.of_nat] in *. rewrite Z.add_0_r in *. rewrite Z.add_0_l.
    destruct fuel; cbn [year_loop]; destruct (Z.ltb_spec (ylen y) r); try lia; reflexivity.
  - destruct fuel as [|fuel]; [lia|]. cbn [year_loop span]. pose proof (span_bound k (y + 1)).
    destruct (Z.ltb_spec (ylen y) (ylen y + span (y + 1) k + r)); [|lia].
    replace (ylen y + span (y + 1) k + r - ylen y) with (span (y + 1) k + r) by lia.
    change (if leap_year (y + 1) then 366 else 365) with (ylen (y + 1)).
    replace (y + Z.of_nat (S k)) with (y + 1 + Z.of_nat k) in * by lia. rewrite IH by (auto; lia). reflexivity.
Qed.
Lemma total_loop_spec : forall k y t, total_loop k y t = (y + Z.of_nat k, t + span y k).
Proof.
  induction k as [|k IH]; intros y t; cbn [total_loop span].
  - f_equal; lia.
  - rewrite IH. change (if leap_year y then 366 else 365) with (ylen y). f_equal; lia.
Qed.

Lemma year_loop_1601 : forall y r, 1601 <= y -> 1 <= r <= ylen y ->
  let n := span 1601 (Z.to_nat (y - 1601)) + r in
  year_loop (Z.to_nat n) n 1601 365 = Ok (r, y).
Proof.
  intros y r HY HR n. change 365 with (ylen 1601). subst n.
  pose proof (span_bound (Z.to_nat (y - 1601)) 1601).
  rewrite year_loop_spec; [f_equal; f_equal; lia|lia|].
  replace (1601 + Z.of_nat (Z.to_nat (y - 1601))) with y by lia. auto.
Qed.

(** Every day number has a year and a day in it. *)
Lemma day_number_split : forall n : nat, exists (k : nat) r, Z.of_nat (S n) = span 1601 k + r /\ 1 <= r <= ylen (1601 + Z.of_nat k).
Proof.
  induction n as [|n (k & r & E & HR)].
  - exists 0%nat, 1. cbn [span]. pose proof (ylen_bound (1601 + Z.of_nat 0)). lia.
  - destruct (Z.eq_dec r (ylen (1601 + Z.of_nat k))) as [e|ne].
    + exists (S k), 1. rewrite span_snoc. pose proof (ylen_bound (1601 + Z.of_nat (S k))). lia.
    + exists k, (r + 1). lia.
Qed.

(** ** days of the year *)
Definition ordinal_day (d : Z * Z) : Z := span 1601 (Z.to_nat (fst d - 1601)) + snd d.

Lemma year_days_ylen : forall y k, 0 <= y -> (year_days y k <-> k = ylen y).
Proof.
  intros y k H. unfold year_days, ylen. pose proof (leap_year_spec y H). destruct (leap_year y); intuition congruence.
Qed.
Lemma next_yday_spec : forall d d', 1601 <= fst d -> 1 <= snd d <= ylen (fst d) -> next_yday d d' ->
  1601 <= fst d' /\ 1 <= snd d' <= ylen (fst d') /\ ordinal_day d' = ordinal_day d + 1.
Proof.
  intros d d' H1 H2 N. inversion N as [y dd k Hk Hd|y k Hk]; subst; cbn [fst snd] in *.
  - apply year_days_ylen in Hk; [|lia]. subst k. unfold ordinal_day; cbn [fst snd]. lia.
  - pose proof (ylen_bound (y + 1)). apply year_days_ylen in Hk; [|lia]. subst k. unfold ordinal_day; cbn [fst snd].
    split; [lia|]. split; [lia|].
    replace (Z.to_nat (y + 1 - 1601)) with (S (Z.to_nat (y - 1601))) by lia. rewrite span_snoc.
    replace (1601 + Z.of_nat (Z.to_nat (y - 1601))) with y by lia. lia.
Qed.
Lemma nth_yday_ordinal : forall n d, nth_yday n d -> 1601 <= fst d /\ 1 <= snd d <= ylen (fst d) /\ n = ordinal_day d.
Proof.
  intros n d H. induction H as [|n d d' H (A & B & C) N].
  - cbn [fst snd]. pose proof (ylen_bound 1601). split; [lia|]. split; [lia|]. reflexivity.
  - destruct (next_yday_spec d d' A B N) as (A' & B' & C'). split; [lia|]. split; [lia|]. lia.
Qed.
Lemma yday_step : forall y r, 1601 <= y -> 1 <= r <= ylen y ->
  next_yday (y, r) (if r <? ylen y then (y, r + 1) else (y + 1, 1)).
Proof.
  intros y r HY HR. destruct (Z.ltb_spec r (ylen y)).
  - apply ny_same with (ylen y); [|lia]. apply year_days_ylen; lia.
  - assert (r = ylen y) by lia. subst r. apply ny_next. apply year_days_ylen; lia.
Qed.
Lemma ordinal_day_inj : forall d d', 1601 <= fst d -> 1601 <= fst d' -> 1 <= snd d <= ylen (fst d) -> 1 <= snd d' <= ylen (fst d') ->
  ordinal_day d = ordinal_day d' -> d = d'.
Proof.
  intros [y r] [y' r'] H1 H2 H3 H4 E. cbn [fst snd] in *.
  pose proof (year_loop_1601 y r H1 H3) as L. pose proof (year_loop_1601 y' r' H2 H4) as L'. cbv zeta in L, L'.
  unfold ordinal_day in E. cbn [fst snd] in E. rewrite E in L. rewrite L in L'. congruence.
Qed.
Lemma ordinal_day_nth : forall d, 1601 <= fst d -> 1 <= snd d <= ylen (fst d) -> nth_yday (ordinal_day d) d.
Proof.
  assert (EX : forall n : nat, exists d, nth_yday (Z.of_nat (S n)) d).
  { induction n as [|n (d & H)].
    - exists (1601, 1). apply nthy_first.
    - destruct (nth_yday_ordinal _ _ H) as (A & B & _). destruct d as [y r]. cbn [fst snd] in *.
      eexists. replace (Z.of_nat (S (S n))) with (Z.of_nat (S n) + 1) by lia.
      eapply nthy_next; [exact H|]. apply yday_step; auto. }
  intros d A B.
  assert (P : 1 <= ordinal_day d) by (unfold ordinal_day; pose proof (span_bound (Z.to_nat (fst d - 1601)) 1601); lia).
  destruct (EX (Z.to_nat (ordinal_day d - 1))) as (d' & H).
  replace (Z.of_nat (S (Z.to_nat (ordinal_day d - 1)))) with (ordinal_day d) in H by lia.
  destruct (nth_yday_ordinal _ _ H) as (A' & B' & E).
  rewrite (ordinal_day_inj d d' A A' B B' E). rewrite E in H. exact H.
Qed.

(** ** months *)
Definition mtab (y : Z) : list Z := if leap_year y then leap_days else normal_days.
Definition before (y m : Z) : Z := nth (Z.to_nat (m - 1)) (mtab y) 0.

Ltac month_cases m H :=
  let K := fresh "K" in
  assert (K : m = 1 \/ m = 2 \/ m = 3 \/ m = 4 \/ m = 5 \/ m = 6 \/ m = 7 \/ m = 8 \/ m = 9 \/ m = 10 \/ m = 11 \/ m = 12)
    by (clear - H; lia); clear H;
  destruct K as [-> | [-> | [-> | [-> | [-> | [-> | [-> | [-> | [-> | [-> | [-> | ->]]]]]]]]]]].

Definition mlen (y m : Z) : Z := before y (m + 1) - before y m.
Lemma month_days_mlen : forall y m k, 0 <= y -> (month_days y m k <-> 1 <= m <= 12 /\ k = mlen y m).
Proof.
  intros y m k H. pose proof (leap_year_spec y H) as L. split.
  - intros M. inversion M as [m' HI|m' HI|HL|HL]; subst; unfold mlen, before, mtab.
    + cbn [In] in HI. destruct HI as [<-|[<-|[<-|[<-|[<-|[<-|[<-|[]]]]]]]]; destruct (leap_year y); split; try lia; reflexivity.
    + cbn [In] in HI. destruct HI as [<-|[<-|[<-|[<-|[]]]]]; destruct (leap_year y); split; try lia; reflexivity.
    + destruct (leap_year y); [split; [lia|reflexivity]|]. apply L in HL. discriminate.
    + destruct (leap_year y); [|split; [lia|reflexivity]]. exfalso. apply HL, L. reflexivity.
  - intros [R ->]. unfold mlen, before, mtab. month_cases m R; destruct (leap_year y) eqn:E;
      match goal with |- month_days _ ?m ?k => let k' := eval compute in k in change k with k' end;
      try (apply md31; cbn [In]; tauto); try (apply md30; cbn [In]; tauto).
    + apply md29, L. reflexivity.
    + apply md28. intros C. apply L in C. congruence.
Qed.

Lemma month_loop_gen : forall y r m p x, tab (mtab y) m = Ok x -> tab (mtab y) (m - 1) = Ok p -> r <= x ->
  forall todo i, i <= m -> m - i < Z.of_nat todo ->
  (forall j, i <= j < m -> exists z, tab (mtab y) j = Ok z /\ z < r) ->
  month_loop todo i y r = Ok (m, r - p).
Proof.
  intros y r m p x T1 T2 HR. induction todo as [|t IH]; intros i HI HT HJ; [lia|].
  cbn [month_loop]. change (if leap_year y then leap_days else normal_days) with (mtab y).
  destruct (Z.eq_dec i m) as [-> |NE].
  - rewrite T1. cbn [obind]. destruct (Z.leb_spec r x); [|lia]. rewrite T2. reflexivity.
  - destruct (HJ i ltac:(lia)) as (z & TZ & LZ). rewrite TZ. cbn [obind]. destruct (Z.leb_spec r z); [lia|].
    apply IH; [lia|lia|]. intros j Hj. apply HJ. lia.
Qed.
Lemma tab_mtab : forall y j, 0 <= j <= 12 -> tab (mtab y) j = Ok (before y (j + 1)).
Proof.
  intros y j H. unfold tab, before. destruct (Z.ltb_spec j 0); [lia|]. replace (j + 1 - 1) with j by lia.
  rewrite (nth_error_nth' (mtab y) 0); [reflexivity|]. unfold mtab, leap_days, normal_days. destruct (leap_year y); cbn [length]; lia.
Qed.
Lemma before_mono : forall y j m, 1 <= j <= m -> m <= 13 -> before y j <= before y m.
Proof.
  intros y j m HJ HM. assert (S1 : forall i, 1 <= i <= 12 -> before y i <= before y (i + 1)).
  { intros i HI. unfold before, mtab. month_cases i HI; destruct (leap_year y);
    repeat match goal with |- context [nth ?i ?t ?z] => let v := eval compute in (nth i t z) in change (nth i t z) with v end; lia. }
  assert (G : forall k : nat, j + Z.of_nat k <= 13 -> before y j <= before y (j + Z.of_nat k)).
  { induction k as [|k IH]; intros HK; [rewrite Z.add_0_r; lia|].
    specialize (S1 (j + Z.of_nat k) ltac:(lia)). replace (j + Z.of_nat (S k)) with (j + Z.of_nat k + 1) by lia.
    specialize (IH ltac:(lia)). lia. }
  specialize (G (Z.to_nat (m - j)) ltac:(lia)). replace (j + Z.of_nat (Z.to_nat (m - j))) with m in G by lia. exact G.
Qed.
Lemma month_loop_spec : forall y m d, 1 <= m <= 12 -> 1 <= d <= mlen y m ->
  month_loop 13 0 y (before y m + d) = Ok (m, d).
Proof.
  intros y m d HM HD. unfold mlen in HD.
  rewrite (month_loop_gen y (before y m + d) m (before y m) (before y (m + 1))).
  - do 2 f_equal. lia.
  - apply tab_mtab. lia.
  - rewrite tab_mtab by lia. do 2 f_equal. lia.
  - lia.
  - lia.
  - lia.
  - intros j Hj. exists (before y (j + 1)). split; [apply tab_mtab; lia|].
    pose proof (before_mono y (j + 1) m ltac:(lia) ltac:(lia)). lia.
Qed.

Definition ordinal (d : date) : Z :=
  let '(y, m, dd) := d in span 1601 (Z.to_nat (y - 1601)) + before y m + dd.
Definition in_cal (d : date) : Prop := let '(y, m, dd) := d in 1601 <= y /\ 1 <= m <= 12 /\ 1 <= dd <= mlen y m.

Lemma before_range : forall y m d, 1 <= m <= 12 -> 1 <= d <= mlen y m -> 1 <= before y m + d <= ylen y.
Proof.
  intros y m d HM. unfold mlen, before, mtab, ylen. month_cases m HM; destruct (leap_year y);
  repeat match goal with |- context [nth ?i ?t ?z] => let v := eval compute in (nth i t z) in change (nth i t z) with v end; lia.
Qed.
Lemma before_last : forall y, before y 12 + 31 = ylen y /\ before y 1 = 0 /\ mlen y 12 = 31 /\ mlen y 1 = 31.
Proof. intros y. unfold mlen, before, mtab, ylen. destruct (leap_year y); repeat split; reflexivity. Qed.
Lemma mlen_pos : forall y m, 1 <= m <= 12 -> 28 <= mlen y m <= 31.
Proof.
  intros y m HM. unfold mlen, before, mtab. month_cases m HM; destruct (leap_year y);
  repeat match goal with |- context [nth ?i ?t ?z] => let v := eval compute in (nth i t z) in change (nth i t z) with v end; lia.
Qed.

Lemma next_day_spec : forall d d', in_cal d -> next_day d d' -> in_cal d' /\ ordinal d' = ordinal d + 1.
Proof.
  intros d d' H N. inversion N as [y m dd k Hk Hd|y m k Hk HM|y]; subst; unfold in_cal, ordinal in *.
  - destruct H as (A & B & C). apply month_days_mlen in Hk; [|lia]. destruct Hk as [_ ->]. split; [|lia]. repeat split; lia.
  - destruct H as (A & B & C). apply month_days_mlen in Hk; [|lia]. destruct Hk as [_ ->].
    pose proof (mlen_pos y (m + 1) ltac:(lia)). split; [repeat split; lia|]. unfold mlen. lia.
  - destruct H as (A & _). pose proof (before_last y) as (L & _). pose proof (before_last (y + 1)) as (_ & F & _ & M1).
    split; [repeat split; lia|].
    replace (Z.to_nat (y + 1 - 1601)) with (S (Z.to_nat (y - 1601))) by lia. rewrite span_snoc.
    replace (1601 + Z.of_nat (Z.to_nat (y - 1601))) with y by lia. lia.
Qed.
Lemma nth_day_ordinal : forall n d, nth_day n d -> in_cal d /\ n = ordinal d.
Proof.
  intros n d H. induction H as [|n d d' H (A & C) N].
  - split; [|reflexivity]. pose proof (mlen_pos 1601 1). repeat split; lia.
  - destruct (next_day_spec d d' A N) as (A' & C'). split; auto. lia.
Qed.
Lemma day_step : forall d, in_cal d -> exists d', next_day d d'.
Proof.
  intros [[y m] d] (A & B & C). destruct (Z.lt_ge_cases d (mlen y m)) as [L|L].
  - exists (y, m, d + 1). apply nd_same_month with (mlen y m); [apply month_days_mlen; lia|lia].
  - assert (d = mlen y m) by lia. subst d. destruct (Z.eq_dec m 12) as [-> |NE].
    + exists (y + 1, 1, 1). pose proof (before_last y) as (_ & _ & -> & _). apply nd_next_year.
    + exists (y, m + 1, 1). apply nd_same_year; [|lia]. apply month_days_mlen; lia.
Qed.

(** Decoding an ordinal gives the date back. *)
Lemma decode_ordinal : forall y m d, in_cal (y, m, d) ->
  exists r, year_loop (Z.to_nat (ordinal (y, m, d))) (ordinal (y, m, d)) 1601 365 = Ok (r, y) /\
            month_loop 13 0 y r = Ok (m, d) /\ r = before y m + d.
Proof.
  intros y m d (A & B & C). exists (before y m + d). split; [|split; auto; apply month_loop_spec; auto].
  pose proof (year_loop_1601 y (before y m + d) A (before_range _ _ _ B C)) as L. cbv zeta in L.
  unfold ordinal. rewrite <- Z.add_assoc. exact L.
Qed.
Lemma ordinal_inj : forall d d', in_cal d -> in_cal d' -> ordinal d = ordinal d' -> d = d'.
Proof.
  intros [[y m] d] [[y' m'] d'] H H' E. destruct (decode_ordinal _ _ _ H) as (r & L & M & _).
  destruct (decode_ordinal _ _ _ H') as (r' & L' & M' & _). rewrite E in L. congruence.
Qed.
Lemma ordinal_nth : forall d, in_cal d -> nth_day (ordinal d) d.
Proof.
  assert (EX : forall n : nat, exists d, nth_day (Z.of_nat (S n)) d).
  { induction n as [|n (d & H)].
    - exists (1601, 1, 1). apply nth_first.
    - destruct (nth_day_ordinal _ _ H) as (A & _). destruct (day_step d A) as (d' & N). exists d'.
      replace (Z.of_nat (S (S n))) with (Z.of_nat (S n) + 1) by lia. eapply nth_next; eauto. }
  intros d A.
  assert (P : 1 <= ordinal d).
  { destruct d as [[y m] d]. destruct A as (A & B & C). unfold ordinal. pose proof (span_bound (Z.to_nat (y - 1601)) 1601).
    pose proof (before_range y m d B C). lia. }
  destruct (EX (Z.to_nat (ordinal d - 1))) as (d' & H).
  replace (Z.of_nat (S (Z.to_nat (ordinal d - 1)))) with (ordinal d) in H by lia.
  destruct (nth_day_ordinal _ _ H) as (A' & E).
  rewrite (ordinal_inj d d' A A' E). rewrite E in H. exact H.
Qed.
Lemma valid_in_cal : forall y m d, 1601 <= y -> (valid_date (y, m, d) <-> in_cal (y, m, d)).
Proof.
  intros y m d H. split.
  - intros V. inversion V as [? ? ? k Hk Hd]; subst. apply month_days_mlen in Hk; [|lia]. destruct Hk as (A & ->).
    repeat split; lia.
  - intros (_ & B & C). apply vd with (mlen y m); auto. apply month_days_mlen; lia.
Qed.

Lemma span_9999 : span 1601 (Z.to_nat 8399) = 3067671.
Proof. vm_compute. reflexivity. Qed.
Lemma ordinal_upper : forall y m d, in_cal (y, m, d) -> (y <= 9999 <-> ordinal (y, m, d) <= 3067671).
Proof.
  intros y m d (A & B & C). unfold ordinal. pose proof (before_range y m d B C) as R. set (b := before y m + d) in *.
  replace (span 1601 (Z.to_nat (y - 1601)) + before y m + d) with (span 1601 (Z.to_nat (y - 1601)) + b) by (subst b; lia).
  split; intros H.
  - assert (E : span 1601 (Z.to_nat 8399) = span 1601 (Z.to_nat (y - 1601)) + span y (Z.to_nat 8399 - Z.to_nat (y - 1601))).
    { replace (Z.to_nat 8399) with (Z.to_nat (y - 1601) + (Z.to_nat 8399 - Z.to_nat (y - 1601)))%nat at 1 by lia. rewrite span_add.
      replace (1601 + Z.of_nat (Z.to_nat (y - 1601))) with y by lia. reflexivity. }
    rewrite span_9999 in E. destruct (Z.to_nat 8399 - Z.to_nat (y - 1601))%nat as [|j] eqn:J; [lia|]. cbn [span] in E.
    pose proof (span_bound j (y + 1)). lia.
  - destruct (Z.le_gt_cases y 9999) as [L|L]; auto. exfalso.
    assert (E : span 1601 (Z.to_nat (y - 1601)) = span 1601 (Z.to_nat 8399) + span (1601 + Z.of_nat (Z.to_nat 8399)) (Z.to_nat (y - 1601) - Z.to_nat 8399)).
    { replace (Z.to_nat (y - 1601)) with (Z.to_nat 8399 + (Z.to_nat (y - 1601) - Z.to_nat 8399))%nat at 1 by lia. apply span_add. }
    rewrite span_9999 in E. pose proof (span_bound (Z.to_nat (y - 1601) - Z.to_nat 8399) (1601 + Z.of_nat (Z.to_nat 8399))). lia.
Qed.
Lemma ordinal_day_upper : forall d, 1601 <= fst d -> 1 <= snd d <= ylen (fst d) -> (fst d <= 9999 <-> ordinal_day d <= 3067671).
Proof.
  intros [y r] A R. cbn [fst snd] in *. unfold ordinal_day. cbn [fst snd]. split; intros H.
  - assert (E : span 1601 (Z.to_nat 8399) = span 1601 (Z.to_nat (y - 1601)) + span y (Z.to_nat 8399 - Z.to_nat (y - 1601))).
    { replace (Z.to_nat 8399) with (Z.to_nat (y - 1601) + (Z.to_nat 8399 - Z.to_nat (y - 1601)))%nat at 1 by lia. rewrite span_add.
      replace (1601 + Z.of_nat (Z.to_nat (y - 1601))) with y by lia. reflexivity. }
    rewrite span_9999 in E. destruct (Z.to_nat 8399 - Z.to_nat (y - 1601))%nat as [|j] eqn:J; [lia|]. cbn [span] in E.
    pose proof (span_bound j (y + 1)). lia.
  - destruct (Z.le_gt_cases y 9999) as [L|L]; auto. exfalso.
    assert (E : span 1601 (Z.to_nat (y - 1601)) = span 1601 (Z.to_nat 8399) + span (1601 + Z.of_nat (Z.to_nat 8399)) (Z.to_nat (y - 1601) - Z.to_nat 8399)).
    { replace (Z.to_nat (y - 1601)) with (Z.to_nat 8399 + (Z.to_nat (y - 1601) - Z.to_nat 8399))%nat at 1 by lia. apply span_add. }
    rewrite span_9999 in E. pose proof (span_bound (Z.to_nat (y - 1601) - Z.to_nat 8399) (1601 + Z.of_nat (Z.to_nat 8399))). lia.
Qed.

(** ** items *)
Lemma int_arg_get : forall m f n, int_arg (c_ebcdic m) f n -> get_int m f = Ok (n, f).
Proof. intros m f n (v & D & T & B & S1 & S2 & S3). apply (C52_get_int m f v n); auto. Qed.

Lemma int_result_spec : forall m n exn, 0 <= n < 100000000 ->
  exists r, int_result m n exn = Ok (r, exn) /\ holds_int (c_ebcdic m) r n.
Proof.
  intros m n exn HN. unfold int_result.
  assert (NI : numeric_item res_int).
  { apply ni_binary. unfold wf_binary, res_int, f_size, res_attr. cbn [fa fd a_type a_digits length]. repeat split; lia. }
  assert (KD : kept_digits m res_int n = n).
  { unfold kept_digits, res_int, res_attr; cbn [fa a_type a_realbin a_digits negb]. rewrite andb_true_r.
    destruct (c_bintrunc m); auto. unfold low_part. change (10 ^ Z.of_nat (Z.to_nat 8)) with 100000000.
    rewrite Z.mod_small by lia. lia. }
  destruct (C52_set_int m res_int n) as (r & E & RA & RS & R).
  - unfold is_int, INT_MIN, INT_MAX. lia.
  - exact NI.
  - intros _. split; [cbn; lia|]. split; [cbn; lia|].
    intros w Hw. apply trunc_zero in Hw. subst w. rewrite KD. split.
    + assert (100000000 < 2 ^ 63) by reflexivity. lia.
    + unfold bin_range. cbn [res_int res_attr fa a_sign]. change (2 ^ bits res_int) with 4294967296. lia.
  - exists r. rewrite E. cbn [obind]. split; auto. split; [|now rewrite RA].
    specialize (R n). rewrite KD in R. unfold held in R. cbn [res_int res_attr fa a_sign a_scale] in R.
    rewrite Z.abs_eq in R by lia. apply R. apply trunc_at_exact. reflexivity.
Qed.

Lemma fmt_d_fixed : forall w n, 0 <= n < 10 ^ Z.of_nat w -> (1 <= w)%nat -> fmt_d w n = fixed w n.
Proof.
  intros w n HN HW. unfold fmt_d, mpz_get_str. rewrite fixed_length.
  pose proof (pad_or_cut n w ltac:(lia)) as P.
  destruct (Nat.ltb_spec w (ndigits n)) as [L|L]; auto.
  exfalso. pose proof (ndigits_le n w ltac:(lia) HW). lia.
Qed.
