(** More proofs about the numeric intrinsic functions. *)
From Coq Require Import QArith Qabs Qround.
From Verif Require Import Base BaseFacts Field Sign Decimal SpecNum Numeric SpecStore NumFacts.
From Verif Require Import DispProofs DecProofs BinProofs StoreProofs Move Edited MoveAll SpecMove MoveNum IntAccess P_Num P_Move.
From Verif Require Import Compare SpecCmp CmpProofs CmpMore Dates SpecDate DatesProofs SpecIntr Intr IntrProofs.
Local Open Scope Z_scope.

Lemma trunc_at_unique : forall q s w w', trunc_at q s w -> trunc_at q s w' -> w = w'.
Proof. intros. apply (rounded_unique no_opt q s); auto. Qed.
Lemma s18_item : numeric_item s18.
Proof. apply bin8_item. lia. Qed.

(** Moving to S9(18) binary. *)
Lemma integer_part_spec : forall m f v w, denotes (c_ebcdic m) f v ->
  (a_type (fa f) = TPacked -> a_digits (fa f) <= 64) -> a_scale (fa f) <= digit_positions f ->
  trunc_at (rat v (a_scale (fa f))) 0 w -> Z.abs w < 10 ^ 18 ->
  exists r, intr_integer_part m f = Ok r /\ fa r = fa s18 /\ f_size r = 8%nat /\ denotes (c_ebcdic m) r w.
Proof.
  intros m f v w D HP HS T B. unfold intr_integer_part.
  assert (KD : kept_digits m s18 w = w).
  { unfold kept_digits. cbn [s18 fresh bin_attr fa a_type a_realbin a_digits]. destruct (c_bintrunc m && negb false); auto.
    apply low_part_fits. exact B. }
  destruct (cob_move_numeric m f s18 v D s18_item) as (r & E & A & SZ & R); auto.
  - intros _ X. discriminate X.
  - intros _. split; [|split].
    + cbn [s18 fresh bin_attr fa a_scale]. lia.
    + intros _. cbn [s18 fresh bin_attr fa a_digits]. lia.
    + intros w' T'. change (a_scale (fa s18)) with 0 in T'. rewrite (trunc_at_unique _ _ _ _ T' T).
      change (10 ^ 18) with 1000000000000000000 in B. change (2 ^ 63) with 9223372036854775808. split; [lia|].
      rewrite KD. unfold bin_range, bits. change (f_size s18) with 8%nat. cbn [s18 fresh bin_attr fa a_sign].
      change (2 ^ (8 * Z.of_nat 8 - 1)) with 9223372036854775808. lia.
  - exists r. rewrite E. cbn [obind snd]. split; auto. split; auto. split; [rewrite SZ; reflexivity|].
    specialize (R w T). rewrite KD in R. exact R.
Qed.

Lemma dec_div_shape : forall v1 s1 v2 s2, s1 <> -128 -> s2 <> -128 -> v2 <> 0 ->
  let d := fst (dec_div (mkDec v1 s1) (mkDec v2 s2)) in
  0 <= dsc d <= 37 + Z.max 0 (s1 - s2) /\ Z.abs (dv d) <= Z.abs v1 * 10 ^ (37 + Z.max 0 (s2 - s1)).
Proof.
  intros v1 s1 v2 s2 N1 N2 NZ. unfold dec_div, nan_in. cbn [dsc dv].
  destruct (Z.eqb_spec s1 DECIMAL_NAN); [unfold DECIMAL_NAN in *; lia|].
  destruct (Z.eqb_spec s2 DECIMAL_NAN); [unfold DECIMAL_NAN in *; lia|]. cbn [orb].
  destruct (Z.eqb_spec v2 0); [lia|]. destruct (Z.eqb_spec v1 0) as [->|NA]; cbn [fst dv dsc].
  - split; [lia|]. change (Z.abs 0) with 0. lia.
  - assert (E : (if s1 - s2 <? 0 then - (s1 - s2) else 0) = Z.max 0 (s2 - s1)) by (destruct (Z.ltb_spec (s1 - s2) 0); lia).
    rewrite E. set (k := 37 + Z.max 0 (s2 - s1)). assert (K : 37 <= k) by lia. unfold shift_decimal.
    destruct (Z.eqb_spec k 0); [lia|]. destruct (Z.ltb_spec 0 k); [|lia]. cbn [dv dsc]. split; [lia|].
    pose proof (pow10_gt0 k ltac:(lia)). rewrite <- Z.quot_abs by lia. rewrite Z.abs_mul. rewrite (Z.abs_eq (10 ^ k)) by lia.
    set (w := Z.abs v1 * 10 ^ k). assert (0 <= w) by (subst w; apply Z.mul_nonneg_nonneg; lia).
    rewrite Z.quot_div_nonneg by lia. apply Z.div_le_upper_bound; [lia|].
    assert (1 * w <= Z.abs v2 * w) by (apply Z.mul_le_mono_nonneg_r; lia). lia.
Qed.

Lemma big_limit : forall x k, x < 10 ^ 1500 -> 0 <= k <= 400 -> x * 10 ^ k < NUM_LIMIT.
Proof.
  intros x k H K. pose proof (pow10_gt0 k ltac:(lia)). unfold NUM_LIMIT.
  replace 2047 with (k + (2047 - k)) by lia. rewrite Z.pow_add_r by lia. rewrite Z.mul_comm.
  apply Z.mul_lt_mono_pos_l; auto. apply Z.lt_le_trans with (1 := H). apply Z.pow_le_mono_r; lia.
Qed.

Lemma dec_sub_scale : forall v1 s1 v2 s2, s1 <> -128 -> s2 <> -128 -> dsc (dec_sub (mkDec v1 s1) (mkDec v2 s2)) = Z.max s1 s2.
Proof.
  intros. unfold dec_sub, nan_in. cbn [dsc dv].
  destruct (Z.eqb_spec s1 DECIMAL_NAN); [unfold DECIMAL_NAN in *; lia|].
  destruct (Z.eqb_spec s2 DECIMAL_NAN); [unfold DECIMAL_NAN in *; lia|]. cbn [orb].
  unfold align_decimal. cbn [dsc].
  destruct (Z.ltb_spec s1 s2); [|destruct (Z.ltb_spec s2 s1)]; cbn [dsc]; try lia.
  unfold shift_decimal. cbn [dv dsc]. destruct (Z.eqb_spec (s2 - s1) 0); [lia|].
  destruct (Z.ltb_spec 0 (s2 - s1)); cbn [dsc]; lia.
Qed.
Lemma dec_add_scale : forall v1 s1 v2 s2, s1 <> -128 -> s2 <> -128 -> dsc (dec_add (mkDec v1 s1) (mkDec v2 s2)) = Z.max s1 s2.
Proof.
  intros. unfold dec_add, nan_in. cbn [dsc dv].
  destruct (Z.eqb_spec s1 DECIMAL_NAN); [unfold DECIMAL_NAN in *; lia|].
  destruct (Z.eqb_spec s2 DECIMAL_NAN); [unfold DECIMAL_NAN in *; lia|]. cbn [orb].
  unfold align_decimal. cbn [dsc].
  destruct (Z.ltb_spec s1 s2); [|destruct (Z.ltb_spec s2 s1)]; cbn [dsc]; try lia.
  unfold shift_decimal. cbn [dv dsc]. destruct (Z.eqb_spec (s2 - s1) 0); [lia|].
  destruct (Z.ltb_spec 0 (s2 - s1)); cbn [dsc]; lia.
Qed.
Lemma dec_mul_scale : forall v1 s1 v2 s2, s1 <> -128 -> s2 <> -128 -> dsc (dec_mul (mkDec v1 s1) (mkDec v2 s2)) = s1 + s2.
Proof.
  intros. unfold dec_mul, nan_in. cbn [dsc dv].
  destruct (Z.eqb_spec s1 DECIMAL_NAN); [unfold DECIMAL_NAN in *; lia|].
  destruct (Z.eqb_spec s2 DECIMAL_NAN); [unfold DECIMAL_NAN in *; lia|]. reflexivity.
Qed.

Lemma rem_spec : forall m over f1 f2 va vb w v,
  denotes (c_ebcdic m) f1 va -> denotes (c_ebcdic m) f2 vb -> vb <> 0 ->
  let sa := a_scale (fa f1) in let sb := a_scale (fa f2) in
  let A := rat va sa in let B := rat vb sb in
  -100 <= sa <= 100 -> -100 <= sb <= 100 -> sa - sb <= 90 -> Z.abs va < 10 ^ 1500 ->
  trunc_at (A / B) 0 w -> Z.abs w < 10 ^ 18 ->
  (rat v (Z.max sa sb) == A - inject_Z w * B)%Q -> Z.abs v < 2 ^ 63 ->
  exists r, intr_rem m over f1 f2 = Ok r /\ denotes (c_ebcdic m) r v /\ a_scale (fa r) = Z.max sa sb.
Proof.
  intros m over f1 f2 va vb w v D1 D2 NZ sa sb A B HA HB HAB BA TW BW EV BV.
  destruct (dec_div_shape va sa vb sb ltac:(lia) ltac:(lia) NZ) as (SD & BD).
  destruct (dec_div_spec (mkDec va sa) (mkDec vb sb)) as (_ & TD & _); unfold not_nan; cbn [dsc dv]; unfold DECIMAL_NAN; try lia.
  cbv zeta in SD, BD. set (d := fst (dec_div (mkDec va sa) (mkDec vb sb))) in *.
  assert (LD : Z.abs (dv d) < NUM_LIMIT).
  { apply Z.le_lt_trans with (1 := BD). apply big_limit; [auto|lia]. }
  unfold intr_rem.
  destruct (binop_run m over f1 f2 va vb OpDiv d D1 D2) as (q & EQ & DQ & SQ & TQ & PQ1 & PQ2); auto; try lia.
  rewrite EQ. cbn [obind].
  assert (TQ0 : trunc_at (rat (dv d) (dsc d)) 0 w).
  { pose proof (trunc_at_twice _ (dsc d) 0 _ ltac:(lia) TD) as T2. rewrite Z.sub_0_r in T2.
    rewrite (trunc_at_unique _ _ _ _ TW T2). pose proof (trunc_quot_at (dv d) (dsc d) 0 ltac:(lia)) as T3. now rewrite Z.sub_0_r in T3. }
  destruct (integer_part_spec m q (dv d) w DQ) as (i & EI & AI & SI & DI); auto.
  { intros X. destruct TQ as [TQ|TQ]; rewrite TQ in X; discriminate X. }
  { rewrite SQ. unfold digit_positions. destruct TQ as [TQ|TQ]; rewrite TQ; [apply PQ1; auto|]. specialize (PQ2 TQ). lia. }
  { rewrite SQ. exact TQ0. }
  rewrite EI. cbn [obind].
  rewrite (C02_fetch_exact m f2 vb D2), (C02_fetch_exact m i w DI), (C02_fetch_exact m f1 va D1).
  cbn [obind fst]. assert (SCI : a_scale (fa i) = 0) by (rewrite AI; reflexivity). rewrite SCI. fold sa sb.
  assert (SM : (if sa <? sb then sb else sa) = Z.max sa sb) by (destruct (Z.ltb_spec sa sb); lia). rewrite SM.
  set (e := dec_sub (mkDec va sa) (dec_mul (mkDec w 0) (mkDec vb sb))).
  assert (MS : dec_mul (mkDec w 0) (mkDec vb sb) = mkDec (w * vb) sb).
  { unfold dec_mul, nan_in. cbn [dsc dv]. destruct (Z.eqb_spec sb DECIMAL_NAN); [unfold DECIMAL_NAN in *; lia|]. reflexivity. }
  assert (ES : dsc e = Z.max sa sb).
  { subst e. rewrite MS. apply dec_sub_scale; lia. }
  assert (EE : (rat (dv e) (dsc e) == rat v (Z.max sa sb))%Q).
  { subst e. rewrite MS. assert (N1 : sa <> -128) by lia. assert (N2 : sb <> -128) by lia.
    destruct (C05_arithmetic_exact va sa (w * vb) sb N1 N2) as (_ & X & _). cbv zeta in X.
    rewrite X, EV. fold A. apply Qminus_comp; [reflexivity|]. subst B. rewrite <- (rat0 w), rat_mul. rewrite Z.add_0_l. reflexivity. }
  rewrite ES in EE. apply rat_eq in EE.
  destruct (bin8_fits m 18 (Z.max sa sb) true v) as (F & HH & L); [lia|lia|].
  destruct (store_exact m e (fresh (bin_attr 18 (Z.max sa sb) true) 8)) as (r & ER & AR & _ & DR).
  - lia.
  - apply bin8_item. lia.
  - rewrite ES. reflexivity.
  - rewrite EE. exact L.
  - rewrite EE. exact F.
  - rewrite ER. cbn [obind st_f]. exists r. split; auto. rewrite EE, HH in DR. split; auto. rewrite AR. reflexivity.
Qed.

(** ** MIN, MAX and their positions *)
Section Best.
Variables (m : cfg) (col : option (list Z)) (args : list field) (better : Z -> bool) (R : field -> field -> Prop).
Hypothesis cmp_ok : forall x y, In x args -> In y args ->
  exists c, cob_cmp m col (item x) (item y) = Ok (c, x, y) /\ (better c = true <-> R x y).
Hypothesis trans : forall x y z, In x args -> In y args -> In z args -> R x y -> R y z -> R x z.
Hypothesis neg_trans : forall x y z, In x args -> In y args -> In z args -> ~ R x y -> ~ R y z -> ~ R x z.
Hypothesis irrefl : forall x, In x args -> ~ R x x.

Lemma setnth_same : forall i x l, nth_error l i = Some x -> setnth i x l = l.
Proof. induction i; destruct l; cbn; intros; try discriminate; [congruence|]. f_equal. auto. Qed.

Definition best_upto (n k : nat) : Prop := (k < n)%nat /\
  exists x, nth_error args k = Some x /\
    (forall i y, (i < n)%nat -> nth_error args i = Some y -> ~ R y x) /\
    (forall i y, (i < k)%nat -> nth_error args i = Some y -> R x y).

Lemma best_loop_spec : forall todo i base, (i + todo = length args)%nat -> best_upto i base ->
  exists k, best_loop m col better todo i base args = Ok (k, args) /\ best_upto (length args) k.
Proof.
  induction todo as [|t IH]; intros i base HL (HB & x & NX & B1 & B2); cbn [best_loop].
  - exists base. replace (length args) with i by lia. split; auto. split; auto. exists x. auto.
  - destruct (nth_error args i) as [f|] eqn:NI; [|apply nth_error_None in NI; lia]. rewrite NX.
    pose proof (nth_error_In _ _ NX) as IX. pose proof (nth_error_In _ _ NI) as IF.
    destruct (cmp_ok f x IF IX) as (c & EC & RC). rewrite EC. cbn [obind].
    rewrite (setnth_same base x args NX), (setnth_same i f args NI).
    apply IH; [lia|]. destruct (better c).
    + assert (RFX : R f x) by (apply RC; reflexivity). split; [lia|]. exists f. split; auto. split.
      * intros j y LJ NJ RY. pose proof (nth_error_In _ _ NJ) as IY. destruct (Nat.eq_dec j i) as [->|].
        -- rewrite NI in NJ. injection NJ as <-. apply (irrefl f); auto.
        -- apply (B1 j y ltac:(lia) NJ). apply (trans y f x); auto.
      * intros j y LJ NJ. pose proof (nth_error_In _ _ NJ) as IY.
        destruct (cmp_ok f y IF IY) as (c' & EC' & RC'). destruct (better c') eqn:EB; [apply RC'; auto|exfalso].
        assert (~ R f y) by (intros X; apply RC' in X; congruence). apply (neg_trans f y x); auto. apply (B1 j y); auto. 
    + assert (RFX : ~ R f x) by (intros X; apply RC in X; discriminate). split; [lia|]. exists x. split; auto. split; auto.
      intros j y LJ NJ. destruct (Nat.eq_dec j i) as [->|]; [rewrite NI in NJ; injection NJ as <-; auto|]. apply (B1 j y); [lia|auto].
Qed.
Lemma best_spec : args <> [] ->
  exists k, best_loop m col better (length args - 1) 1 0 args = Ok (k, args) /\ (k < length args)%nat /\ first_best R args k.
Proof.
  intros NE. destruct args as [|a r] eqn:EA; [congruence|]. rewrite <- EA in *.
  assert (LA : (1 <= length args)%nat) by (rewrite EA; cbn; lia).
  destruct (best_loop_spec (length args - 1) 1 0) as (k & E & KL & x & N & B1 & B2).
  - lia.
  - split; [lia|]. exists a. rewrite EA. split; [reflexivity|]. split; [|intros; lia].
    intros i y Hi Hy. assert (i = 0)%nat by lia. subst i. cbn in Hy. injection Hy as <-. apply irrefl. rewrite EA. now left.
  - exists k. split; auto. split; auto. exists x. split; auto. split; auto. intros i y Hy. apply (B1 i y); auto.
    apply nth_error_Some. congruence.
Qed.
End Best.

(** ** SUM *)
Lemma sum_loop_spec : forall m fs qs d s, Forall2 (number_in (c_ebcdic m)) fs qs ->
  Forall (fun f => -128 < a_scale (fa f)) fs -> dsc d = s -> -128 < s ->
  exists d', sum_loop m fs s d = Ok (dsc d', d') /\
    dsc d' = fold_right (fun f => Z.max (a_scale (fa f))) s fs /\
    (rat (dv d') (dsc d') == rat (dv d) (dsc d) + Qsum qs)%Q.
Proof.
  intros m fs qs d s F. revert d s. induction F as [|f q fs qs (v & DV & EQ) F IH]; intros [dv0 ds0] s HS ED N; cbn [sum_loop dsc dv] in *.
  - exists (mkDec dv0 ds0). cbn [dsc dv fold_right Qsum]. subst. repeat split. rewrite Qplus_0_r. reflexivity.
  - inversion HS as [|? ? HF HFS]; subst. rewrite (C02_fetch_exact m f v DV). cbn [obind fst].
    set (sf := a_scale (fa f)) in *.
    assert (E1 : (if s <? sf then sf else s) = Z.max sf s) by (destruct (Z.ltb_spec s sf); lia). rewrite E1.
    pose proof (dec_add_scale dv0 s v sf ltac:(lia) ltac:(lia)) as DS.
    destruct (IH (dec_add (mkDec dv0 s) (mkDec v sf)) (Z.max sf s) HFS) as (d' & E & SC & Q); [lia|lia|].
    exists d'. split; auto. split.
    + rewrite SC. cbn [fold_right]. fold sf. clear. induction fs as [|g gs IHg]; cbn [fold_right]; [reflexivity|]. rewrite IHg. lia.
    + rewrite Q. destruct (C05_arithmetic_exact dv0 s v sf ltac:(lia) ltac:(lia)) as (X & _). cbv zeta in X. rewrite X.
      cbn [Qsum]. rewrite EQ. rewrite Qplus_assoc. reflexivity.
Qed.

Lemma sum_field_spec : forall m over d, -128 < dsc d -> Z.abs (dv d) < NUM_LIMIT ->
  exists f', get_field m d (sum_field over (dsc d) d) no_opt = Ok (mkStored false false f') /\
    denotes (c_ebcdic m) f' (dv d) /\ a_scale (fa f') = dsc d.
Proof.
  intros m over d HS HB. unfold sum_field. cbv zeta.
  set (sz := Z.of_nat (ndigits (Z.abs (dv d))) + (if over then 1 else 0)).
  destruct (ndigits_spec (Z.abs (dv d)) ltac:(lia)) as (N1 & N2 & _).
  assert (SZ1 : Z.of_nat (ndigits (Z.abs (dv d))) <= sz) by (subst sz; destruct over; lia).
  destruct (Z.ltb_spec sz 19).
  - assert (B : Z.abs (dv d) < 10 ^ 18) by (apply Z.lt_le_trans with (1 := N1); apply Z.pow_le_mono_r; lia).
    change (10 ^ 18) with 1000000000000000000 in B.
    destruct (bin8_fits m 18 (dsc d) true (dv d)) as (F & HH & L); [lia|change (2 ^ 63) with 9223372036854775808; lia|].
    destruct (store_exact m d (fresh (bin_attr 18 (dsc d) true) 8)) as (r & ER & AR & _ & DR); auto; try lia.
    + apply bin8_item. lia.
    + exists r. split; auto. rewrite HH in DR. split; auto. rewrite AR. reflexivity.
  - set (z1 := if sz <? dsc d then dsc d else sz).
    assert (Z1 : sz <= z1 /\ dsc d <= z1) by (subst z1; destruct (Z.ltb_spec sz (dsc d)); lia).
    destruct (Z.ltb_spec z1 (dsc d)); [lia|].
    destruct (store_exact m d (fresh (dsp_attr (u8digits z1) (dsc d) true) (Z.to_nat z1))) as (f' & E & A & FS & D); auto; try lia.
    + apply (ni_display _ (Z.to_nat z1)). repeat split; try discriminate; [lia|].
      cbn [fresh fd dsp_attr fa a_sep]. rewrite repeat_length. lia.
    + apply (fit_display m no_opt _ _ (Z.to_nat z1)).
      * repeat split; try discriminate; [lia|]. cbn [fresh fd dsp_attr fa a_sep]. rewrite repeat_length. lia.
      * apply Z.lt_le_trans with (1 := N1). apply Z.pow_le_mono_r; lia.
    + exists f'. split; auto. split; [exact D|]. rewrite A. reflexivity.
Qed.
