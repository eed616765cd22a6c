(** C77: PRESENT-VALUE and STANDARD-DEVIATION, up to the conversion to COMP-2. *)
From Coq Require Import QArith Qabs Qround Qfield Lqa Qpower.
From Verif Require Import Base BaseFacts Field Sign Decimal SpecNum Numeric SpecStore NumFacts.
From Verif Require Import DispProofs DecProofs BinProofs PackedProofs StoreProofs Move Edited MoveAll SpecMove MoveBin MoveNum IntAccess P_Num P_Move.
From Verif Require Import Compare SpecCmp CmpProofs CmpMore MoveMore Dates SpecDate DatesProofs SpecIntr Intr IntrProofs IntrProofs2 P_Intr.
From Verif Require Import Stats SpecStat StatsProofs P_Stats Present SpecPresent.
Local Open Scope Z_scope.

Lemma close_trans : forall a b c x y, (Qabs (a - b) <= x)%Q -> (Qabs (b - c) <= y)%Q -> (Qabs (a - c) <= x + y)%Q.
Proof. intros a b c x y A B. apply Qabs_Qle_condition in A. apply Qabs_Qle_condition in B. apply Qabs_Qle_condition. lra. Qed.

(** One quotient. *)
Lemma term_close : forall d p, not_nan d -> not_nan p -> dv p <> 0 ->
  0 <= dsc (fst (dec_div d p)) /\ (Qabs (decQ (fst (dec_div d p)) - decQ d / decQ p) <= rat 1 37)%Q.
Proof.
  intros d p ND NP NZ. destruct (dec_div_spec d p ND NP NZ) as (_ & T & S1 & S0). destruct (Z.eq_dec (dv d) 0) as [Z0|N0].
  - destruct (S0 Z0) as (A & B). rewrite B. split; [lia|]. unfold decQ at 1 2. rewrite A, Z0, !rat_zero.
    setoid_replace (0 - 0 / decQ p)%Q with 0%Q by (unfold Qdiv; ring). vm_compute. discriminate.
  - specialize (S1 N0). split; [lia|]. apply Qle_trans with (rat 1 (dsc (fst (dec_div d p)))); [apply trunc_error; exact T|].
    rewrite (rat_to 1 37 (dsc (fst (dec_div d p)))) by lia. apply rat_le. pose proof (pow10_gt0 (dsc (fst (dec_div d p)) - 37) ltac:(lia)). lia.
Qed.

Lemma pv_loop_spec : forall m d1 r fs qs i d4, nums (c_ebcdic m) fs qs -> scales_ok fs -> 0 <= dsc d1 <= 127 -> 0 <= dsc d4 ->
  (decQ d1 == 1 + r)%Q -> ~ (1 + r == 0)%Q -> 1 <= i -> i + Z.of_nat (length fs) < 2 ^ 24 ->
  exists d', pv_loop m d1 fs i d4 = Ok d' /\ 0 <= dsc d' /\
    (Qabs (decQ d' - (decQ d4 + present_from r i qs)) <= inject_Z (Z.of_nat (length fs)) * rat 1 37)%Q.
Proof.
  intros m d1 r fs qs i d4 F. revert i d4. induction F as [|f q fs qs (v & DV & EQ) F IH]; intros i d4 HS H1 H4 ER NR HI HL; cbn [pv_loop present_from].
  - exists d4. split; [reflexivity|]. split; [exact H4|]. change (inject_Z (Z.of_nat (length (@nil field)))) with 0%Q.
    setoid_replace (decQ d4 - (decQ d4 + 0))%Q with 0%Q by ring. rewrite Qmult_0_l. apply Qle_refl.
  - inversion HS as [|? ? HF HFS]; subst. cbn [length] in HL. rewrite Nat2Z.inj_succ in HL. change (2 ^ 24) with 16777216 in *.
    rewrite (C02_fetch_exact m f v DV). cbn [obind fst]. set (sf := a_scale (fa f)) in *.
    assert (HP : exists p, (if 1 <? i then dec_pow d1 (mkDec i 0) else Ok d1) = Ok p /\ 0 <= dsc p /\ (decQ p == (1 + r) ^ i)%Q).
    { destruct (Z.ltb_spec 1 i).
      - destruct (dec_pow_exact d1 i) as (p & E & Q); [unfold not_nan, DECIMAL_NAN; lia|lia| |].
        + assert (0 <= dsc d1 * i) by (apply Z.mul_nonneg_nonneg; lia). assert (dsc d1 * i <= 127 * i) by (apply Z.mul_le_mono_nonneg_r; lia). lia.
        + exists p. split; [exact E|]. split; [|rewrite Q, ER; reflexivity].
          unfold dec_pow in E. rewrite nan_in_false in E; [|unfold not_nan, DECIMAL_NAN; lia|unfold not_nan, DECIMAL_NAN; cbn; lia].
          cbn [dsc dv] in E. destruct (_ && _); [|discriminate E]. injection E as <-. cbn [dsc]. rewrite (Z.mod_small i) by lia.
          assert (0 <= dsc d1 * i) by (apply Z.mul_nonneg_nonneg; lia). assert (dsc d1 * i <= 127 * i) by (apply Z.mul_le_mono_nonneg_r; lia).
          rewrite wrap32_small by lia. lia.
      - exists d1. split; [reflexivity|]. split; [lia|]. replace i with 1 by lia. rewrite ER. rewrite Qpower_1_r. reflexivity. }
    destruct HP as (p & EP & SP & QP). rewrite EP. cbn [obind].
    assert (NP : dv p <> 0).
    { intros X. assert (Y : (decQ p == 0)%Q) by (unfold decQ; rewrite X; apply rat_zero). rewrite QP in Y. apply (Qpower_not_0 (1 + r) i NR) in Y. exact Y. }
    destruct (term_close (mkDec v sf) p) as (ST & CT); [unfold not_nan, DECIMAL_NAN; cbn [dsc]; lia|unfold not_nan, DECIMAL_NAN; lia|exact NP|].
    destruct d4 as [v4 s4]. cbn [dsc] in H4. destruct (fst (dec_div (mkDec v sf) p)) as [vt st]. cbn [dsc] in ST.
    pose proof (dec_add_scale v4 s4 vt st ltac:(lia) ltac:(lia)) as AS.
    destruct (C05_arithmetic_exact v4 s4 vt st ltac:(lia) ltac:(lia)) as (XA & _ & _). cbv zeta in XA.
    destruct (IH (i + 1) (dec_add (mkDec v4 s4) (mkDec vt st)) HFS H1 ltac:(lia) ER NR ltac:(lia) ltac:(lia)) as (d' & E & SD & C). exists d'. split; [exact E|]. split; [exact SD|].
    cbn [length]. rewrite Nat2Z.inj_succ, <- Z.add_1_r, inject_Z_plus. change (inject_Z 1) with 1%Q.
    setoid_replace ((inject_Z (Z.of_nat (length fs)) + 1) * rat 1 37)%Q with (inject_Z (Z.of_nat (length fs)) * rat 1 37 + rat 1 37)%Q by ring.
    apply (close_trans _ _ _ _ _ C). unfold decQ at 1 2. cbn [dv dsc]. rewrite XA.
    unfold decQ in CT. cbn [dv dsc] in CT. fold (decQ p) in CT. rewrite QP, EQ in CT.
    setoid_replace (rat v4 s4 + rat vt st + present_from r (i + 1) qs - (rat v4 s4 + (q / (1 + r) ^ i + present_from r (i + 1) qs)))%Q
      with (rat vt st - q / (1 + r) ^ i)%Q by ring. exact CT.
Qed.

(** PRESENT-VALUE: each amount is discounted by its own number of periods; the
    sum is off by less than 10^-37 per amount. *)
Theorem C77_present_value : forall m rate amounts r qs, number_in (c_ebcdic m) rate r -> Forall2 (number_in (c_ebcdic m)) amounts qs ->
  -128 < a_scale (fa rate) <= 127 -> Forall (fun f => -128 < a_scale (fa f)) amounts -> ~ (1 + r == 0)%Q ->
  amounts <> [] -> Z.of_nat (length amounts) < 16000000 ->
  exists d, intr_present_value m (rate :: amounts) = Ok d /\
    (Qabs (rat (dv d) (dsc d) - present_from r 1 qs) <= inject_Z (Z.of_nat (length amounts)) * rat 1 37)%Q.
Proof.
  intros m rate amounts r qs (v & DV & EV) HN SR HS NR NE HL. unfold intr_present_value.
  destruct (Nat.ltb_spec (length (rate :: amounts)) 2); [destruct amounts; [congruence|cbn [length] in *; lia]|].
  rewrite (C02_fetch_exact m rate v DV). cbn [obind fst]. set (s := a_scale (fa rate)) in *.
  pose proof (dec_add_scale v s 1 0 ltac:(lia) ltac:(lia)) as AS.
  destruct (C05_arithmetic_exact v s 1 0 ltac:(lia) ltac:(lia)) as (XA & _ & _). cbv zeta in XA.
  destruct (pv_loop_spec m (dec_add (mkDec v s) (mkDec 1 0)) r amounts qs 1 (mkDec 0 0) HN HS) as (d & E & _ & C); try lia; auto.
  - cbn. lia.
  - unfold decQ. rewrite XA, EV, rat0. change (inject_Z 1) with 1%Q. ring.
  - exists d. split; [exact E|]. unfold decQ in C. cbn [dv dsc] in C. rewrite rat_zero in C.
    setoid_replace (present_from r 1 qs) with (0 + present_from r 1 qs)%Q by ring. exact C.
Qed.
Print Assumptions C77_present_value.

(** STANDARD-DEVIATION: the number whose root is taken is the variance, up to
    2 * 10^-37; for one argument the result is 0. *)
Theorem C77_standard_deviation : forall m args qs, Forall2 (number_in (c_ebcdic m)) args qs ->
  Forall (fun f => -128 < a_scale (fa f)) args -> args <> [] ->
  (length args = 1%nat -> intr_standard_deviation m args = Ok None) /\
  (length args <> 1%nat -> exists d, intr_standard_deviation m args = Ok (Some d) /\
    (Qabs (rat (dv d) (dsc d) - varianceQ qs) <= rat 2 37)%Q).
Proof.
  intros m args qs HN HS NE. unfold intr_standard_deviation. split; intros L; destruct (Nat.eqb_spec (length args) 1); try lia; [reflexivity|].
  assert (LE1 : (2 <= length args)%nat) by (destruct args as [|? [|]]; cbn [length] in *; [congruence|lia|lia]).
  pose proof (lengths m args qs HN) as LQ.
  destruct (total_spec m args qs (mkDec 0 0) HN HS) as (d & E & LE & Q); [cbn; lia|]. rewrite E. cbn [obind]. cbn [dsc] in LE.
  assert (DIV : forall x, -128 < dsc x -> (0 <= dsc (by_count x (length args))) /\ (Qabs (decQ (by_count x (length args)) - decQ x / inject_Z (Z.of_nat (length args))) <= rat 1 37)%Q).
  { intros x HX. destruct (term_close x (mkDec (Z.of_nat (length args)) 0)) as (A & B); [unfold not_nan, DECIMAL_NAN; lia|unfold not_nan, DECIMAL_NAN; cbn [dsc]; lia|cbn [dv]; lia|].
    split; [exact A|]. unfold decQ at 3 in B. cbn [dv dsc] in B. rewrite rat0 in B. exact B. }
  destruct (DIV d ltac:(lia)) as (S0 & C0). set (c := by_count d (length args)) in *.
  assert (EQ : (decQ d / inject_Z (Z.of_nat (length args)) == meanQ qs)%Q).
  { unfold meanQ. rewrite LQ, Q. unfold decQ. cbn [dv dsc]. rewrite rat_zero, Qplus_0_l. reflexivity. }
  rewrite EQ in C0.
  destruct (deviations_spec m args qs c (mkDec 0 0) HN HS S0) as (d2 & E2 & LE2 & Q2); [cbn; lia|]. rewrite E2. cbn [obind].
  unfold decQ in Q2 at 2. cbn [dv dsc] in Q2. rewrite rat_zero, Qplus_0_l in Q2.
  destruct (DIV d2 ltac:(lia)) as (_ & C2). eexists. split; [reflexivity|]. fold (decQ (by_count d2 (length args))).
  assert (VQ : (decQ d2 / inject_Z (Z.of_nat (length args)) == varianceQ qs + (decQ c - meanQ qs) * (decQ c - meanQ qs))%Q).
  { rewrite Q2, LQ. apply variance_about. lia. }
  rewrite VQ in C2. set (x := (decQ c - meanQ qs)%Q) in *.
  assert (R2 : (rat 2 37 == rat 1 37 + rat 1 37)%Q) by (rewrite rat_add; reflexivity). rewrite R2. apply (close_trans _ _ _ _ _ C2).
  setoid_replace (varianceQ qs + x * x - varianceQ qs)%Q with (x * x)%Q by ring. rewrite Qabs_Qmult.
  apply Qle_trans with (rat 1 37 * rat 1 37)%Q; [|rewrite rat_mul; vm_compute; discriminate].
  apply Qle_trans with (Qabs x * rat 1 37)%Q.
  - setoid_replace (Qabs x * rat 1 37)%Q with (rat 1 37 * Qabs x)%Q by ring. apply Qmult_le_compat_r; [exact C0|apply Qabs_nonneg].
  - apply Qmult_le_compat_r; [exact C0|vm_compute; discriminate].
Qed.
Print Assumptions C77_standard_deviation.

(** Rate 0.5, amounts 3 and 9: 3 / 1.5 + 9 / 2.25 = 6. *)
Example C77_present_value_ex : let half := mkField (disp 2 1 false false false) [48; 53] in
  let three := mkField (disp 1 0 false false false) [51] in let nine := mkField (disp 1 0 false false false) [57] in
  (present_from (1 # 2) 1 [3; 9]%Q == 6)%Q /\
  exists d, intr_present_value default_cfg [half; three; nine] = Ok d /\ (rat (dv d) (dsc d) == 6)%Q.
Proof. cbv zeta. split; [vm_compute; reflexivity|]. eexists. split; [vm_compute; reflexivity|vm_compute; reflexivity]. Qed.
Example C77_present_value_hyp : number_in false (mkField (disp 2 1 false false false) [48; 53]) (rat 5 1) /\ ~ (1 + rat 5 1 == 0)%Q.
Proof.
  split; [|vm_compute; discriminate]. exists 5. split; [|reflexivity].
  apply (den_display false (disp 2 1 false false false) false [0; 5]); try reflexivity; try discriminate. repeat constructor; unfold is_dig; lia.
Qed.
Example C77_standard_deviation_ex : exists d, intr_standard_deviation default_cfg st_args = Ok (Some d) /\ (rat (dv d) (dsc d) == rat 798046875 8)%Q.
Proof. eexists. split; [vm_compute; reflexivity|vm_compute; reflexivity]. Qed.
