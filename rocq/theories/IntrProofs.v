(** Proofs about the numeric intrinsic functions. *)
From Coq Require Import QArith Qabs Qround.
From Verif Require Import Base BaseFacts Field Sign Decimal SpecNum Numeric SpecStore NumFacts.
From Verif Require Import DispProofs DecProofs BinProofs StoreProofs Move Edited MoveAll SpecMove MoveNum IntAccess P_Num P_Move.
From Verif Require Import Compare Dates SpecDate DatesProofs Intr.
Local Open Scope Z_scope.

Lemma trunc_id : forall v s, trunc_at (rat v s) s v.
Proof. intros v s. pose proof (trunc_at_exact v s s ltac:(lia)) as H. rewrite Z.sub_diag, Z.pow_0_r, Z.mul_1_r in H. exact H. Qed.
Lemma trunc_at_morph : forall q q' s w, (q == q')%Q -> trunc_at q s w -> trunc_at q' s w.
Proof. intros q q' s w E (A & B & C). unfold trunc_at. rewrite <- E. auto. Qed.

Lemma store_exact : forall m d f, dsc d <> -128 -> numeric_item f -> a_scale (fa f) = dsc d ->
  Z.abs (dv d) < NUM_LIMIT -> fits m no_opt f (dv d) ->
  exists f', get_field m d f no_opt = Ok (mkStored false false f') /\ fa f' = fa f /\ f_size f' = f_size f /\
             denotes (c_ebcdic m) f' (held f (dv d)).
Proof.
  intros m d f N NI SC B F.
  destruct (get_field_spec m d f no_opt (decQ d) (dv d) N NI ltac:(reflexivity)) as (X & _); auto.
  unfold rounded. cbn [no_opt o_round]. rewrite SC. apply trunc_id.
Qed.
(** Storing truncated. *)
Lemma store_trunc : forall m d f w, dsc d <> -128 -> numeric_item f ->
  trunc_at (rat (dv d) (dsc d)) (a_scale (fa f)) w ->
  Z.abs w < NUM_LIMIT -> fits m no_opt f w ->
  exists f', get_field m d f no_opt = Ok (mkStored false false f') /\ fa f' = fa f /\ f_size f' = f_size f /\
             denotes (c_ebcdic m) f' (held f w).
Proof.
  intros m d f w N NI T B F.
  destruct (get_field_spec m d f no_opt (decQ d) w N NI ltac:(reflexivity)) as (X & _); auto.
Qed.

Lemma fresh_size : forall a n, f_size (fresh a n) = n.
Proof. intros. unfold fresh, f_size. cbn [fd]. apply repeat_length. Qed.
Lemma s8scale_id : forall s, -128 <= s <= 127 -> s8scale s = s.
Proof. intros s H. unfold s8scale. rewrite Z.mod_small by lia. lia. Qed.

Lemma bin8_item : forall d s (sg : bool), 0 <= d < 36 -> numeric_item (fresh (bin_attr d s sg) 8).
Proof. intros. apply ni_binary. split; [reflexivity|]. rewrite fresh_size. cbn [fresh bin_attr fa a_digits]. lia. Qed.
Lemma NUM_LIMIT_big : 2 ^ 64 < NUM_LIMIT.
Proof. vm_compute. reflexivity. Qed.

Lemma bin8_fits : forall m d s (sg : bool) v, 0 <= d < 36 -> (if sg then - 2 ^ 63 < v < 2 ^ 63 else 0 <= v < 2 ^ 64) ->
  fits m no_opt (fresh (bin_attr d s sg) 8) v /\ held (fresh (bin_attr d s sg) 8) v = v /\ Z.abs v < NUM_LIMIT.
Proof.
  intros m d s sg v Hd Hv. pose proof NUM_LIMIT_big. assert (2 ^ 63 < 2 ^ 64) by reflexivity. split; [|split].
  - apply fit_binary.
    + split; [reflexivity|]. rewrite fresh_size. cbn [fresh bin_attr fa a_digits]. lia.
    + split; [|discriminate]. unfold bin_range, bits. rewrite fresh_size. cbn [fresh bin_attr fa a_sign].
      change (8 * Z.of_nat 8) with 64. destruct sg; lia.
  - unfold held. cbn [fresh bin_attr fa a_sign]. destruct sg; lia.
  - destruct sg; lia.
Qed.

(** ** the result item of an expression *)
Lemma binop_field_spec : forall m over d, -128 < dsc d <= 127 -> Z.abs (dv d) < NUM_LIMIT ->
  exists f', get_field m d (binop_field over d) no_opt = Ok (mkStored false false f') /\
    denotes (c_ebcdic m) f' (dv d) /\ a_scale (fa f') = dsc d /\
    (a_type (fa f') = TDisplay \/ a_type (fa f') = TBinary) /\
    (a_type (fa f') = TDisplay -> dsc d <= Z.of_nat (data_size f')) /\
    (a_type (fa f') = TBinary -> dsc d < 19).
Proof.
  intros m over d HS HB. unfold binop_field. rewrite s8scale_id by lia. cbv zeta.
  set (neg := dv d <? 0). set (sz := Z.of_nat (ndigits (Z.abs (dv d))) + (if over then 1 else 0)).
  destruct ((bitlen (dv d) <? 33 - (if neg then 1 else 0)) && (dsc d <? 10)) eqn:C1;
  [|destruct ((bitlen (dv d) <? 65 - (if neg then 1 else 0)) && (dsc d <? 19)) eqn:C2].
  - apply andb_true_iff in C1. destruct C1 as [B1 S1].
    assert (R : Z.abs (dv d) < 2 ^ (32 - if neg then 1 else 0)).
    { apply bitlen_le; [destruct neg; lia|]. destruct neg; lia. }
    destruct (store_exact m d (fresh (bin_attr 9 (dsc d) neg) 4)) as (f' & E & A & _ & D); auto; try lia.
    + apply ni_binary. split; [reflexivity|]. rewrite fresh_size. cbn [fresh bin_attr fa a_digits]. lia.
    + apply fit_binary.
      * split; [reflexivity|]. rewrite fresh_size. cbn [fresh bin_attr fa a_digits]. lia.
      * split; [|discriminate]. unfold bin_range, bits. rewrite fresh_size. cbn [fresh bin_attr fa a_sign].
        change (8 * Z.of_nat 4) with 32. subst neg. destruct (Z.ltb_spec (dv d) 0); cbn [Z.sub] in R |- *.
        -- change (2 ^ (32 - 1)) with 2147483648 in *. lia.
        -- change (2 ^ (32 - 0)) with 4294967296 in R. change (2 ^ 32) with 4294967296. lia.
    + exists f'. split; auto. rewrite A. cbn [fresh bin_attr fa a_scale a_type]. split; [|repeat split; auto; try lia; try discriminate].
      unfold held in D. cbn [fresh bin_attr fa a_sign] in D. subst neg. destruct (Z.ltb_spec (dv d) 0); auto.
      rewrite Z.abs_eq in D by lia. exact D.
  - apply andb_true_iff in C2. destruct C2 as [B1 S1].
    assert (R : Z.abs (dv d) < 2 ^ (64 - if neg then 1 else 0)).
    { apply bitlen_le; [destruct neg; lia|]. destruct neg; lia. }
    destruct (bin8_fits m 20 (dsc d) neg (dv d)) as (F & H & _); [lia| |].
    { subst neg. destruct (Z.ltb_spec (dv d) 0).
      - change (2 ^ (64 - 1)) with (2 ^ 63) in R. lia.
      - change (2 ^ (64 - 0)) with (2 ^ 64) in R. lia. }
    destruct (store_exact m d (fresh (bin_attr 20 (dsc d) neg) 8)) as (f' & E & A & _ & D); auto; try lia.
    + apply bin8_item. lia.
    + exists f'. split; auto. rewrite A. cbn [fresh bin_attr fa a_scale a_type]. rewrite H in D.
      split; auto. repeat split; auto; try lia; discriminate.
  - destruct (ndigits_spec (Z.abs (dv d)) ltac:(lia)) as (N1 & N2 & _).
    set (size := if sz <? dsc d then dsc d else sz).
    assert (SZ : sz <= size /\ dsc d <= size) by (subst size; destruct (Z.ltb_spec sz (dsc d)); lia).
    assert (SZ1 : Z.of_nat (ndigits (Z.abs (dv d))) <= sz) by (subst sz; destruct over; lia).
    destruct (store_exact m d (fresh (dsp_attr (u8digits size) (dsc d) neg) (Z.to_nat size))) as (f' & E & A & FS & D); auto; try lia.
    + apply (ni_display _ (Z.to_nat size)). repeat split; try discriminate.
      * lia.
      * cbn [fresh fd dsp_attr fa a_sep]. rewrite repeat_length. lia.
    + apply (fit_display m no_opt _ _ (Z.to_nat size)).
      * repeat split; try discriminate; [lia|]. cbn [fresh fd dsp_attr fa a_sep]. rewrite repeat_length. lia.
      * apply Z.lt_le_trans with (1 := N1). apply Z.pow_le_mono_r; lia.
    + exists f'. split; auto. rewrite A. cbn [fresh dsp_attr fa a_scale a_type].
      split; [|split; [reflexivity|split; [auto|split; [|discriminate]]]].
      * unfold held in D. cbn [fresh dsp_attr fa a_sign] in D. subst neg. destruct (Z.ltb_spec (dv d) 0); auto.
        rewrite Z.abs_eq in D by lia. exact D.
      * intros _. unfold data_size. rewrite A. cbn [fresh dsp_attr fa a_sep]. rewrite FS, fresh_size. lia.
Qed.

Lemma binop_run : forall m over f1 f2 v1 v2 op d, denotes (c_ebcdic m) f1 v1 -> denotes (c_ebcdic m) f2 v2 ->
  binop_dec op (mkDec v1 (a_scale (fa f1))) (mkDec v2 (a_scale (fa f2))) = Ok d ->
  -128 < dsc d <= 127 -> Z.abs (dv d) < NUM_LIMIT ->
  exists r, binop m over f1 op f2 = Ok r /\ denotes (c_ebcdic m) r (dv d) /\ a_scale (fa r) = dsc d /\
    (a_type (fa r) = TDisplay \/ a_type (fa r) = TBinary) /\
    (a_type (fa r) = TDisplay -> dsc d <= Z.of_nat (data_size r)) /\
    (a_type (fa r) = TBinary -> dsc d < 19).
Proof.
  intros m over f1 f2 v1 v2 op d D1 D2 E HS HB. unfold binop.
  rewrite (C02_fetch_exact m f1 v1 D1), (C02_fetch_exact m f2 v2 D2). cbn [obind fst]. rewrite E. cbn [obind].
  destruct (binop_field_spec m over d HS HB) as (f' & G & X). rewrite G. cbn [obind st_f]. exists f'. auto.
Qed.

(** ** floor *)
Lemma Qfloor_unique : forall q w, (inject_Z w <= q)%Q -> (q < inject_Z (w + 1))%Q -> Qfloor q = w.
Proof.
  intros q w A B. pose proof (Qfloor_le q) as C. pose proof (Qlt_floor q) as D.
  assert (inject_Z w < inject_Z (Qfloor q + 1))%Q by (eapply Qle_lt_trans; eauto).
  assert (inject_Z (Qfloor q) < inject_Z (w + 1))%Q by (eapply Qle_lt_trans; eauto).
  rewrite <- Zlt_Qlt in *. lia.
Qed.
Lemma rat0 : forall v, (rat v 0 == inject_Z v)%Q.
Proof. intros v. unfold rat. cbn. ring. Qed.
Lemma Qfloor_rat : forall v s, 0 <= s -> Qfloor (rat v s) = v / 10 ^ s.
Proof.
  intros v s H. pose proof (pow10_gt0 s H) as P. apply Qfloor_unique.
  - rewrite <- rat0. rewrite (rat_to (v / 10 ^ s) 0 s) by lia. rewrite Z.sub_0_r. apply rat_le.
    pose proof (Z.mul_div_le v (10 ^ s) P). lia.
  - rewrite <- rat0. rewrite (rat_to (v / 10 ^ s + 1) 0 s) by lia. rewrite Z.sub_0_r. apply rat_lt.
    pose proof (Z.mul_succ_div_gt v (10 ^ s) P). lia.
Qed.
Lemma Qfloor_rat_neg : forall v s, s <= 0 -> Qfloor (rat v s) = v * 10 ^ (- s).
Proof.
  intros v s H. assert (E : (rat v s == inject_Z (v * 10 ^ (- s)))%Q).
  { rewrite (rat_to v s 0) by lia. rewrite Z.sub_0_l. apply rat0. }
  rewrite E. apply Qfloor_Z.
Qed.

Lemma quot_tenth : forall v n, 0 <= n -> Z.quot (Z.quot v 10) (10 ^ n) = Z.quot v (10 ^ (n + 1)).
Proof.
  intros v n H. pose proof (pow10_gt0 n H). rewrite Z.quot_quot by lia.
  rewrite Z.pow_add_r by lia. change (10 ^ 1) with 10. f_equal. lia.
Qed.
Lemma drop_decimals_spec : forall fuel v s, Z.of_nat fuel = s - 1 ->
  drop_decimals fuel (mkDec v s) = mkDec (Z.quot v (10 ^ (s - 1))) 1.
Proof.
  induction fuel as [|g IH]; intros v s H; cbn [drop_decimals].
  - assert (s = 1) by lia. subst s. change (10 ^ (1 - 1)) with 1. now rewrite Z.quot_1_r.
  - cbn [dsc dv]. destruct (Z.ltb_spec 1 s); [|lia]. rewrite IH by lia. f_equal.
    rewrite quot_tenth by lia. do 2 f_equal. lia.
Qed.

(** The arithmetic of INTEGER on a negative number with decimals. *)
Lemma floor_steps : forall v s, v < 0 -> 1 <= s ->
  let t := Z.quot v (10 ^ (s - 1)) in
  (v mod 10 ^ s = 0 \/ t mod 10 <> 0) ->
  Z.quot (if t mod 10 =? 0 then t else t - 10) 10 = v / 10 ^ s.
Proof.
  intros v s HV HS t HG. pose proof (pow10_gt0 (s - 1) ltac:(lia)) as P. set (p := 10 ^ (s - 1)) in *.
  assert (E10 : 10 ^ s = 10 * p).
  { subst p. replace s with (s - 1 + 1) at 1 by lia. rewrite Z.pow_add_r by lia. change (10 ^ 1) with 10. lia. }
  rewrite E10 in *.
  assert (T : t = - ((- v) / p)).
  { subst t. rewrite <- (Z.opp_involutive v) at 1. rewrite Z.quot_opp_l by lia. rewrite Z.quot_div_nonneg by lia. lia. }
  set (V := - v) in *. set (T' := V / p) in *.
  pose proof (Z.div_mod V p ltac:(lia)) as DM. pose proof (Z.mod_pos_bound V p P) as MB. fold T' in DM.
  assert (T0 : 0 <= T') by (subst T'; apply Z.div_pos; lia).
  set (a := T' / 10). set (b := T' mod 10).
  assert (AB : T' = 10 * a + b /\ 0 <= b <= 9) by (subst a b; lia). destruct AB as [AB BB].
  assert (A0 : 0 <= a) by (subst a; apply Z.div_pos; lia). clearbody a b.
  assert (TM : t mod 10 = 0 <-> b = 0) by (rewrite T, AB; lia).
  assert (FL : forall w r, v = 10 * p * w + r -> 0 <= r < 10 * p -> v / (10 * p) = w).
  { intros w r E1 E2. symmetry. apply (Z.div_unique v (10 * p) w r); auto; lia. }
  destruct (Z.eqb_spec (t mod 10) 0) as [Z0|Z0].
  - assert (b = 0) by (apply TM; auto). subst b.
    assert (v mod (10 * p) = 0) by (destruct HG; auto; lia).
    assert (VM : V mod p = 0).
    { replace V with (- v) by reflexivity. pose proof (Z.div_mod v (10 * p) ltac:(lia)) as DV.
      replace (- v) with (- (10 * (v / (10 * p))) * p) by lia. apply Z.mod_mul. lia. }
    assert (QT : Z.quot t 10 = - a).
    { rewrite T, AB. replace (- (10 * a + 0)) with (- a * 10) by lia. apply Z.quot_mul. lia. }
    rewrite QT. symmetry. apply (FL (- a) 0); [|lia].
    replace v with (- V) by (subst V; lia). rewrite DM, VM, AB. ring.
  - assert (b <> 0) by tauto.
    assert (QT : Z.quot (t - 10) 10 = - (a + 1)).
    { rewrite T, AB. replace (- (10 * a + b) - 10) with (- (b + (a + 1) * 10)) by lia. rewrite Z.quot_opp_l by lia.
      rewrite Z.quot_div_nonneg by lia. rewrite Z.div_add by lia. rewrite (Z.div_small b) by lia. lia. }
    rewrite QT. symmetry. apply (FL (- (a + 1)) (10 * p - b * p - V mod p)).
    + replace v with (- V) by (subst V; lia). rewrite DM at 1. rewrite AB. ring.
    + assert (1 * p <= b * p) by (apply Z.mul_le_mono_nonneg_r; lia).
      assert (b * p <= 9 * p) by (apply Z.mul_le_mono_nonneg_r; lia). lia.
Qed.

Definition good_floor (v s : Z) : Prop :=
  0 <= v \/ s <= 1 \/ v mod 10 ^ s = 0 \/ Z.abs v / 10 ^ (s - 1) mod 10 <> 0.

Lemma integer_spec : forall m f v, denotes (c_ebcdic m) f v -> -128 < a_scale (fa f) ->
  good_floor v (a_scale (fa f)) -> Z.abs (Qfloor (rat v (a_scale (fa f)))) < 2 ^ 63 ->
  exists r, intr_integer m f = Ok r /\ fa r = fa s18 /\ f_size r = 8%nat /\
    denotes (c_ebcdic m) r (Qfloor (rat v (a_scale (fa f)))).
Proof.
  intros m f v D HS HG HB. unfold intr_integer. rewrite (C02_fetch_exact m f v D). cbn [obind fst dv dsc].
  set (s := a_scale (fa f)) in *. set (w := Qfloor (rat v s)) in *.
  assert (W : forall d, dsc d <> -128 -> trunc_at (rat (dv d) (dsc d)) 0 w ->
     exists r, (do st <- get_field m d s18 no_opt; Ok (st_f st)) = Ok r /\ fa r = fa s18 /\ f_size r = 8%nat /\ denotes (c_ebcdic m) r w).
  { intros d N T. destruct (bin8_fits m 18 0 true w) as (F & H & L); [lia|lia|].
    destruct (store_trunc m d s18 w N) as (r & E & A & SZ & DD); auto.
    - apply bin8_item. lia.
    - exists r. rewrite E. cbn [obind st_f]. change (held s18 w) with (held (fresh (bin_attr 18 0 true) 8) w) in DD. rewrite H in DD. auto. }
  destruct (Z.leb_spec 0 v) as [HV|HV].
  - apply W; [cbn [dsc]; lia|]. cbn [dv dsc]. subst w.
    destruct (Z.le_ge_cases s 0) as [S0|S0].
    + rewrite Qfloor_rat_neg by auto. pose proof (trunc_at_exact v s 0 S0) as T. now rewrite Z.sub_0_l in T.
    + rewrite Qfloor_rat by auto. pose proof (trunc_quot_at v s 0 S0) as T. rewrite Z.sub_0_r in T.
      rewrite Z.quot_div_nonneg in T by (auto; apply pow10_gt0; auto). exact T.
  - destruct (Z.le_ge_cases s 0) as [S0|S0].
    + replace (Z.to_nat (s - 1)) with 0%nat by lia. cbn [drop_decimals dsc dv].
      destruct (Z.ltb_spec 0 s); [lia|]. rewrite Z.mod_1_r. cbn [Z.eqb]. apply W; [cbn [dsc]; lia|]. cbn [dv dsc].
      subst w. rewrite Qfloor_rat_neg by auto. pose proof (trunc_at_exact v s 0 S0) as T. now rewrite Z.sub_0_l in T.
    + destruct (Z.eq_dec s 0) as [Z0|NZ].
      { replace (Z.to_nat (s - 1)) with 0%nat by lia. cbn [drop_decimals dsc dv].
        destruct (Z.ltb_spec 0 s); [lia|]. rewrite Z.mod_1_r. cbn [Z.eqb]. apply W; [cbn [dsc]; lia|]. cbn [dv dsc].
        subst w. rewrite Qfloor_rat_neg by lia. pose proof (trunc_at_exact v s 0 ltac:(lia)) as T. now rewrite Z.sub_0_l in T. }
      rewrite drop_decimals_spec by lia. cbn [dsc dv]. change (0 <? 1) with true. cbv iota.
      set (t := Z.quot v (10 ^ (s - 1))).
      assert (G : v mod 10 ^ s = 0 \/ t mod 10 <> 0).
      { destruct HG as [HG|[HG|[HG|HG]]]; [lia| |auto|].
        - assert (s = 1) by lia. subst t. rewrite H. change (10 ^ (1 - 1)) with 1. change (10 ^ 1) with 10. rewrite Z.quot_1_r.
          destruct (Z.eq_dec (v mod 10) 0); auto.
        - right. subst t. rewrite <- (Z.opp_involutive v) at 1. pose proof (pow10_gt0 (s - 1) ltac:(lia)).
          rewrite Z.quot_opp_l by lia. rewrite Z.quot_div_nonneg by lia. rewrite Z.abs_neq in HG by lia.
          set (x := - v / 10 ^ (s - 1)) in *. lia. }
      pose proof (floor_steps v s HV ltac:(lia) G) as FS. fold t in FS. cbv zeta in FS.
      assert (Q : forall y, trunc_at (rat y 1) 0 (Z.quot y 10)).
      { intros y. pose proof (trunc_quot_at y 1 0 ltac:(lia)) as T. exact T. }
      assert (WF : w = Z.quot (if t mod 10 =? 0 then t else t - 10) 10) by (subst w; rewrite Qfloor_rat by lia; now symmetry).
      destruct (t mod 10 =? 0); apply W; cbn [dsc dv]; try lia; rewrite WF; apply Q.
Qed.

(** ** MOD and REM *)
Lemma div_int_parts : forall A B, 0 <= A -> 0 < B ->
  let T := A * 10 ^ 37 / B in
  T / 10 ^ 37 = A / B /\ (A mod B = 0 -> T mod 10 ^ 37 = 0) /\ T / 10 ^ 36 mod 10 = 10 * (A mod B) / B.
Proof.
  intros A B HA HB T. set (p := 10 ^ 37) in *. assert (P : 0 < p) by reflexivity.
  assert (E : p = 10 * 10 ^ 36) by reflexivity. set (r := 10 ^ 36) in *. assert (R : 0 < r) by reflexivity. clearbody p r.
  assert (G : forall x, T / x = A * p / (B * x) -> True) by auto.
  split; [|split].
  - subst T. rewrite Z.div_div by lia. rewrite (Z.div_mul_cancel_r A B p); lia.
  - intros H. subst T. pose proof (Z.div_mod A B ltac:(lia)) as DM. rewrite H, Z.add_0_r in DM.
    rewrite DM. replace (B * (A / B) * p) with (A / B * p * B) by ring. rewrite Z.div_mul by lia. apply Z.mod_mul. lia.
  - subst T. rewrite Z.div_div by lia. rewrite E. replace (A * (10 * r)) with (A * 10 * r) by ring.
    rewrite Z.div_mul_cancel_r by lia. pose proof (Z.div_mod A B ltac:(lia)) as DM. pose proof (Z.mod_pos_bound A B HB) as MB.
    set (q := A / B) in *. set (m := A mod B) in *. clearbody q m. subst A.
    replace ((B * q + m) * 10) with (10 * m + (q * 10) * B) by ring. rewrite Z.div_add by lia.
    rewrite Z.mod_add by lia. apply Z.mod_small. split; [apply Z.div_pos; lia|]. apply Z.div_lt_upper_bound; lia.
Qed.
Lemma neg_div : forall x p, 0 < p -> x mod p <> 0 -> (- x) / p = - (x / p) - 1.
Proof. intros x p P H. apply Z.div_opp_l_nz; lia. Qed.

Lemma mod_quotient : forall va vb, vb <> 0 ->
  0 <= va * vb \/ va mod vb = 0 \/ Z.abs vb <= 10 * (Z.abs va mod Z.abs vb) ->
  let d := fst (dec_div (mkDec va 0) (mkDec vb 0)) in
  0 <= dsc d <= 37 /\ Z.abs (dv d) <= Z.abs va * 10 ^ 37 /\ good_floor (dv d) (dsc d) /\ Qfloor (rat (dv d) (dsc d)) = va / vb.
Proof.
  intros va vb NZ H. unfold dec_div, nan_in. cbn [dsc dv].
  change (0 =? DECIMAL_NAN) with false. cbn [orb]. destruct (Z.eqb_spec vb 0); [lia|].
  destruct (Z.eqb_spec va 0) as [->|NA].
  - cbn [fst dsc dv]. repeat split; try lia. left. lia.
  - change (0 - 0) with 0. change (0 <? 0) with false. cbv iota. change (37 + 0) with 37.
    unfold shift_decimal. cbn [dsc dv]. change (37 =? 0) with false. change (0 <? 37) with true. cbv iota. change (0 + 37) with 37.
    cbn [fst dv dsc]. rewrite Qfloor_rat by lia.
    set (A := Z.abs va) in *. set (B := Z.abs vb) in *.
    assert (HA : 0 < A) by (subst A; lia). assert (HB : 0 < B) by (subst B; lia).
    destruct (div_int_parts A B ltac:(lia) HB) as (P1 & P2 & P3). set (T := A * 10 ^ 37 / B) in *.
    assert (T0 : 0 <= T) by (subst T; apply Z.div_pos; [|lia]; apply Z.mul_nonneg_nonneg; lia).
    assert (TB : T <= A * 10 ^ 37).
    { subst T. set (w := A * 10 ^ 37) in *. assert (0 <= w) by (subst w; apply Z.mul_nonneg_nonneg; lia). clearbody w.
      apply Z.div_le_upper_bound; [lia|]. assert (1 * w <= B * w) by (apply Z.mul_le_mono_nonneg_r; lia). lia. }
    assert (AB : va mod vb = 0 <-> A mod B = 0).
    { subst A B. rewrite !Z.mod_divide by lia. now rewrite Z.divide_abs_l, Z.divide_abs_r. }
    assert (PP : 0 < 10 ^ 37) by reflexivity. 
    destruct (Z.le_gt_cases 0 (va * vb)) as [SG|SG].
    + assert (Q : Z.quot (va * 10 ^ 37) vb = T).
      { subst T A B. destruct (Z.le_gt_cases 0 va); destruct (Z.le_gt_cases 0 vb).
        - rewrite Z.quot_div_nonneg by (set (p := 10 ^ 37) in *; lia). rewrite !Z.abs_eq by lia. reflexivity.
        - exfalso. assert (va * - vb > 0) by (apply Zmult_gt_0_compat; lia). lia.
        - exfalso. assert (- va * vb > 0) by (apply Zmult_gt_0_compat; lia). lia.
        - rewrite !Z.abs_neq by lia. rewrite <- Z.quot_opp_opp by lia. rewrite <- Z.mul_opp_l.
          apply Z.quot_div_nonneg; [|lia]. set (p := 10 ^ 37) in *. apply Z.mul_nonneg_nonneg; lia. }
      rewrite Q. split; [lia|]. split; [rewrite Z.abs_eq by lia; exact TB|]. split; [left; lia|]. rewrite P1. subst A B.
      destruct (Z.le_gt_cases 0 va); destruct (Z.le_gt_cases 0 vb).
      * rewrite !Z.abs_eq by lia. reflexivity.
      * exfalso. assert (va * - vb > 0) by (apply Zmult_gt_0_compat; lia). lia.
      * exfalso. assert (- va * vb > 0) by (apply Zmult_gt_0_compat; lia). lia.
      * rewrite !Z.abs_neq by lia. apply Z.div_opp_opp. lia.
    + assert (Q : Z.quot (va * 10 ^ 37) vb = - T).
      { subst T A B. destruct (Z.le_gt_cases 0 va); destruct (Z.le_gt_cases 0 vb).
        - exfalso. assert (0 <= va * vb) by (apply Z.mul_nonneg_nonneg; lia). lia.
        - rewrite (Z.abs_neq vb), (Z.abs_eq va) by lia. rewrite <- (Z.opp_involutive vb) at 1. rewrite Z.quot_opp_r by lia.
          f_equal. set (p := 10 ^ 37) in *. apply Z.quot_div_nonneg; [apply Z.mul_nonneg_nonneg|]; lia.
        - rewrite (Z.abs_neq va), (Z.abs_eq vb) by lia. rewrite <- (Z.opp_involutive va) at 1. rewrite Z.mul_opp_l, Z.quot_opp_l by lia.
          f_equal. set (p := 10 ^ 37) in *. apply Z.quot_div_nonneg; [apply Z.mul_nonneg_nonneg|]; lia.
        - exfalso. assert (0 <= - va * - vb) by (apply Z.mul_nonneg_nonneg; lia). lia. }
      rewrite Q. split; [lia|]. split; [rewrite Z.abs_opp, Z.abs_eq by lia; exact TB|].
      assert (V : va / vb = (- A) / B).
      { subst A B. destruct (Z.le_gt_cases 0 va); destruct (Z.le_gt_cases 0 vb).
        - exfalso. assert (0 <= va * vb) by (apply Z.mul_nonneg_nonneg; lia). lia.
        - rewrite (Z.abs_neq vb), (Z.abs_eq va) by lia. rewrite <- (Z.div_opp_opp va vb) by lia. reflexivity.
        - rewrite (Z.abs_neq va), (Z.abs_eq vb) by lia. now rewrite Z.opp_involutive.
        - exfalso. assert (0 <= - va * - vb) by (apply Z.mul_nonneg_nonneg; lia). lia. }
      rewrite V. destruct (Z.eq_dec (A mod B) 0) as [M0|M0].
      * split.
        -- right. right. left. rewrite Z.mod_opp_l_z; [reflexivity|lia|apply P2; auto].
        -- rewrite (Z.div_opp_l_z T) by (auto; lia). rewrite P1. rewrite Z.div_opp_l_z by lia. reflexivity.
      * assert (FD : 10 * (A mod B) / B <> 0).
        { destruct H as [H|[H|H]]; [lia|tauto|]. fold A B in H. intros E. apply Z.div_small_iff in E; [|lia]. lia. }
        assert (TN : T mod 10 ^ 37 <> 0).
        { intros E. rewrite <- P3 in FD. apply FD. pose proof (Z.div_mod T (10 ^ 37) ltac:(lia)) as DM.
          rewrite E, Z.add_0_r in DM. change (10 ^ 37) with (10 ^ 36 * 10) in DM at 1. rewrite DM.
          replace (10 ^ 36 * 10 * (T / 10 ^ 37)) with (10 * (T / 10 ^ 37) * 10 ^ 36) by ring.
          rewrite Z.div_mul by discriminate. rewrite Z.mul_comm. apply Z.mod_mul. lia. }
        split.
        -- right. right. right. rewrite Z.abs_opp, Z.abs_eq by lia. change (37 - 1) with 36. rewrite P3. exact FD.
        -- rewrite neg_div by (auto; lia). rewrite P1. rewrite neg_div by (auto; lia). reflexivity.
Qed.

Lemma NUM_LIMIT_60 : 10 ^ 60 < NUM_LIMIT.
Proof. vm_compute. reflexivity. Qed.

Lemma mod_spec : forall m over f1 f2 va vb,
  denotes (c_ebcdic m) f1 va -> denotes (c_ebcdic m) f2 vb -> a_scale (fa f1) = 0 -> a_scale (fa f2) = 0 ->
  vb <> 0 -> Z.abs va < 10 ^ 18 -> Z.abs vb < 10 ^ 18 ->
  0 <= va * vb \/ va mod vb = 0 \/ Z.abs vb <= 10 * (Z.abs va mod Z.abs vb) ->
  exists r, intr_mod m over f1 f2 = Ok r /\ fa r = fa s18 /\ denotes (c_ebcdic m) r (va mod vb).
Proof.
  intros m over f1 f2 va vb D1 D2 S1 S2 NZ BA BB H.
  destruct (mod_quotient va vb NZ H) as (A & B & C & D). cbv zeta in *.
  set (d := fst (dec_div (mkDec va 0) (mkDec vb 0))) in *.
  assert (BD : Z.abs (dv d) < NUM_LIMIT).
  { pose proof NUM_LIMIT_60. apply Z.le_lt_trans with (1 := B). apply Z.lt_trans with (10 ^ 60); auto.
    apply Z.lt_le_trans with (10 ^ 18 * 10 ^ 37); [apply Z.mul_lt_mono_pos_r; [reflexivity|auto]|]. vm_compute. discriminate. }
  unfold intr_mod.
  destruct (binop_run m over f1 f2 va vb OpDiv d D1 D2) as (q & EQ & DQ & SQ & _); try lia.
  { rewrite S1, S2. reflexivity. }
  rewrite EQ. cbn [obind].
  assert (BQ : Z.abs (va / vb) <= 10 ^ 18).
  { assert (Z.abs (va / vb) <= Z.abs va); [|lia].
    pose proof (Z.div_mod va vb NZ) as DM. destruct (Z.lt_ge_cases 0 vb).
    - apply Z.abs_le. split; [apply Z.div_le_lower_bound; [lia|]|apply Z.div_le_upper_bound; [lia|]].
      + assert (Z.abs va * 1 <= Z.abs va * vb) by (apply Z.mul_le_mono_nonneg_l; lia). lia.
      + assert (Z.abs va * 1 <= Z.abs va * vb) by (apply Z.mul_le_mono_nonneg_l; lia). lia.
    - rewrite <- (Z.div_opp_opp va vb) by lia. apply Z.abs_le.
      assert (Z.abs va * 1 <= Z.abs va * - vb) by (apply Z.mul_le_mono_nonneg_l; lia).
      split; [apply Z.div_le_lower_bound; [lia|]|apply Z.div_le_upper_bound; [lia|]]; lia. }
  pose proof (integer_spec m q (dv d) DQ) as IS. rewrite SQ, D in IS.
  destruct IS as (i & EI & AI & SI & DI); [lia|exact C| |].
  { apply Z.le_lt_trans with (1 := BQ). reflexivity. }
  rewrite EI. cbn [obind].
  rewrite (C02_fetch_exact m f2 vb D2), (C02_fetch_exact m i (va / vb) DI), (C02_fetch_exact m f1 va D1).
  cbn [obind fst]. rewrite S1, S2. assert (SCI : a_scale (fa i) = 0) by (rewrite AI; reflexivity). rewrite SCI.
  unfold dec_mul, dec_sub, nan_in. cbn [dsc dv]. change (0 =? DECIMAL_NAN) with false. cbn [orb dsc dv].
  change (0 + 0 =? DECIMAL_NAN) with false. cbv iota. unfold align_decimal. cbn [dsc dv]. change (0 <? 0 + 0) with false. change (0 + 0 <? 0) with false.
  cbv iota. cbn [dv dsc].
  assert (ME : va - va / vb * vb = va mod vb) by (rewrite (Z.mod_eq va vb NZ); ring). rewrite ME.
  assert (MB : Z.abs (va mod vb) < 10 ^ 18).
  { destruct (Z.lt_ge_cases 0 vb); [pose proof (Z.mod_pos_bound va vb ltac:(lia))|pose proof (Z.mod_neg_bound va vb ltac:(lia))]; lia. }
  destruct (bin8_fits m 18 0 true (va mod vb)) as (F & HH & L); [lia|change (2 ^ 63) with 9223372036854775808; change (10 ^ 18) with 1000000000000000000 in MB; lia|].
  assert (FE : forall w, fits m no_opt s18 w -> fits m no_opt i w).
  { intros w Fw. inversion Fw as [k W X|D' W X|W X].
    - destruct W as (T & _). discriminate T.
    - destruct W as (T & _). discriminate T.
    - apply fit_binary.
      + destruct W as (T & U & V). unfold wf_binary. rewrite AI, SI. auto.
      + unfold bin_fits, bin_range, bits in *. rewrite AI, SI. change (f_size s18) with 8%nat in X. exact X. }
  destruct (store_exact m (mkDec (va mod vb) 0) i) as (r & ER & AR & _ & DR); auto; cbn [dsc dv]; try lia.
  - apply ni_binary. unfold wf_binary. rewrite AI, SI. split; [reflexivity|]. split; [lia|]. cbn [s18 fresh bin_attr fa a_digits]. lia.
  - cbn [dv dsc] in *. exists r. rewrite ER. cbn [obind st_f]. split; auto. split; [congruence|].
    unfold held in DR. rewrite AI in DR. exact DR.
Qed.
