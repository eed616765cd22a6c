(** Exactness of the decimal arithmetic (proof file). *)
From Coq Require Import QArith Qabs Qpower.
From Verif Require Import Base BaseFacts Decimal SpecNum Numeric Field.
Local Open Scope Z_scope.

Definition q10 : Q := 10 # 1.
Definition decQ (d : decimal) : Q := rat (dv d) (dsc d).

Lemma q10_nz : ~ (q10 == 0)%Q.
Proof. discriminate. Qed.

Lemma q10_pos : forall n, (0 < q10 ^ n)%Q.
Proof.
  intros. assert (0 <= q10 ^ n)%Q by (apply Qpower_pos; discriminate).
  apply Qle_lteq in H. destruct H; auto. exfalso.
  apply (Qpower_not_0 q10 n q10_nz). now symmetry.
Qed.

Lemma inject_pow10 : forall n, 0 <= n -> (inject_Z (10 ^ n) == q10 ^ n)%Q.
Proof. intros. rewrite Zpower_Qpower by auto. reflexivity. Qed.

Lemma rat_scale : forall v s n, 0 <= n -> (rat (v * 10 ^ n) (s + n) == rat v s)%Q.
Proof.
  intros. unfold rat. fold q10. rewrite inject_Z_mult, inject_pow10 by auto.
  rewrite <- Qmult_assoc, <- Qpower_plus by apply q10_nz.
  replace (n + - (s + n)) with (- s) by lia. reflexivity.
Qed.

Lemma rat_to : forall v s t, s <= t -> (rat v s == rat (v * 10 ^ (t - s)) t)%Q.
Proof.
  intros. rewrite <- (rat_scale v s (t - s)) by lia. replace (s + (t - s)) with t by lia. reflexivity.
Qed.

Lemma rat_add : forall a b s, (rat a s + rat b s == rat (a + b) s)%Q.
Proof. intros. unfold rat. rewrite inject_Z_plus. ring. Qed.
Lemma rat_opp : forall a s, (- rat a s == rat (- a) s)%Q.
Proof. intros. unfold rat. rewrite inject_Z_opp. ring. Qed.
Lemma rat_sub : forall a b s, (rat a s - rat b s == rat (a - b) s)%Q.
Proof. intros. unfold Qminus. rewrite rat_opp, rat_add. reflexivity. Qed.
Lemma rat_mul : forall a b s t, (rat a s * rat b t == rat (a * b) (s + t))%Q.
Proof.
  intros. unfold rat. fold q10. rewrite inject_Z_mult.
  replace (- (s + t)) with (- s + - t) by lia.
  rewrite Qpower_plus by apply q10_nz. ring.
Qed.
Lemma rat_le : forall a b s, (rat a s <= rat b s)%Q <-> a <= b.
Proof.
  intros. unfold rat. rewrite Qmult_le_r by apply q10_pos. now rewrite <- Zle_Qle.
Qed.
Lemma rat_lt : forall a b s, (rat a s < rat b s)%Q <-> a < b.
Proof.
  intros. unfold rat. rewrite Qmult_lt_r by apply q10_pos. now rewrite <- Zlt_Qlt.
Qed.
Lemma rat_eq : forall a b s, (rat a s == rat b s)%Q <-> a = b.
Proof.
  intros. split; intros.
  - assert (rat a s <= rat b s)%Q by (rewrite H; apply Qle_refl).
    assert (rat b s <= rat a s)%Q by (rewrite H; apply Qle_refl).
    apply rat_le in H0, H1. lia.
  - subst. reflexivity.
Qed.
Lemma rat_zero : forall s, (rat 0 s == 0)%Q.
Proof. intros. unfold rat. simpl. ring. Qed.
Lemma rat_abs : forall a s, (Qabs (rat a s) == rat (Z.abs a) s)%Q.
Proof.
  intros. destruct (Z_le_gt_dec 0 a).
  - rewrite Qabs_pos. { rewrite Z.abs_eq by auto. reflexivity. }
    rewrite <- (rat_zero s). apply rat_le. auto.
  - rewrite Qabs_neg. { rewrite Z.abs_neq by lia. apply rat_opp. }
    rewrite <- (rat_zero s). apply rat_le. lia.
Qed.

Lemma shift_up : forall d n, 0 <= n -> (decQ (shift_decimal d n) == decQ d)%Q /\
  dsc (shift_decimal d n) = dsc d + n /\ dv (shift_decimal d n) = dv d * 10 ^ n.
Proof.
  intros. unfold shift_decimal, decQ. destruct (Z.eqb_spec n 0).
  - subst. rewrite Z.pow_0_r. repeat split; try lia; try reflexivity.
  - destruct (Z.ltb_spec 0 n); [|lia]. cbn [dv dsc]. split; [apply rat_scale; lia|auto].
Qed.

Lemma shift_scale : forall d n, dsc (shift_decimal d n) = dsc d + n.
Proof.
  intros. unfold shift_decimal. destruct (Z.eqb_spec n 0); [lia|].
  destruct (0 <? n); reflexivity.
Qed.

Lemma align_spec : forall d1 d2 a b, align_decimal d1 d2 = (a, b) ->
  dsc a = dsc b /\ (decQ a == decQ d1)%Q /\ (decQ b == decQ d2)%Q /\
  dsc a = Z.max (dsc d1) (dsc d2).
Proof.
  intros d1 d2 a b H. unfold align_decimal in H.
  destruct (Z.ltb_spec (dsc d1) (dsc d2)).
  - inversion H; subst. destruct (shift_up d1 (dsc b - dsc d1)) as (A & B & C); [lia|].
    repeat split; auto; try lia; try reflexivity.
  - destruct (Z.ltb_spec (dsc d2) (dsc d1)).
    + inversion H; subst. destruct (shift_up d2 (dsc a - dsc d2)) as (A & B & C); [lia|].
      repeat split; auto; try lia; try reflexivity.
    + inversion H; subst. repeat split; auto; try lia; reflexivity.
Qed.

Definition not_nan (d : decimal) : Prop := dsc d <> DECIMAL_NAN.

Lemma nan_in_false : forall d1 d2, not_nan d1 -> not_nan d2 -> nan_in d1 d2 = false.
Proof. unfold not_nan, nan_in. intros. lia. Qed.

Lemma dec_add_exact : forall d1 d2, not_nan d1 -> not_nan d2 ->
  (decQ (dec_add d1 d2) == decQ d1 + decQ d2)%Q /\
  dsc (dec_add d1 d2) = Z.max (dsc d1) (dsc d2).
Proof.
  intros. unfold dec_add. rewrite nan_in_false by auto.
  destruct (align_decimal d1 d2) as [a b] eqn:E.
  destruct (align_spec _ _ _ _ E) as (A & B & C & D).
  unfold decQ at 1. cbn [dv dsc]. split; auto.
  rewrite <- B, <- C. unfold decQ. rewrite <- A. symmetry. apply rat_add.
Qed.

Lemma dec_sub_exact : forall d1 d2, not_nan d1 -> not_nan d2 ->
  (decQ (dec_sub d1 d2) == decQ d1 - decQ d2)%Q /\
  dsc (dec_sub d1 d2) = Z.max (dsc d1) (dsc d2).
Proof.
  intros. unfold dec_sub. rewrite nan_in_false by auto.
  destruct (align_decimal d1 d2) as [a b] eqn:E.
  destruct (align_spec _ _ _ _ E) as (A & B & C & D).
  unfold decQ at 1. cbn [dv dsc]. split; auto.
  rewrite <- B, <- C. unfold decQ. rewrite <- A. symmetry. apply rat_sub.
Qed.

Lemma dec_mul_exact : forall d1 d2, not_nan d1 -> not_nan d2 ->
  (decQ (dec_mul d1 d2) == decQ d1 * decQ d2)%Q /\
  dsc (dec_mul d1 d2) = dsc d1 + dsc d2.
Proof.
  intros. unfold dec_mul. rewrite nan_in_false by auto. cbn [dsc]. split; auto.
  unfold decQ. cbn [dv dsc]. symmetry. apply rat_mul.
Qed.

Lemma rat_pow : forall v s n, 0 <= n -> (rat (v ^ n) (s * n) == rat v s ^ n)%Q.
Proof.
  intros v s n Hn. pattern n. apply natlike_ind; auto.
  - rewrite Z.pow_0_r, Z.mul_0_r. reflexivity.
  - intros k Hk IH. rewrite Z.pow_succ_r by auto.
    replace (s * Z.succ k) with (s + s * k) by lia.
    rewrite <- rat_mul, IH. replace (Z.succ k) with (1 + k) by lia.
    destruct k as [|p|p].
    + change (1 + 0) with 1. simpl. ring.
    + change (1 + Z.pos p) with (Z.pos (1 + p)).
      change (rat v s ^ Z.pos (1 + p))%Q with (Qpower_positive (rat v s) (1 + p)).
      rewrite Qpower_plus_positive. reflexivity.
    + lia.
Qed.

Lemma wrap32_small : forall x, - 2 ^ 31 <= x < 2 ^ 31 -> wrap32 x = x.
Proof. intros x H. unfold wrap32. rewrite Z.mod_small; lia. Qed.

Lemma dec_pow_exact : forall d1 n, not_nan d1 -> 0 <= n < 2 ^ 32 -> - 2 ^ 31 <= dsc d1 * n < 2 ^ 31 ->
  exists r, dec_pow d1 (mkDec n 0) = Ok r /\ (decQ r == decQ d1 ^ n)%Q.
Proof.
  intros d1 n H Hn Hs. unfold dec_pow.
  assert (N : nan_in d1 (mkDec n 0) = false) by (apply nan_in_false; auto; discriminate).
  rewrite N. cbn [dsc dv].
  assert (C : ((0 =? 0) && (0 <=? n) && (n <? 2 ^ 64))%bool = true).
  { change (2 ^ 64) with 18446744073709551616. change (2 ^ 32) with 4294967296 in Hn. lia. }
  rewrite C. eexists. split; [reflexivity|]. unfold decQ. cbn [dv dsc].
  rewrite (Z.mod_small n) by lia. rewrite wrap32_small by exact Hs. apply rat_pow. lia.
Qed.

(** Truncating division. *)
Lemma quot_bounds : forall a b, b <> 0 ->
  Z.abs (Z.quot a b) * Z.abs b <= Z.abs a < (Z.abs (Z.quot a b) + 1) * Z.abs b /\
  0 <= Z.quot a b * (a * b).
Proof.
  intros a b Hb.
  pose proof (Z.quot_rem a b Hb) as E. pose proof (Z.rem_bound_abs a b Hb) as R.
  pose proof (Z.quot_abs a b Hb) as QA.
  assert (HA : Z.abs a = Z.abs b * Z.abs (Z.quot a b) + Z.rem (Z.abs a) (Z.abs b)).
  { rewrite <- QA. rewrite <- Z.quot_rem by lia. reflexivity. }
  clear E R QA.
  pose proof (Z.rem_bound_pos (Z.abs a) (Z.abs b) (Z.abs_nonneg a) (proj2 (Z.abs_pos b) Hb)).
  split; [clear - HA H; set (r := Z.rem (Z.abs a) (Z.abs b)) in *; clearbody r; lia|]. clear HA H.
  destruct (Z_lt_le_dec a 0), (Z_lt_le_dec b 0).
  - assert (0 <= Z.quot a b). { rewrite <- Z.quot_opp_opp by lia. apply Z.quot_pos; lia. }
    apply Z.mul_nonneg_nonneg; [assumption|]. apply Z.mul_nonpos_nonpos; lia.
  - assert (0 <= - Z.quot a b). { rewrite <- Z.quot_opp_l by lia. apply Z.quot_pos; lia. }
    apply Z.mul_nonpos_nonpos; [lia|]. apply Z.mul_nonpos_nonneg; lia.
  - assert (0 <= - Z.quot a b). { rewrite <- Z.quot_opp_r by lia. apply Z.quot_pos; lia. }
    apply Z.mul_nonpos_nonpos; [lia|]. apply Z.mul_nonneg_nonpos; lia.
  - assert (0 <= Z.quot a b). { apply Z.quot_pos; lia. }
    apply Z.mul_nonneg_nonneg; [assumption|]. apply Z.mul_nonneg_nonneg; lia.
Qed.

Lemma rat_nonneg : forall a s, 0 <= a <-> (0 <= rat a s)%Q.
Proof. intros. rewrite <- (rat_zero s). symmetry. apply rat_le. Qed.

Lemma shift_down : forall d n, 0 <= n -> dv (shift_decimal d (- n)) = Z.quot (dv d) (10 ^ n).
Proof.
  intros. unfold shift_decimal. destruct (Z.eqb_spec (- n) 0).
  - replace n with 0 by lia. rewrite Z.pow_0_r, Z.quot_1_r. reflexivity.
  - destruct (Z.ltb_spec 0 (- n)); [lia|]. cbn [dv]. now rewrite Z.opp_involutive.
Qed.

Lemma pow10_gt0 : forall n, 0 <= n -> 0 < 10 ^ n.
Proof. intros. apply Z.pow_pos_nonneg; lia. Qed.

Lemma trunc_at_int : forall v S s w, s <= S ->
  Z.abs w * 10 ^ (S - s) <= Z.abs v < (Z.abs w + 1) * 10 ^ (S - s) -> 0 <= w * v ->
  trunc_at (rat v S) s w.
Proof.
  intros v S s w HS HB Hs. pose proof (pow10_gt0 (S - s) ltac:(lia)) as P.
  unfold trunc_at. rewrite !rat_abs. repeat split.
  - rewrite (rat_to (Z.abs w) s S) by auto. apply rat_le. lia.
  - rewrite (rat_to (Z.abs w + 1) s S) by auto. apply rat_lt. lia.
  - rewrite rat_mul. apply rat_nonneg. lia.
Qed.

Lemma trunc_at_exact : forall v S s, S <= s -> trunc_at (rat v S) s (v * 10 ^ (s - S)).
Proof.
  intros v S s H. pose proof (pow10_gt0 (s - S) ltac:(lia)).
  unfold trunc_at. rewrite !rat_abs. rewrite (rat_to (Z.abs v) S s) by auto.
  repeat split.
  - apply rat_le. nia.
  - apply rat_lt. nia.
  - rewrite (rat_to v S s) by auto. rewrite rat_mul. apply rat_nonneg. nia.
Qed.

Lemma round_at_int : forall v S s w, s <= S ->
  (2 * Z.abs w - 1) * 10 ^ (S - s) <= 2 * Z.abs v < (2 * Z.abs w + 1) * 10 ^ (S - s) ->
  0 <= w * v -> round_at (rat v S) s w.
Proof.
  intros v S s w HS HB Hs. pose proof (pow10_gt0 (S - s) ltac:(lia)) as P.
  assert (E : ((2 # 1) * rat (Z.abs v) S == rat (2 * Z.abs v) S)%Q).
  { unfold rat. rewrite inject_Z_mult. change (inject_Z 2) with (2 # 1). ring. }
  unfold round_at. rewrite !rat_abs, E. repeat split.
  - rewrite (rat_to (2 * Z.abs w - 1) s S) by auto. apply rat_le. lia.
  - rewrite (rat_to (2 * Z.abs w + 1) s S) by auto. apply rat_lt. lia.
  - rewrite rat_mul. apply rat_nonneg. lia.
Qed.

Lemma round_at_exact : forall v S s, S <= s -> round_at (rat v S) s (v * 10 ^ (s - S)).
Proof.
  intros v S s H. pose proof (pow10_gt0 (s - S) ltac:(lia)).
  assert (E : (rat v S == rat (v * 10 ^ (s - S)) s)%Q) by now apply rat_to.
  assert (R : round_at (rat (v * 10 ^ (s - S)) s) s (v * 10 ^ (s - S))).
  { apply round_at_int; try lia. rewrite Z.sub_diag, Z.pow_0_r. lia. nia. }
  unfold round_at in *. rewrite E. exact R.
Qed.

Lemma trunc_quot_at : forall v S s, s <= S -> trunc_at (rat v S) s (Z.quot v (10 ^ (S - s))).
Proof.
  intros v S s H. pose proof (pow10_gt0 (S - s) ltac:(lia)) as P.
  destruct (quot_bounds v (10 ^ (S - s))) as (A & B); [lia|].
  rewrite (Z.abs_eq (10 ^ (S - s))) in A by lia.
  apply trunc_at_int; auto. nia.
Qed.

Lemma quot_opp_r2 : forall a b, b <> 0 -> Z.quot (- a) b = - Z.quot a b.
Proof. intros. now apply Z.quot_opp_l. Qed.

Lemma round_int_pos : forall v e, 0 < v -> 0 < e ->
  let w := Z.quot (Z.quot v (10 ^ (e - 1)) + 5) 10 in
  0 <= w /\ (2 * w - 1) * 10 ^ e <= 2 * v < (2 * w + 1) * 10 ^ e.
Proof.
  intros v e Hv He w. pose proof (pow10_gt0 (e - 1) ltac:(lia)) as P.
  assert (E : 10 ^ e = 10 * 10 ^ (e - 1)).
  { replace e with (Z.succ (e - 1)) at 1 by lia. apply Z.pow_succ_r. lia. }
  subst w. rewrite E. set (p := 10 ^ (e - 1)) in *.
  rewrite (Z.quot_div_nonneg v p) by lia.
  pose proof (Z.div_pos v p ltac:(lia) P).
  rewrite Z.quot_div_nonneg by lia.
  assert (D : p * (v / p) <= v < p * (v / p) + p).
  { pose proof (Z.div_mod v p ltac:(lia)). pose proof (Z.mod_pos_bound v p P). lia. }
  set (t := v / p) in *. clearbody t p.
  assert (10 * ((t + 5) / 10) <= t + 5 < 10 * ((t + 5) / 10) + 10) by lia.
  assert (0 <= (t + 5) / 10) by lia.
  set (w := (t + 5) / 10) in *. clearbody w. split; [lia|nia].
Qed.

Theorem round_align_spec : forall d s o,
  dsc (round_align d s o) = s /\
  (o_round o = false -> trunc_at (decQ d) s (dv (round_align d s o))) /\
  (o_round o = true -> round_at (decQ d) s (dv (round_align d s o))).
Proof.
  intros d s o. unfold decQ.
  assert (NoR : forall d0, dsc (shift_decimal d0 (s - dsc d0)) = s /\
     dv (shift_decimal d0 (s - dsc d0)) =
       if s <? dsc d0 then Z.quot (dv d0) (10 ^ (dsc d0 - s)) else dv d0 * 10 ^ (s - dsc d0)).
  { intros d0. split. { rewrite shift_scale. lia. }
    destruct (Z.ltb_spec s (dsc d0)).
    - replace (s - dsc d0) with (- (dsc d0 - s)) by lia. apply shift_down. lia.
    - apply shift_up. lia. }
  unfold round_align.
  destruct (o_round o) eqn:R; cbn [andb].
  - split; [|split; [discriminate|intros _]].
    + destruct (s <? dsc d); cbn [andb]; [|apply NoR].
      destruct (negb (Z.sgn (dv d) =? 0)); [|apply NoR].
      destruct (0 <? Z.sgn (dv d)); cbn [dsc]; apply (NoR (mkDec _ _)).
    + destruct (Z.ltb_spec s (dsc d)) as [L|L]; cbn [andb].
      * destruct (Z.eqb_spec (Z.sgn (dv d)) 0) as [Z0|NZ]; cbn [negb].
        -- destruct (NoR d) as (_ & Ev). rewrite Ev.
           assert (dv d = 0) by (destruct (dv d); simpl in Z0; lia). rewrite H.
           destruct (Z.ltb_spec s (dsc d)); [|lia].
           rewrite Z.quot_0_l by (pose proof (pow10_gt0 (dsc d - s)); lia).
           pose proof (pow10_gt0 (dsc d - s)).
           apply round_at_int; lia.
        -- set (v1 := shift_decimal d (s - dsc d + 1)).
           assert (V1 : dv v1 = Z.quot (dv d) (10 ^ (dsc d - s - 1))).
           { subst v1. replace (s - dsc d + 1) with (- (dsc d - s - 1)) by lia. apply shift_down. lia. }
           assert (S1 : dsc v1 = s + 1) by (subst v1; rewrite shift_scale; lia).
           set (d2 := if 0 <? Z.sgn (dv d) then mkDec (dv v1 + 5) (dsc v1)
                      else mkDec (dv v1 - 5) (dsc v1)).
           assert (S2 : dsc d2 = s + 1) by (subst d2; destruct (0 <? Z.sgn (dv d)); auto).
           destruct (NoR d2) as (_ & Ev). rewrite Ev. rewrite S2.
           destruct (Z.ltb_spec s (s + 1)); [|lia].
           replace (s + 1 - s) with 1 by lia. change (10 ^ 1) with 10.
           subst d2. rewrite V1, S1.
           destruct (Z.ltb_spec 0 (Z.sgn (dv d))) as [Hp|Hp]; cbn [dv].
           ++ assert (Hv : 0 < dv d) by (destruct (dv d); simpl in Hp; lia).
              destruct (round_int_pos (dv d) (dsc d - s) Hv ltac:(lia)) as (A & B).
              apply round_at_int; [lia| |apply Z.mul_nonneg_nonneg; lia].
              rewrite (Z.abs_eq (dv d)) by lia. rewrite Z.abs_eq by exact A. exact B.
           ++ assert (Hv : dv d < 0) by (destruct (dv d); simpl in Hp, NZ; lia).
              destruct (round_int_pos (- dv d) (dsc d - s) ltac:(lia) ltac:(lia)) as (A & B).
              pose proof (pow10_gt0 (dsc d - s - 1) ltac:(lia)).
              rewrite quot_opp_r2 in A, B by lia.
              set (t := Z.quot (dv d) (10 ^ (dsc d - s - 1))) in *.
              replace (t - 5) with (- (- t + 5)) by lia. rewrite quot_opp_r2 by lia.
              set (w := Z.quot (- t + 5) 10) in *.
              apply round_at_int; [lia| |replace (- w * dv d) with (w * (- dv d)) by ring;
                apply Z.mul_nonneg_nonneg; lia].
              rewrite Z.abs_opp, (Z.abs_eq w) by exact A. rewrite (Z.abs_neq (dv d)) by lia. exact B.
      * destruct (NoR d) as (_ & Ev). rewrite Ev.
        destruct (Z.ltb_spec s (dsc d)); [lia|]. apply round_at_exact. lia.
  - destruct (NoR d) as (Es & Ev). split; auto. split; [intros _|discriminate].
    rewrite Ev. destruct (Z.ltb_spec s (dsc d)).
    + apply trunc_quot_at. lia.
    + apply trunc_at_exact. lia.
Qed.

(** Truncation twice is truncation. *)
Lemma trunc_at_twice : forall q S s r, s <= S -> trunc_at q S r ->
  trunc_at q s (Z.quot r (10 ^ (S - s))).
Proof.
  intros q S s r HS (A & B & C). pose proof (pow10_gt0 (S - s) ltac:(lia)) as P.
  destruct (quot_bounds r (10 ^ (S - s))) as (X & Y); [lia|].
  rewrite (Z.abs_eq (10 ^ (S - s))) in X by lia.
  set (w := Z.quot r (10 ^ (S - s))) in *.
  rewrite rat_abs in A. unfold trunc_at. rewrite rat_abs. repeat split.
  - eapply Qle_trans; [|apply A]. rewrite (rat_to (Z.abs w) s S) by auto. apply rat_le. lia.
  - eapply Qlt_le_trans; [apply B|]. rewrite (rat_to (Z.abs w + 1) s S) by auto.
    apply rat_le. nia.
  - destruct (Z.eq_dec w 0) as [->|Hw]. { rewrite rat_zero, Qmult_0_l. apply Qle_refl. }
    (* w and r have the same strict sign *)
    destruct (Z_lt_le_dec 0 r) as [Hr|Hr].
    + assert (0 <= w) by nia.
      assert (0 <= q)%Q.
      { destruct (Qlt_le_dec q 0) as [Hq|]; auto. exfalso.
        assert (0 < rat r S)%Q. { rewrite <- (rat_zero S). now apply rat_lt. }
        assert (rat r S * q < 0)%Q. { setoid_replace 0%Q with (rat r S * 0)%Q by ring.
           now apply Qmult_lt_l. }
        apply (Qlt_not_le _ _ H1 C). }
      apply Qmult_le_0_compat; auto. now apply rat_nonneg.
    + assert (w <= 0) by nia.
      assert (r <> 0). { intro. subst r. apply Hw. unfold w. apply Z.quot_0_l. lia. }
      assert (q <= 0)%Q.
      { destruct (Qlt_le_dec 0 q) as [Hq|]; auto. exfalso.
        assert (rat r S < 0)%Q. { rewrite <- (rat_zero S). apply rat_lt. lia. }
        assert (rat r S * q < 0)%Q.
        { setoid_replace 0%Q with (0 * q)%Q by ring. now apply Qmult_lt_compat_r. }
        apply (Qlt_not_le _ _ H2 C). }
      setoid_replace (rat w s * q)%Q with ((- rat w s) * (- q))%Q by ring.
      apply Qmult_le_0_compat.
      * rewrite rat_opp. apply rat_nonneg. lia.
      * apply Qopp_le_compat in H1. setoid_replace (-0)%Q with 0%Q in H1 by ring. auto.
Qed.

Lemma Qabs_pos_lt : forall v s, v <> 0 -> (0 < Qabs (rat v s))%Q.
Proof. intros. rewrite rat_abs. rewrite <- (rat_zero s). apply rat_lt. lia. Qed.

Lemma rat_nz : forall v s, v <> 0 -> ~ (rat v s == 0)%Q.
Proof. intros v s H E. rewrite <- (rat_zero s) in E. apply rat_eq in E. lia. Qed.

Theorem dec_div_spec : forall d1 d2, not_nan d1 -> not_nan d2 -> dv d2 <> 0 ->
  snd (dec_div d1 d2) = false /\
  trunc_at (decQ d1 / decQ d2) (dsc (fst (dec_div d1 d2))) (dv (fst (dec_div d1 d2))) /\
  (dv d1 <> 0 -> 37 <= dsc (fst (dec_div d1 d2))) /\
  (dv d1 = 0 -> dv (fst (dec_div d1 d2)) = 0 /\ dsc (fst (dec_div d1 d2)) = 0) .
Proof.
  intros d1 d2 N1 N2 Hz. unfold dec_div. rewrite nan_in_false by auto.
  destruct (Z.eqb_spec (dv d2) 0) as [E0|NZ0]; [lia|].
  destruct (Z.eqb_spec (dv d1) 0) as [E|E].
  - cbn [fst snd dv dsc]. repeat split; auto; try lia.
    + rewrite E, rat_zero. apply Qabs_nonneg.
    + unfold decQ at 1. rewrite E. assert (X : (rat 0 (dsc d1) / decQ d2 == 0)%Q).
      { rewrite rat_zero. unfold Qdiv. ring. }
      rewrite X. rewrite <- (rat_zero 0). simpl. reflexivity.
    + rewrite E, rat_zero, Qmult_0_l. apply Qle_refl.
  - cbv zeta. set (n := 37 + (if dsc (mkDec (dv d1) (dsc d1 - dsc d2)) <? 0
                   then - dsc (mkDec (dv d1) (dsc d1 - dsc d2)) else 0)).
    assert (Hn : 37 <= n /\ 37 <= dsc d1 - dsc d2 + n).
    { subst n. cbn [dsc]. destruct (Z.ltb_spec (dsc d1 - dsc d2) 0); lia. }
    destruct (shift_up (mkDec (dv d1) (dsc d1 - dsc d2)) n) as (_ & S1 & V1); [lia|].
    cbn [dsc dv] in S1, V1. cbn [fst snd]. cbn [dv dsc]. rewrite S1, V1.
    split; auto. split; [|split; [intros; lia|intros; lia]].
    set (S := dsc d1 - dsc d2 + n).
    destruct (quot_bounds (dv d1 * 10 ^ n) (dv d2)) as (A & B); [auto|].
    set (r := Z.quot (dv d1 * 10 ^ n) (dv d2)) in *.
    pose proof (pow10_gt0 n ltac:(lia)) as P.
    assert (Qd : (Qabs (decQ d1 / decQ d2) == Qabs (decQ d1) / Qabs (decQ d2))%Q).
    { unfold Qdiv. rewrite Qabs_Qmult, Qabs_Qinv. reflexivity. }
    assert (PD : (0 < Qabs (decQ d2))%Q) by (apply Qabs_pos_lt; auto).
    assert (EA : (Qabs (decQ d1) == rat (Z.abs (dv d1) * 10 ^ n) (dsc d1 + n))%Q).
    { unfold decQ. rewrite rat_abs. symmetry. apply rat_scale. lia. }
    assert (HS : S + dsc d2 = dsc d1 + n) by (subst S; lia).
    assert (AbsV : Z.abs (dv d1 * 10 ^ n) = Z.abs (dv d1) * 10 ^ n) by (rewrite Z.abs_mul; lia).
    unfold trunc_at. rewrite Qd. repeat split.
    + rewrite rat_abs. apply Qle_shift_div_l; auto.
      unfold decQ at 1. rewrite rat_abs, rat_mul, HS, EA. apply rat_le. lia.
    + apply Qlt_shift_div_r; auto.
      unfold decQ at 2. rewrite rat_abs, rat_mul, HS, EA. apply rat_lt. lia.
    + assert (NZ : ~ (decQ d2 == 0)%Q) by (apply rat_nz; auto).
      setoid_replace (rat r S * (decQ d1 / decQ d2))%Q with
        ((rat r S * (decQ d1 * decQ d2)) * (/ decQ d2 * / decQ d2))%Q by (field; auto).
      apply Qmult_le_0_compat.
      * unfold decQ. rewrite rat_mul, rat_mul. apply rat_nonneg.
        assert (0 <= r * (dv d1 * dv d2)); [|lia].
        assert (0 <= (r * (dv d1 * dv d2)) * 10 ^ n) by lia. nia.
      * destruct (Qlt_le_dec (/ decQ d2) 0).
        -- setoid_replace (/ decQ d2 * / decQ d2)%Q with ((- / decQ d2) * (- / decQ d2))%Q by ring.
           assert (0 <= - / decQ d2)%Q.
           { apply Qlt_le_weak in q. apply Qopp_le_compat in q.
             setoid_replace (-0)%Q with 0%Q in q by ring. auto. }
           now apply Qmult_le_0_compat.
        -- now apply Qmult_le_0_compat.
Qed.

(** Two decimals compare as the rationals they denote. *)
Theorem dec_cmp_spec : forall d1 d2,
  (dec_cmp d1 d2 = -1 <-> (decQ d1 < decQ d2)%Q) /\
  (dec_cmp d1 d2 = 0 <-> (decQ d1 == decQ d2)%Q) /\
  (dec_cmp d1 d2 = 1 <-> (decQ d2 < decQ d1)%Q).
Proof.
  intros. unfold dec_cmp. destruct (align_decimal d1 d2) as [a b] eqn:E.
  destruct (align_spec _ _ _ _ E) as (A & B & C & D).
  rewrite <- B, <- C. unfold decQ. rewrite <- A. rewrite !rat_lt, rat_eq.
  destruct (Z.sgn_spec (dv a - dv b)) as [(X&Y)|[(X&Y)|(X&Y)]]; rewrite Y; lia.
Qed.
