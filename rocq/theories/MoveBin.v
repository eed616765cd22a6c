(** MOVE between DISPLAY and binary items (proof file). *)
From Coq Require Import QArith Qabs.
From Verif Require Import Base BaseFacts Field Sign Decimal SpecNum Numeric SpecStore NumFacts.
From Verif Require Import DispProofs DecProofs BinProofs PackedProofs StoreProofs.
From Verif Require Import Move MoveProofs SpecMove.
Local Open Scope Z_scope.

Lemma digits_value_firstn : forall ds j, Forall is_dig ds -> (j <= length ds)%nat ->
  digits_value (firstn j ds) = digits_value ds / 10 ^ Z.of_nat (length ds - j).
Proof.
  intros ds j Hd Hj. rewrite <- (firstn_skipn j ds) at 2.
  rewrite digits_value_app.
  assert (E : length (skipn j ds) = (length ds - j)%nat) by apply skipn_length. rewrite E.
  pose proof (digits_value_bound (skipn j ds) (Forall_skipn_Z _ _ _ Hd)) as B. rewrite E in B.
  pose proof (pow10_pos_nat (length ds - j)).
  rewrite Z.div_add_l by lia. rewrite Z.div_small by lia. lia.
Qed.

Lemma pow10_le1 : forall n : nat, 1 <= 10 ^ Z.of_nat n.
Proof. intros. pose proof (pow10_pos_nat n). lia. Qed.

Lemma d2b_zeros : forall n val, 0 <= val -> val * 10 ^ Z.of_nat n <= LL_MAX ->
  d2b_loop n val [] = Ok (val * 10 ^ Z.of_nat n).
Proof.
  induction n as [|n IH]; intros val Hv HB; cbn [d2b_loop].
  - change (10 ^ Z.of_nat 0) with 1. now rewrite Z.mul_1_r.
  - rewrite pow10_S in *.
    assert (X : val * 10 * 10 ^ Z.of_nat n <= LL_MAX) by lia.
    assert (val * 10 * 1 <= val * 10 * 10 ^ Z.of_nat n).
    { apply Z.mul_le_mono_nonneg_l; [lia|]. apply pow10_le1. }
    assert (L : is_llb (val * 10) = true) by (unfold is_llb, LL_MIN; lia).
    rewrite Z.add_0_r, L. cbn [andb]. rewrite IH by lia. f_equal. lia.
Qed.

Lemma d2b_loop_spec : forall ds n val, Forall is_dig ds -> 0 <= val ->
  let r := val * 10 ^ Z.of_nat n + digits_value (firstn n ds) * 10 ^ Z.of_nat (n - length ds) in
  r <= LL_MAX -> d2b_loop n val (map digit_char ds) = Ok r.
Proof.
  induction ds as [|d ds IH]; intros n val Hd Hv r HB.
  - subst r. rewrite firstn_nil in *. change (digits_value []) with 0 in *.
    rewrite Z.mul_0_l, Z.add_0_r in *. cbn [map]. now apply d2b_zeros.
  - inversion Hd as [|? ? D1 D2]; subst. destruct n as [|n].
    + subst r. cbn [d2b_loop firstn]. change (digits_value []) with 0.
      change (10 ^ Z.of_nat 0) with 1. f_equal. lia.
    + cbn [map d2b_loop].
      replace (digit_char d - 48) with d by (unfold digit_char; lia).
      assert (ER : r = (val * 10 + d) * 10 ^ Z.of_nat n + digits_value (firstn n ds) * 10 ^ Z.of_nat (n - length ds)).
      { subst r. cbn [firstn length]. rewrite digits_value_cons.
        replace (S n - S (length ds))%nat with (n - length ds)%nat by lia.
        rewrite firstn_length, pow10_S.
        assert (EP : 10 ^ Z.of_nat (Nat.min n (length ds)) * 10 ^ Z.of_nat (n - length ds) = 10 ^ Z.of_nat n).
        { rewrite <- Z.pow_add_r by lia. f_equal. lia. }
        rewrite <- EP. ring. }
      assert (HF : 0 <= digits_value (firstn n ds) * 10 ^ Z.of_nat (n - length ds)).
      { apply Z.mul_nonneg_nonneg; [|pose proof (pow10_pos_nat (n - length ds)); lia].
        apply digits_value_bound. now apply Forall_firstn_Z. }
      unfold is_dig in D1.
      assert ((val * 10 + d) * 1 <= (val * 10 + d) * 10 ^ Z.of_nat n).
      { apply Z.mul_le_mono_nonneg_l; [lia|]. apply pow10_le1. }
      assert (L1 : is_llb (val * 10) = true) by (unfold is_llb, LL_MIN; lia).
      assert (L2 : is_llb (val * 10 + d) = true) by (unfold is_llb, LL_MIN; lia).
      rewrite L1, L2. cbn [andb].
      rewrite (IH n (val * 10 + d)); [f_equal; lia|auto|lia|lia].
Qed.

Lemma d2b_align : forall ds s1 s2, Forall is_dig ds ->
  0 <= Z.of_nat (length ds) - s1 + s2 ->
  alignz (digits_value ds) s1 s2 <= LL_MAX ->
  d2b_loop (Z.to_nat (Z.of_nat (length ds) - s1 + s2)) 0 (map digit_char ds) =
    Ok (alignz (digits_value ds) s1 s2).
Proof.
  intros ds s1 s2 Hd HS HB.
  set (n := Z.to_nat (Z.of_nat (length ds) - s1 + s2)).
  assert (E : 0 * 10 ^ Z.of_nat n + digits_value (firstn n ds) * 10 ^ Z.of_nat (n - length ds) =
              alignz (digits_value ds) s1 s2).
  { unfold alignz. destruct (Z.leb_spec s1 s2).
    - rewrite firstn_all2 by (subst n; lia). rewrite Z.mul_0_l, Z.add_0_l. f_equal. f_equal. subst n. lia.
    - rewrite digits_value_firstn by (auto; subst n; lia).
      replace (n - length ds)%nat with 0%nat by (subst n; lia). change (10 ^ Z.of_nat 0) with 1.
      rewrite Z.mul_0_l, Z.mul_1_r, Z.add_0_l. f_equal. f_equal. subst n. lia. }
  rewrite d2b_loop_spec; [now rewrite E|auto|lia|lia].
Qed.

(** The number a binary receiver gets. *)
Definition bin_image (m : cfg) (f : field) (w : Z) : Z := held f (kept_digits m f w).

Lemma rem_low_part : forall v k, 0 <= k -> Z.rem v (10 ^ k) = low_part (Z.to_nat k) v.
Proof.
  intros v k Hk. unfold low_part. rewrite Z2Nat.id by lia.
  assert (0 < 10 ^ k) by (apply Z.pow_pos_nonneg; lia).
  destruct v as [|p|p]; cbn [Z.sgn Z.abs].
  - apply Z.rem_0_l. lia.
  - rewrite Z.mul_1_l. apply Z.rem_mod_nonneg; lia.
  - change (Z.neg p) with (- Z.pos p). rewrite Z.rem_opp_l by lia.
    rewrite Z.rem_mod_nonneg by lia. lia.
Qed.

Lemma low_part_abs : forall k v, Z.abs (low_part k v) = low_part k (Z.abs v).
Proof.
  intros. unfold low_part. pose proof (Z.mod_pos_bound (Z.abs v) (10 ^ Z.of_nat k) (pow10_pos_nat k)).
  rewrite (Z.abs_eq (Z.abs v)) by lia. destruct v as [|p|p]; cbn [Z.sgn Z.abs] in *; try lia.
Qed.

Lemma binary_stored_denotes : forall e f v, wf_binary f -> bin_range f v -> (a_sign (fa f) = false -> 0 <= v) ->
  denotes e (binary_set_64 f v) v.
Proof.
  intros e f v (Ht & Hs & _) HR HU.
  destruct (binary_set_64_spec f v Hs) as (A & B & C & DD).
  set (f' := binary_set_64 f v) in *.
  assert (EF : f' = mkField (fa f) (fd f')) by (destruct f' as [a' d']; cbn [fa fd] in *; congruence).
  assert (EV : v = bin_value (a_sign (fa f)) (a_swap (fa f)) (fd f')).
  { destruct (a_sign (fa f)) eqn:SG.
    - unfold bin_range in HR. rewrite SG in HR. symmetry. subst f'. apply bin_value_store; auto. lia.
    - unfold bin_range in HR. rewrite SG in HR. specialize (HU eq_refl).
      unfold bin_value. cbn [andb]. rewrite DD, pow_bits, Z.mod_small by lia. reflexivity. }
  rewrite EF, EV. cbn [fa fd]. apply den_binary; auto. unfold f_size in B, Hs. lia.
Qed.

Theorem display_to_binary_spec : forall m f1 f2 v,
  denotes (c_ebcdic m) f1 v -> a_type (fa f1) = TDisplay -> wf_binary f2 ->
  let w := aligns v (a_scale (fa f1)) (a_scale (fa f2)) in
  a_scale (fa f1) <= Z.of_nat (data_size f1) + a_scale (fa f2) -> Z.abs w <= LL_MAX ->
  (c_bintrunc m && negb (a_realbin (fa f2)) = true -> a_digits (fa f2) <= 18) ->
  exists f2', display_to_binary m f1 f2 = Ok (f1, f2') /\
    fa f2' = fa f2 /\ f_size f2' = f_size f2 /\
    bin_unsigned (a_swap (fa f2)) (fd f2') = bin_image m f2 w mod 2 ^ bits f2 /\
    (bin_range f2 (kept_digits m f2 w) -> denotes (c_ebcdic m) f2' (bin_image m f2 w)).
Proof.
  intros m f1 f2 v D1 T1 W2 w SZ HB H18. pose proof W2 as (Ht2 & HS2 & HDG).
  destruct (denotes_display_cases _ _ _ T1 D1) as (neg & ds & E1 & Hne & Hd & Hu & Ha & Hv).
  destruct (get_sign_digits m (fa f1) neg ds T1 Hne Hd Ha Hu) as (s & g & G & HS & HA & HDD & HG & HP).
  rewrite <- E1 in G, HP.
  assert (DS : data_size f1 = length ds) by (rewrite E1; apply data_size_zoned; auto).
  unfold display_to_binary. rewrite G, DS, HDD. rewrite DS in SZ.
  assert (NULL : forallb (Z.eqb 0) (firstn (length ds) (fd g)) = false).
  { assert (F : nth 0 (fd g) 0 <> 0).
    { rewrite HG. cbn [fd]. destruct ds as [|d0 dr]; [congruence|]. pose proof (Forall_inv Hd) as D0. clear - D0.
      unfold plain, zoned. destruct (a_sign (fa f1)), (a_sep (fa f1)), (a_lead (fa f1)); cbn [negb andb map app nth];
        unfold sign_char, digit_char, is_dig in *; destruct neg; cbv iota; lia. }
    destruct (fd g) as [|b r]; [cbn [nth] in F; lia|]. cbn [nth] in F.
    destruct ds; [congruence|]. cbn [length firstn forallb]. destruct (Z.eqb_spec 0 b); [lia|reflexivity]. }
  rewrite NULL.
  destruct (Z.ltb_spec (Z.of_nat (length ds) - a_scale (fa f1) + a_scale (fa f2)) 0); [lia|].
  destruct (signed_neg_le neg ds Hd) as (S1 & S2 & S3). rewrite <- Hv in S1, S2, S3.
  assert (EW : Z.abs w = alignz (digits_value ds) (a_scale (fa f1)) (a_scale (fa f2))).
  { subst w. now rewrite aligns_abs, S3. }
  rewrite d2b_align by (auto; lia). cbn [obind]. rewrite <- EW, HS.
  assert (SGN : (if neg && a_sign (fa f2) then - Z.abs w else Z.abs w) = held f2 w).
  { assert (WS : (neg = true -> w <= 0) /\ (neg = false -> 0 <= w)).
    { subst w. unfold aligns. pose proof (alignz_nonneg (Z.abs v) (a_scale (fa f1)) (a_scale (fa f2)) ltac:(lia)) as NN.
      set (X := alignz _ _ _) in *. split; intros Q.
      - specialize (S1 Q). assert (Z.sgn v = -1 \/ Z.sgn v = 0) by lia. destruct H0 as [-> | ->]; lia.
      - specialize (S2 Q). assert (Z.sgn v = 1 \/ Z.sgn v = 0) by lia. destruct H0 as [-> | ->]; lia. }
    unfold held. destruct neg, (a_sign (fa f2)); cbn [andb]; destruct WS as (W1 & W2'); try specialize (W1 eq_refl); try specialize (W2' eq_refl); lia. }
  rewrite SGN.
  assert (BI : forall u, u = bin_image m f2 w -> exists f2', Ok (put_sign m g s, binary_set_64 f2 u) = Ok (f1, f2') /\
    fa f2' = fa f2 /\ f_size f2' = f_size f2 /\
    bin_unsigned (a_swap (fa f2)) (fd f2') = bin_image m f2 w mod 2 ^ bits f2 /\
    (bin_range f2 (kept_digits m f2 w) -> denotes (c_ebcdic m) f2' (bin_image m f2 w))).
  { intros u ->. exists (binary_set_64 f2 (bin_image m f2 w)).
    destruct (binary_set_64_spec f2 (bin_image m f2 w) HS2) as (A & B & C & DD).
    split; [now rewrite HP|]. split; [exact A|]. split; [exact B|]. rewrite pow_bits in DD.
    split; [exact DD|]. intros HR. apply binary_stored_denotes; auto.
    - unfold bin_image, held. unfold bin_range in *. destruct (a_sign (fa f2)); auto. lia.
    - intros Q. unfold bin_image, held. rewrite Q. lia. }
  unfold kept_digits in *. rewrite Ht2 in *.
  destruct (c_bintrunc m && negb (a_realbin (fa f2))) eqn:TR.
  - specialize (H18 eq_refl). unfold EXP10LL_LEN. destruct (Z.leb_spec 19 (a_digits (fa f2))); [lia|].
    apply BI. unfold bin_image, kept_digits. rewrite Ht2, TR. rewrite rem_low_part by lia.
    unfold held. destruct (a_sign (fa f2)); auto. symmetry. apply low_part_abs.
  - apply BI. unfold bin_image, kept_digits. now rewrite Ht2, TR.
Qed.

Lemma denotes_binary_cases : forall e f v, a_type (fa f) = TBinary -> denotes e f v ->
  (1 <= f_size f <= 8)%nat /\ bytes_ok (fd f) /\ v = bin_value (a_sign (fa f)) (a_swap (fa f)) (fd f).
Proof.
  intros e f v Ht H. inversion H; subst; cbn [fa fd] in *; try congruence.
  split; [auto|]. split; auto.
Qed.

Lemma bin_value_bound : forall f v, (1 <= f_size f <= 8)%nat -> bytes_ok (fd f) ->
  v = bin_value (a_sign (fa f)) (a_swap (fa f)) (fd f) ->
  (if a_sign (fa f) then - 2 ^ 63 <= v < 2 ^ 63 else 0 <= v < 2 ^ 64) /\
  (if a_sign (fa f) then binary_get_int64 f = v else binary_get_int64 f mod 2 ^ 64 = v).
Proof.
  intros f v Hs Hb Hv. pose proof (bin_unsigned_bound (a_swap (fa f)) (fd f) Hb) as B.
  assert (M : 256 ^ Z.of_nat (length (fd f)) <= 2 ^ 64).
  { unfold f_size in Hs. change (2 ^ 64) with (256 ^ 8). apply Z.pow_le_mono_r; lia. }
  destruct (a_sign (fa f)) eqn:SG.
  - rewrite binary_get_int64_spec, <- Hv by auto. split; auto.
    subst v. unfold bin_value. cbn [andb].
    set (W := 256 ^ Z.of_nat (length (fd f))) in *.
    assert (W = 2 * (W / 2)).
    { assert (W mod 2 = 0); [|pose proof (Z.div_mod W 2); lia].
      subst W. unfold f_size in Hs. replace (Z.of_nat (length (fd f))) with (1 + (Z.of_nat (length (fd f)) - 1)) by lia.
      rewrite Z.pow_add_r by lia. change (256 ^ 1) with (128 * 2).
      rewrite <- Z.mul_assoc, (Z.mul_comm 2), Z.mul_assoc. apply Z.mod_mul. lia. }
    change (2 ^ 64) with (2 * 2 ^ 63) in M. set (h := W / 2) in *. set (U := bin_unsigned _ _) in *.
    set (S := 2 ^ 63) in *. clearbody S W h U. destruct (Z.leb_spec h U); lia.
  - subst v. unfold bin_value. cbn [andb]. split; [lia|].
    unfold binary_get_int64. rewrite SG.
    assert (X : forall u, 0 <= u < 2 ^ 64 -> to_s64 u mod 2 ^ 64 = u).
    { intros u Hu. unfold to_s64. destruct (u <? 2 ^ 63).
      - now apply Z.mod_small.
      - symmetry. apply (Z.mod_unique_pos _ _ (-1)); lia. }
    unfold bin_unsigned in *. rewrite !le_u_value.
    destruct (a_swap (fa f)).
    + rewrite rev_app_distr, rev_repeat0, le_value_app, le_value_zeros, Z.mul_0_r, Z.add_0_r. apply X. lia.
    + rewrite le_value_app, le_value_zeros, Z.mul_0_r, Z.add_0_r. apply X. lia.
Qed.

Lemma digits_of_nat_spec : forall val, 0 <= val -> exists ds,
  (if val =? 0 then [] else mpz_get_str val) = map digit_char ds /\ Forall is_dig ds /\ digits_value ds = val.
Proof.
  intros val H. destruct (Z.eqb_spec val 0) as [->|N].
  - exists []. split; [reflexivity|]. split; [constructor|reflexivity].
  - exists (low_digits (ndigits val) val). unfold mpz_get_str. rewrite fixed_low.
    split; [reflexivity|]. split; [apply low_digits_dig|].
    rewrite low_digits_value by lia. apply Z.mod_small. destruct (ndigits_spec val H). lia.
Qed.

Theorem binary_to_display_spec : forall m f1 f2 v k,
  denotes (c_ebcdic m) f1 v -> a_type (fa f1) = TBinary -> wf_display f2 k ->
  exists f2', binary_to_display m f1 f2 = (f1, f2') /\
    denotes (c_ebcdic m) f2' (held f2 (low_part k (aligns v (a_scale (fa f1)) (a_scale (fa f2))))) /\
    fa f2' = fa f2 /\ f_size f2' = f_size f2.
Proof.
  intros m f1 f2 v k D1 T1 W2.
  destruct (denotes_binary_cases _ _ _ T1 D1) as (Hs & Hb & Hv).
  destruct (bin_value_bound f1 v Hs Hb Hv) as (BV & BG).
  unfold binary_to_display.
  assert (SV : exists s, (if a_sign (fa f1) then if binary_get_int64 f1 <? 0 then (-1, (- binary_get_int64 f1) mod 2 ^ 64)
      else (1, binary_get_int64 f1) else (1, binary_get_int64 f1 mod 2 ^ 64)) = (s, Z.abs v) /\ (s <? 0) = (v <? 0)).
  { destruct (a_sign (fa f1)).
    - rewrite BG. destruct (Z.ltb_spec v 0).
      + exists (-1). split; [|reflexivity]. f_equal. rewrite Z.mod_small by lia. lia.
      + exists 1. split; [|reflexivity]. f_equal. lia.
    - rewrite BG. exists 1. split; [f_equal; lia|]. destruct (Z.ltb_spec v 0); [lia|reflexivity]. }
  destruct SV as (s & ES & EN). rewrite ES.
  destruct (digits_of_nat_spec (Z.abs v) ltac:(lia)) as (ds & E & Hd & Hval). rewrite E.
  destruct (store_region_denotes m f2 k ds (a_scale (fa f1)) v s (v <? 0) W2 Hd) as (_ & X1 & X2 & X3).
  - unfold signed_value. rewrite Hval. destruct (Z.ltb_spec v 0); lia.
  - auto.
  - eexists. split; [reflexivity|]. split; auto.
Qed.
