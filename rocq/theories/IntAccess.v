(** Reading items as machine integers (proof file). *)
From Coq Require Import QArith Qabs.
From Verif Require Import Base BaseFacts Field Sign Decimal SpecNum Numeric SpecStore NumFacts.
From Verif Require Import DispProofs DecProofs BinProofs PackedProofs StoreProofs.
From Verif Require Import Move Edited MoveAll MoveProofs MovePacked MoveBin MoveNum SpecMove.
Local Open Scope Z_scope.

Lemma digits_value_aux_mono : forall ds val, Forall is_dig ds -> 0 <= val -> val <= digits_value_aux val ds.
Proof.
  induction ds as [|d ds IH]; intros val Hd Hv; cbn [digits_value_aux]; [lia|].
  pose proof (Forall_inv Hd) as D1. pose proof (Forall_inv_tail Hd) as D2. unfold is_dig in D1.
  specialize (IH (10 * val + d) D2 ltac:(lia)). lia.
Qed.

Section Range.
Variable inrange : Z -> bool.
Variable M : Z.
Hypothesis HR : forall n, 0 <= n <= M -> inrange n = true.

Lemma display_get_loop_spec : forall ds val, Forall is_dig ds -> 0 <= val -> digits_value_aux val ds <= M ->
  display_get_loop inrange (map digit_char ds) val = Ok (digits_value_aux val ds).
Proof.
  induction ds as [|d ds IH]; intros val Hd Hv HB; cbn [map display_get_loop digits_value_aux] in *; auto.
  pose proof (Forall_inv Hd) as D1. pose proof (Forall_inv_tail Hd) as D2. unfold is_dig in D1.
  replace (digit_char d - 48) with d by (unfold digit_char; lia).
  pose proof (digits_value_aux_mono ds (10 * val + d) D2 ltac:(lia)).
  rewrite !HR by lia. cbn [andb]. replace (val * 10 + d) with (10 * val + d) by lia. apply IH; auto; lia.
Qed.

Lemma drop_zeros_digits : forall ds, Forall is_dig ds -> exists ds', drop_zeros (map digit_char ds) = map digit_char ds' /\
  Forall is_dig ds' /\ digits_value ds' = digits_value ds.
Proof.
  induction ds as [|d ds IH]; intros Hd.
  - exists []. auto.
  - pose proof (Forall_inv Hd) as D1. pose proof (Forall_inv_tail Hd) as D2. cbn [map drop_zeros].
    destruct (Z.eqb_spec (digit_char d) 48) as [E|E].
    + destruct (IH D2) as (ds' & A & B & C). exists ds'. split; auto. split; auto. rewrite C.
      assert (d = 0) by (unfold digit_char in E; lia). subst d. rewrite digits_value_cons. lia.
    + exists (d :: ds). auto.
Qed.

Lemma display_get_spec : forall tablen m f v, denotes (c_ebcdic m) f v -> a_type (fa f) = TDisplay ->
  a_scale (fa f) <= Z.of_nat (data_size f) -> - a_scale (fa f) < tablen ->
  Z.abs (aligns v (a_scale (fa f)) 0) <= M ->
  display_get_gen inrange tablen m f = Ok (aligns v (a_scale (fa f)) 0, f).
Proof.
  intros tablen m f v D T HS HT HB.
  destruct (denotes_display_cases _ _ _ T D) as (neg & ds & E & Hne & Hd & Hu & Ha & Hv).
  destruct (get_sign_digits m (fa f) neg ds T Hne Hd Ha Hu) as (s & g & G & HSg & HA & HD & _ & HP).
  unfold display_get_gen. rewrite <- E in G, HP. rewrite G, HD.
  assert (DS : data_size f = length ds).
  { unfold data_size, f_size. rewrite E. cbn [fd fa]. rewrite zoned_length by auto. lia. }
  rewrite DS in HS.
  rewrite aligns_abs in HB. destruct (signed_neg_le neg ds Hd) as (S1 & S2 & S3). rewrite <- Hv in *. rewrite S3 in HB.
  set (sc := a_scale (fa f)) in *.
  assert (K : (if sc <? 0 then
       do v <- display_get_loop inrange (drop_zeros (map digit_char ds)) 0;
       if tablen <=? - sc then UB
       else if inrange (v * 10 ^ (- sc)) then Ok (v * 10 ^ (- sc)) else UB
     else if Z.of_nat (length (map digit_char ds)) <? sc then UB
     else display_get_loop inrange (drop_zeros (firstn (length (map digit_char ds) - Z.to_nat sc) (map digit_char ds))) 0)
     = Ok (alignz (digits_value ds) sc 0)).
  { destruct (Z.ltb_spec sc 0) as [L|L].
    - destruct (drop_zeros_digits ds Hd) as (ds' & A & B & C). rewrite A.
      unfold alignz in *. destruct (Z.leb_spec sc 0); [|lia]. replace (0 - sc) with (- sc) in * by lia.
      pose proof (digits_value_bound ds Hd) as DB.
      assert (0 < 10 ^ (- sc)) by (apply Z.pow_pos_nonneg; lia).
      assert (digits_value ds * 1 <= digits_value ds * 10 ^ (- sc)) by (apply Z.mul_le_mono_nonneg_l; lia).
      rewrite display_get_loop_spec; auto; [|lia|fold (digits_value ds'); lia]. fold (digits_value ds'). rewrite C. cbn [obind].
      destruct (Z.leb_spec tablen (- sc)); [lia|]. rewrite HR; [reflexivity|]. split; [|lia].
      apply Z.mul_nonneg_nonneg; lia.
    - rewrite map_length. destruct (Z.ltb_spec (Z.of_nat (length ds)) sc); [lia|].
      rewrite firstn_map.
      destruct (drop_zeros_digits (firstn (length ds - Z.to_nat sc) ds) (Forall_firstn_Z _ _ _ Hd)) as (ds' & A & B & C).
      rewrite A. rewrite digits_value_firstn in C by (auto; lia).
      assert (EA : digits_value ds' = alignz (digits_value ds) sc 0).
      { rewrite C. replace (Z.of_nat (length ds - (length ds - Z.to_nat sc))) with sc by lia.
        unfold alignz. destruct (Z.leb_spec sc 0).
        - replace sc with 0 by lia. change (10 ^ (0 - 0)) with 1. rewrite Z.mul_1_r. change (10 ^ 0) with 1. apply Z.div_1_r.
        - now rewrite Z.sub_0_r. }
      rewrite display_get_loop_spec; auto; [|lia|].
      + fold (digits_value ds'). now rewrite EA.
      + fold (digits_value ds'). lia. }
  rewrite K. cbn [obind]. rewrite HP, HSg. do 2 f_equal.
  unfold aligns. rewrite S3. set (X := alignz (digits_value ds) sc 0).
  destruct (Z.eq_dec X 0) as [Z0|Z0]; [rewrite Z0, Z.mul_0_r; destruct neg; reflexivity|].
  assert (v <> 0).
  { intros ->. apply Z0. subst X. cbn [Z.abs] in S3. rewrite <- S3. unfold alignz. destruct (sc <=? 0); auto. }
  destruct neg; [specialize (S1 eq_refl)|specialize (S2 eq_refl)].
  - assert (Q : Z.sgn v = -1) by lia. rewrite Q. lia.
  - assert (Q : Z.sgn v = 1) by lia. rewrite Q. lia.
Qed.

Lemma packed_get_loop_spec : forall d nibs, unpack d = nibs ->
  forall n i val, (i + n <= length nibs)%nat -> Forall is_dig (firstn n (skipn i nibs)) -> 0 <= val ->
  digits_value_aux val (firstn n (skipn i nibs)) <= M ->
  packed_get_loop inrange d i n val = Ok (digits_value_aux val (firstn n (skipn i nibs))).
Proof.
  intros d nibs EU. induction n as [|n IH]; intros i val HL Hd Hv HB; [reflexivity|].
  assert (LU : length nibs = (2 * length d)%nat) by (rewrite <- EU; apply unpack_length).
  assert (NI : (if Nat.even i then hi4 (nth (i / 2) d 0) else lo4 (nth (i / 2) d 0)) = nth i nibs 0).
  { rewrite <- EU. destruct (Nat.even i) eqn:EV.
    - apply even_half in EV. destruct EV as (p & ->). rewrite nth_unpack_hi. rewrite Nat.mul_comm, Nat.div_mul by lia. reflexivity.
    - apply odd_half in EV. destruct EV as (p & ->). rewrite nth_unpack_lo. 
      replace ((2 * p + 1) / 2)%nat with p; auto. rewrite Nat.add_comm, Nat.mul_comm, Nat.div_add by lia. reflexivity. }
  cbn [packed_get_loop]. rewrite NI.
  assert (LI : (length d <=? i / 2)%nat = false).
  { apply Nat.leb_gt. apply Nat.div_lt_upper_bound; lia. }
  rewrite LI.
  assert (SP : skipn i nibs = nth i nibs 0 :: skipn (S i) nibs).
  { assert (LN : (i < length nibs)%nat) by lia. clear - LN. revert i LN. induction nibs as [|x l IH]; intros i LN; [cbn [length] in LN; lia|].
    destruct i as [|i]; [reflexivity|]. cbn [length] in LN. cbn [skipn nth]. rewrite (IH i) by lia. reflexivity. }
  rewrite SP in Hd, HB |- *. cbn [firstn digits_value_aux] in Hd, HB |- *.
  pose proof (Forall_inv Hd) as D1. pose proof (Forall_inv_tail Hd) as D2. unfold is_dig in D1.
  pose proof (digits_value_aux_mono (firstn n (skipn (S i) nibs)) (10 * val + nth i nibs 0) D2 ltac:(lia)).
  rewrite !HR by lia. cbn [andb]. replace (val * 10 + nth i nibs 0) with (10 * val + nth i nibs 0) by lia.
  apply IH; auto; lia.
Qed.

Lemma packed_get_spec : forall m f v, denotes (c_ebcdic m) f v -> a_type (fa f) = TPacked ->
  0 <= a_scale (fa f) <= a_digits (fa f) ->
  Z.abs (aligns v (a_scale (fa f)) 0) <= M ->
  packed_get_gen inrange m f = Ok (aligns v (a_scale (fa f)) 0).
Proof.
  intros m f v D T HS HB.
  destruct (denotes_packed_cases _ _ _ T D) as (neg & ds & E1 & Hne & Hd & HL & Hu & Hv).
  assert (GS : get_sign m f = (if a_sign (fa f) then (if neg then -1 else 1) else 0, f)).
  { pose proof (packed_get_sign_spec (fa f) neg ds Hd) as P. rewrite <- E1 in P.
    unfold packed_get_sign in P. unfold get_sign, real_get_sign. rewrite T.
    destruct (a_sign (fa f)); cbn [negb] in *; auto. now rewrite P. }
  unfold packed_get_gen. rewrite GS. cbn [fst]. rewrite <- HL, Nat2Z.id. rewrite <- HL in HS.
  set (n := length ds) in *. set (sc := a_scale (fa f)) in *.
  assert (M2 : (n mod 2 < 2)%nat) by (apply Nat.mod_upper_bound; lia).
  destruct (Z.ltb_spec (Z.of_nat n - sc + Z.of_nat (1 - n mod 2)) 0); [lia|].
  assert (UN : unpack (fd f) = packed_nibs (fa f) neg ds) by (rewrite E1 at 1; cbn [fd]; now apply packed_unpack).
  set (k := Z.to_nat (Z.of_nat n - sc)).
  assert (LE : length (if Nat.even n then [0] else @nil Z) = (1 - n mod 2)%nat).
  { destruct (Nat.even n) eqn:EV.
    - apply Nat.even_spec in EV. destruct EV as (p & ->). rewrite Nat.mul_comm, Nat.mod_mul by lia. reflexivity.
    - apply odd_half in EV. destruct EV as (p & ->). rewrite Nat.add_comm, Nat.mul_comm, Nat.mod_add by lia. reflexivity. }
  assert (FS : firstn k (skipn (1 - n mod 2) (packed_nibs (fa f) neg ds)) = firstn k ds).
  { unfold packed_nibs. fold n. rewrite skipn_app, LE, Nat.sub_diag. rewrite skipn_all2 by lia. cbn [app skipn].
    rewrite firstn_app. replace (k - length ds)%nat with 0%nat by (subst n k; lia). cbn [firstn]. apply app_nil_r. }
  assert (EA : digits_value (firstn k ds) = alignz (digits_value ds) sc 0).
  { rewrite digits_value_firstn by (auto; subst n k; lia).
    replace (Z.of_nat (length ds - k)) with sc by (subst n k; lia).
    unfold alignz. destruct (Z.leb_spec sc 0).
    - replace sc with 0 by lia. change (10 ^ (0 - 0)) with 1. rewrite Z.mul_1_r. change (10 ^ 0) with 1. apply Z.div_1_r.
    - now rewrite Z.sub_0_r. }
  destruct (signed_neg_le neg ds Hd) as (S1 & S2 & S3). rewrite <- Hv in *. rewrite aligns_abs, S3 in HB.
  rewrite (packed_get_loop_spec (fd f) _ UN); [|..|rewrite FS; fold (digits_value (firstn k ds)); lia].
  2:{ unfold packed_nibs. fold n. rewrite !app_length, LE. cbn [length]. subst n k. lia. }
  2:{ rewrite FS. now apply Forall_firstn_Z. }
  2:lia.
  rewrite FS. fold (digits_value (firstn k ds)). rewrite EA. cbn [obind]. f_equal.
  unfold aligns. rewrite S3. set (X := alignz (digits_value ds) sc 0) in *.
  destruct (Z.eq_dec X 0) as [Z0|Z0].
  { rewrite Z0, Z.mul_0_r. destruct (_ <? 0); reflexivity. }
  assert (v <> 0).
  { intros ->. apply Z0. subst X. cbn [Z.abs] in S3. rewrite <- S3. unfold alignz. destruct (sc <=? 0); auto. }
  assert (SG : ((if a_sign (fa f) then if neg then -1 else 1 else 0) <? 0) = neg).
  { destruct (a_sign (fa f)); [destruct neg; reflexivity|]. now rewrite Hu. }
  rewrite SG. destruct neg; [specialize (S1 eq_refl)|specialize (S2 eq_refl)].
  - assert (Q : Z.sgn v = -1) by lia. rewrite Q. lia.
  - assert (Q : Z.sgn v = 1) by lia. rewrite Q. lia.
Qed.
End Range.

Lemma s32_id : forall n, is_int n -> s32 n = n.
Proof.
  intros n H. unfold is_int, INT_MIN, INT_MAX in H. unfold s32. cbv zeta.
  change (2 ^ 32) with 4294967296. change (2 ^ 31) with 2147483648.
  destruct (Z.ltb_spec (n mod 4294967296) 2147483648); lia.
Qed.

Lemma binary_get_value : forall e f v, denotes e f v -> a_type (fa f) = TBinary -> is_ll v ->
  binary_get_int64 f = v.
Proof.
  intros e f v D T H. destruct (denotes_binary_cases _ _ _ T D) as (A & B & C).
  destruct (bin_value_bound f v A B C) as (D1 & D2). destruct (a_sign (fa f)) eqn:SG; auto.
  assert (X : forall u, u = v -> to_s64 u = v).
  { intros u ->. unfold to_s64. unfold is_ll, LL_MAX in H.
    destruct (Z.ltb_spec v (2 ^ 63)) as [L|L]; auto. change (2 ^ 63) with 9223372036854775808 in L. lia. }
  unfold bin_value in C. cbn [andb] in C. unfold binary_get_int64. rewrite SG. unfold bin_unsigned in C.
  destruct (a_swap (fa f)); apply X; rewrite le_u_value.
  - rewrite rev_app_distr, rev_repeat0, le_value_app, le_value_zeros, Z.mul_0_r, Z.add_0_r. auto.
  - rewrite le_value_app, le_value_zeros, Z.mul_0_r, Z.add_0_r. auto.
Qed.

(** The integer part of a number. *)
Lemma trunc_zero : forall v w, trunc_at (rat v 0) 0 w -> w = v.
Proof. intros v w H. rewrite (aligns_unique _ _ _ _ H). apply aligns_same. Qed.

Theorem get_int_spec : forall m f v w, denotes (c_ebcdic m) f v ->
  (a_type (fa f) = TDisplay -> -10 < a_scale (fa f) <= Z.of_nat (data_size f)) ->
  (a_type (fa f) = TPacked -> 0 <= a_scale (fa f) <= a_digits (fa f)) ->
  (a_type (fa f) = TBinary -> a_scale (fa f) = 0) ->
  trunc_at (rat v (a_scale (fa f))) 0 w -> Z.abs w <= INT_MAX ->
  get_int m f = Ok (w, f).
Proof.
  intros m f v w D HD HP HB HT HW. rewrite (aligns_unique _ _ _ _ HT) in *. unfold get_int.
  assert (R : forall n, 0 <= n <= INT_MAX -> is_intb n = true) by (intros n Hn; unfold is_intb, INT_MIN in *; lia).
  destruct (denotes_type _ _ _ D) as [T|[T|T]]; rewrite T.
  - apply (display_get_spec is_intb INT_MAX R); auto; specialize (HD T); lia.
  - rewrite (packed_get_spec is_intb INT_MAX R m f v); auto.
  - rewrite (HB T), aligns_same in *. rewrite (binary_get_value _ f v D T), s32_id; auto.
    + unfold is_int, INT_MIN, INT_MAX in *. lia.
    + unfold is_ll, LL_MIN, LL_MAX, INT_MAX in *. lia.
Qed.

Theorem get_long_long_spec : forall m f v w, denotes (c_ebcdic m) f v ->
  (a_type (fa f) = TDisplay -> -19 < a_scale (fa f) <= Z.of_nat (data_size f)) ->
  (a_type (fa f) = TPacked -> 0 <= a_scale (fa f) <= a_digits (fa f)) ->
  (a_type (fa f) = TBinary -> a_scale (fa f) = 0) ->
  trunc_at (rat v (a_scale (fa f))) 0 w -> Z.abs w <= LL_MAX ->
  get_long_long m f = Ok (w, f).
Proof.
  intros m f v w D HD HP HB HT HW. rewrite (aligns_unique _ _ _ _ HT) in *. unfold get_long_long.
  assert (R : forall n, 0 <= n <= LL_MAX -> is_llb n = true) by (intros n Hn; unfold is_llb, LL_MIN in *; lia).
  destruct (denotes_type _ _ _ D) as [T|[T|T]]; rewrite T.
  - apply (display_get_spec is_llb LL_MAX R); auto; specialize (HD T); lia.
  - rewrite (packed_get_spec is_llb LL_MAX R m f v); auto.
  - rewrite (HB T), aligns_same in *. rewrite (binary_get_value _ f v D T); auto.
    unfold is_ll, LL_MIN, LL_MAX in *. lia.
Qed.

(** The temporary of cob_set_int denotes the integer. *)
Lemma int_field_denotes : forall e n, is_int n ->
  denotes e (mkField (int_attr 9) (le_bytes 4 (n mod 2 ^ 32))) n.
Proof.
  intros e n H.
  assert (V : bin_value true false (le_bytes 4 (n mod 2 ^ 32)) = n).
  { unfold bin_value. cbn [andb]. unfold bin_unsigned. 
    assert (LV : le_value (le_bytes 4 (n mod 2 ^ 32)) = n mod 2 ^ 32).
    { rewrite le_bytes_value by (apply Z.mod_pos_bound; reflexivity). change (256 ^ Z.of_nat 4) with (2 ^ 32). apply Z.mod_mod. discriminate. }
    rewrite LV. change (Z.of_nat (length (le_bytes 4 (n mod 2 ^ 32)))) with 4. change (256 ^ 4) with 4294967296.
    change (4294967296 / 2) with 2147483648. change (2 ^ 32) with 4294967296. unfold is_int, INT_MIN, INT_MAX in H.
    destruct (Z.leb_spec 2147483648 (n mod 4294967296)); lia. }
  rewrite <- V at 2. apply (den_binary e (int_attr 9)).
  - reflexivity.
  - change (length (le_bytes 4 (n mod 2 ^ 32))) with 4%nat. lia.
  - apply le_bytes_ok.
Qed.

Theorem set_int_spec : forall m f n, is_int n -> numeric_item f -> 
  (a_type (fa f) = TBinary -> (c_bintrunc m && negb (a_realbin (fa f)) = true -> a_digits (fa f) <= 18) /\
     -20 <= a_scale (fa f) /\
     forall w, trunc_at (rat n 0) (a_scale (fa f)) w -> Z.abs w < 2 ^ 63 /\ bin_range f (kept_digits m f w)) ->
  exists f', set_int m f n = Ok f' /\ received m f f' (rat n 0).
Proof.
  intros m f n H N HB. unfold set_int.
  destruct (cob_move_numeric m (mkField (int_attr 9) (le_bytes 4 (n mod 2 ^ 32))) f n) as (f' & E & R); auto.
  - now apply int_field_denotes.
  - discriminate.
  - discriminate.
  - intros T. destruct (HB T) as (A & B & C). split; [|split]; auto.
    cbn [fa int_attr a_scale digit_positions a_type]. lia.
  - exists f'. rewrite E. auto.
Qed.
