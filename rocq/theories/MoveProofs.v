(** Decimal alignment in MOVE (proof file). *)
From Coq Require Import QArith Qabs.
From Verif Require Import Base BaseFacts Field Sign Decimal SpecNum Numeric SpecStore NumFacts.
From Verif Require Import DispProofs DecProofs BinProofs PackedProofs StoreProofs Move.
Local Open Scope Z_scope.

(** ** Digits of a number *)

Definition dig (v e : Z) : Z := if e <? 0 then 0 else (v / 10 ^ e) mod 10.

Lemma nth_low_digits : forall k v j, (j < k)%nat -> 0 <= v ->
  nth j (low_digits k v) 0 = dig v (Z.of_nat k - 1 - Z.of_nat j).
Proof.
  induction k; intros v j Hj Hv; [lia|]. cbn [low_digits].
  destruct (Nat.eq_dec j k) as [->|N].
  - rewrite app_nth2 by (rewrite low_digits_length; lia). rewrite low_digits_length, Nat.sub_diag.
    cbn [nth]. unfold dig. replace (Z.of_nat (S k) - 1 - Z.of_nat k) with 0 by lia.
    change (0 <? 0) with false. change (10 ^ 0) with 1. now rewrite Z.div_1_r.
  - rewrite app_nth1 by (rewrite low_digits_length; lia). rewrite IHk by lia.
    unfold dig. rewrite (proj2 (Z.ltb_ge (Z.of_nat k - 1 - Z.of_nat j) 0)) by lia.
    rewrite (proj2 (Z.ltb_ge (Z.of_nat (S k) - 1 - Z.of_nat j) 0)) by lia.
    replace (Z.of_nat (S k) - 1 - Z.of_nat j) with (1 + (Z.of_nat k - 1 - Z.of_nat j)) by lia.
    rewrite Z.pow_add_r by lia. change (10 ^ 1) with 10.
    rewrite Z.div_div; [reflexivity|lia|]. apply Z.pow_pos_nonneg; lia.
Qed.

Lemma nth_digits : forall ds i, Forall is_dig ds -> (i < length ds)%nat ->
  nth i ds 0 = dig (digits_value ds) (Z.of_nat (length ds) - 1 - Z.of_nat i).
Proof.
  intros. rewrite <- (low_digits_of_value ds) at 1 by auto.
  apply nth_low_digits; auto. apply digits_value_bound; auto.
Qed.

Lemma dig_high : forall v e n, 0 <= v < 10 ^ n -> n <= e -> dig v e = 0.
Proof.
  intros v e n Hv He. unfold dig. destruct (Z.ltb_spec e 0); auto.
  assert (10 ^ n <= 10 ^ e).
  { destruct (Z.ltb_spec n 0).
    - rewrite Z.pow_neg_r in Hv by lia. lia.
    - apply Z.pow_le_mono_r; lia. }
  rewrite Z.div_small by lia. reflexivity.
Qed.

(** The number [X * 10^(-s1)] expressed with [s2] decimals, truncated. *)
Definition alignz (X s1 s2 : Z) : Z :=
  if s1 <=? s2 then X * 10 ^ (s2 - s1) else X / 10 ^ (s1 - s2).

Lemma alignz_nonneg : forall X s1 s2, 0 <= X -> 0 <= alignz X s1 s2.
Proof.
  intros. unfold alignz. destruct (Z.leb_spec s1 s2).
  - apply Z.mul_nonneg_nonneg; auto. apply Z.pow_nonneg; lia.
  - apply Z.div_pos; auto. apply Z.pow_pos_nonneg; lia.
Qed.

Lemma dig_align : forall X s1 s2 e, 0 <= X -> 0 <= e ->
  dig (alignz X s1 s2) e = dig X (e - (s2 - s1)).
Proof.
  intros X s1 s2 e HX He. unfold alignz. destruct (Z.leb_spec s1 s2).
  - set (n := s2 - s1). assert (0 <= n) by lia.
    unfold dig at 1. rewrite (proj2 (Z.ltb_ge e 0)) by lia.
    destruct (Z.ltb_spec e n).
    + unfold dig. rewrite (proj2 (Z.ltb_lt (e - n) 0)) by lia.
      replace n with (e + (1 + (n - e - 1))) by lia.
      rewrite !Z.pow_add_r by lia. change (10 ^ 1) with 10.
      replace (X * (10 ^ e * (10 * 10 ^ (n - e - 1)))) with (X * 10 ^ (n - e - 1) * 10 * 10 ^ e) by ring.
      assert (10 ^ e <> 0) by (apply Z.pow_nonzero; lia).
      rewrite Z.div_mul by lia. apply Z.mod_mul. lia.
    + unfold dig. rewrite (proj2 (Z.ltb_ge (e - n) 0)) by lia.
      replace e with (n + (e - n)) at 1 by lia. rewrite Z.pow_add_r by lia.
      assert (0 < 10 ^ n) by (apply Z.pow_pos_nonneg; lia).
      assert (0 < 10 ^ (e - n)) by (apply Z.pow_pos_nonneg; lia).
      rewrite <- Z.div_div by lia. rewrite Z.div_mul by lia. reflexivity.
  - set (n := s1 - s2). assert (0 < n) by lia. replace (e - (s2 - s1)) with (e + n) by lia.
    unfold dig. rewrite (proj2 (Z.ltb_ge e 0)) by lia.
    rewrite (proj2 (Z.ltb_ge (e + n) 0)) by lia.
    assert (0 < 10 ^ n) by (apply Z.pow_pos_nonneg; lia).
    assert (0 < 10 ^ e) by (apply Z.pow_pos_nonneg; lia).
    rewrite Z.div_div by lia. rewrite <- Z.pow_add_r by lia. do 3 f_equal. lia.
Qed.

Lemma nth_repeat_Z : forall (x : Z) n i, (i < n)%nat -> nth i (repeat x n) 0 = x.
Proof. induction n; intros i H; [lia|]. destruct i; cbn [repeat nth]; auto. apply IHn. lia. Qed.

Lemma nth_firstn_Z : forall (l : list Z) n i, (i < n)%nat -> nth i (firstn n l) 0 = nth i l 0.
Proof. induction l; intros n i H; [now rewrite firstn_nil|]. destruct n; [lia|].
  destruct i; cbn [firstn nth]; auto. apply IHl. lia. Qed.

Lemma nth_skipn_Z : forall n (l : list Z) i, nth i (skipn n l) 0 = nth (n + i) l 0.
Proof. induction n; intros l i; auto. destruct l; [cbn [skipn]; destruct i; reflexivity|]. cbn [skipn Nat.add nth]. apply IHn. Qed.

(** ** store_common_region *)

Lemma region_digits : forall ds k s1 s2 n,
  Forall is_dig ds -> length ds = n ->
  let hf1 := Z.of_nat n - s1 in let hf2 := Z.of_nat k - s2 in
  let lcf := Z.max (- s1) (- s2) in let gcf := Z.min hf1 hf2 in
  (if lcf <? gcf then
     repeat 0 (Z.to_nat (hf2 - gcf)) ++
     firstn (Z.to_nat (gcf - lcf)) (skipn (Z.to_nat (hf1 - gcf)) ds) ++
     repeat 0 (k - Z.to_nat (hf2 - gcf) - Z.to_nat (gcf - lcf))
   else repeat 0 k) = low_digits k (alignz (digits_value ds) s1 s2).
Proof.
  intros ds k s1 s2 n Hd Hn hf1 hf2 lcf gcf.
  pose proof (digits_value_bound ds Hd) as HB. rewrite Hn in HB.
  pose proof (alignz_nonneg (digits_value ds) s1 s2 ltac:(lia)) as HA.
  assert (OUT : forall e, 0 <= e -> (e < s2 - s1 \/ Z.of_nat n <= e - (s2 - s1)) ->
      dig (alignz (digits_value ds) s1 s2) e = 0).
  { intros e He Ho. rewrite dig_align by lia. destruct Ho.
    - unfold dig. rewrite (proj2 (Z.ltb_lt _ 0)) by lia. reflexivity.
    - apply (dig_high _ _ (Z.of_nat n)); lia. }
  assert (LOW : forall j, (j < k)%nat -> nth j (low_digits k (alignz (digits_value ds) s1 s2)) 0 =
      dig (alignz (digits_value ds) s1 s2) (Z.of_nat k - 1 - Z.of_nat j)).
  { intros. apply nth_low_digits; auto. }
  destruct (Z.ltb_spec lcf gcf) as [HL|HL].
  - set (q := Z.to_nat (hf2 - gcf)). set (c := Z.to_nat (gcf - lcf)). set (p := Z.to_nat (hf1 - gcf)).
    assert (Q : (q + c <= k)%nat) by (subst q c; lia).
    assert (P : (p + c <= n)%nat) by (subst p c; lia).
    assert (LF : length (firstn c (skipn p ds)) = c) by (rewrite firstn_length_le; rewrite ?skipn_length; lia).
    apply nth_ext_Z.
    + rewrite !app_length, !repeat_length, LF, low_digits_length. lia.
    + rewrite !app_length, !repeat_length, LF. intros j Hj. rewrite LOW by lia.
      destruct (Nat.lt_ge_cases j q) as [J1|J1].
      { rewrite app_nth1 by (rewrite repeat_length; lia). rewrite nth_repeat_Z by lia.
        symmetry. apply OUT; [lia|]. subst q. lia. }
      rewrite app_nth2 by (rewrite repeat_length; lia). rewrite repeat_length.
      destruct (Nat.lt_ge_cases (j - q) c) as [J2|J2].
      { rewrite app_nth1 by lia. rewrite nth_firstn_Z, nth_skipn_Z by lia.
        rewrite nth_digits by (auto; lia). rewrite dig_align by lia. f_equal.
        subst p q. lia. }
      rewrite app_nth2 by lia. rewrite LF, nth_repeat_Z by lia.
      symmetry. apply OUT; [lia|]. left. subst q c. lia.
  - apply nth_ext_Z; [now rewrite repeat_length, low_digits_length|].
    rewrite repeat_length. intros j Hj. rewrite nth_repeat_Z, LOW by lia.
    symmetry. apply OUT; [lia|]. subst hf1 hf2 lcf gcf. lia.
Qed.

Lemma sp2zero_digits : forall ds, Forall is_dig ds -> map sp2zero (map digit_char ds) = map digit_char ds.
Proof.
  intros. rewrite map_map. apply map_ext_in. intros d Hd. rewrite Forall_forall in H.
  specialize (H d Hd). unfold is_dig in H. unfold sp2zero, digit_char, c_sp.
  destruct (Z.eqb_spec (48 + d) 32); auto. lia.
Qed.

Lemma map_repeat_digit : forall n, map digit_char (repeat 0 n) = repeat c_0 n.
Proof. induction n; cbn [repeat map]; auto. rewrite IHn. reflexivity. Qed.

Lemma Forall_firstn_Z : forall (P : Z -> Prop) n l, Forall P l -> Forall P (firstn n l).
Proof. induction n; intros l H; cbn [firstn]; auto. destruct H; constructor; auto. Qed.
Lemma Forall_skipn_Z : forall (P : Z -> Prop) n l, Forall P l -> Forall P (skipn n l).
Proof. induction n; intros l H; cbn [skipn]; auto. destruct H; auto. Qed.

Lemma store_common_region_spec : forall f k ds s1, data_size f = k -> Forall is_dig ds ->
  store_common_region f (map digit_char ds) s1 =
  put_digits f (map digit_char (low_digits k (alignz (digits_value ds) s1 (a_scale (fa f))))).
Proof.
  intros f k ds s1 Hk Hd. unfold store_common_region. cbv zeta. rewrite map_length, Hk.
  rewrite <- (region_digits ds k s1 (a_scale (fa f)) (length ds) Hd eq_refl).
  cbv zeta. rewrite !Z.add_opp_r.
  destruct (_ <? _).
  - f_equal. rewrite !map_app, !map_repeat_digit. f_equal. f_equal.
    rewrite skipn_map, firstn_map, sp2zero_digits; auto.
    apply Forall_firstn_Z, Forall_skipn_Z. auto.
  - now rewrite map_repeat_digit.
Qed.

(** ** Values *)

(** Signed alignment. *)
Definition aligns (v s1 s2 : Z) : Z := Z.sgn v * alignz (Z.abs v) s1 s2.

Lemma aligns_trunc : forall v s1 s2, trunc_at (rat v s1) s2 (aligns v s1 s2).
Proof.
  intros. pose proof (proj1 (shift_trunc (mkDec v s1) s2)) as H.
  rewrite decQ_mk in H. cbn [dsc] in H.
  replace (aligns v s1 s2) with (dv (shift_decimal (mkDec v s1) (s2 - s1))); auto.
  unfold aligns, alignz. destruct (Z.leb_spec s1 s2).
  - rewrite (proj2 (proj2 (shift_up (mkDec v s1) (s2 - s1) ltac:(lia)))). cbn [dv].
    rewrite Z.mul_assoc. f_equal. destruct v; reflexivity.
  - replace (s2 - s1) with (- (s1 - s2)) by lia. rewrite shift_down by lia. cbn [dv].
    assert (0 < 10 ^ (s1 - s2)) by (apply Z.pow_pos_nonneg; lia).
    destruct v as [|p|p]; cbn [Z.sgn Z.abs].
    + rewrite Z.quot_0_l by lia. reflexivity.
    + rewrite Z.mul_1_l. apply Z.quot_div_nonneg; lia.
    + change (Z.neg p) with (- Z.pos p). rewrite Z.quot_opp_l by lia.
      rewrite Z.quot_div_nonneg by lia. lia.
Qed.

Lemma aligns_unique : forall v s1 s2 w, trunc_at (rat v s1) s2 w -> w = aligns v s1 s2.
Proof.
  intros. apply (rounded_unique (mkOpts false false false) (rat v s1) s2); cbv [rounded o_round]; auto.
  apply aligns_trunc.
Qed.

Lemma aligns_abs : forall v s1 s2, Z.abs (aligns v s1 s2) = alignz (Z.abs v) s1 s2.
Proof.
  intros. unfold aligns.
  pose proof (alignz_nonneg (Z.abs v) s1 s2 ltac:(lia)) as H.
  destruct v as [|p|p]; cbn [Z.sgn Z.abs] in *; try lia.
  unfold alignz. destruct (Z.leb_spec s1 s2); [lia|]. rewrite Zdiv_0_l. reflexivity.
Qed.

(** What ends up in a DISPLAY / COMP-3 receiver with the sender's sign. *)
Lemma held_neg : forall f k v s1 neg, (neg = true -> v <= 0) -> (neg = false -> 0 <= v) ->
  held f (low_part k (aligns v s1 (a_scale (fa f)))) =
  signed_value (a_sign (fa f) && neg) (low_digits k (alignz (Z.abs v) s1 (a_scale (fa f)))).
Proof.
  intros f k v s1 neg H1 H2. rewrite held_signed, aligns_abs.
  set (X := alignz (Z.abs v) s1 (a_scale (fa f))).
  assert (HX : 0 <= X) by (apply alignz_nonneg; lia).
  assert (HS : aligns v s1 (a_scale (fa f)) = Z.sgn v * X) by reflexivity. rewrite HS.
  destruct (Z.eq_dec X 0) as [E|E].
  - rewrite E, Z.mul_0_r. change (0 <? 0) with false. rewrite Bool.andb_false_r.
    unfold signed_value. rewrite low_digits_value by lia. rewrite Zmod_0_l.
    destruct (a_sign (fa f) && neg); reflexivity.
  - assert (v <> 0).
    { intros ->. apply E. subst X. unfold alignz. cbn [Z.abs].
      destruct (Z.leb_spec s1 (a_scale (fa f))); [lia|]. apply Zdiv_0_l. }
    replace (Z.sgn v * X <? 0) with neg; auto.
    destruct neg; symmetry.
    + apply Z.ltb_lt. specialize (H1 eq_refl). assert (Z.sgn v = -1) by lia. rewrite H0. lia.
    + apply Z.ltb_ge. specialize (H2 eq_refl). assert (Z.sgn v = 1) by lia. rewrite H0. lia.
Qed.

Lemma signed_neg_le : forall neg ds, Forall is_dig ds ->
  (neg = true -> signed_value neg ds <= 0) /\ (neg = false -> 0 <= signed_value neg ds) /\
  Z.abs (signed_value neg ds) = digits_value ds.
Proof. intros neg ds H. pose proof (digits_value_bound ds H). unfold signed_value. destruct neg; lia. Qed.

(** Storing aligned digits and a sign into a DISPLAY receiver. *)
Lemma store_region_denotes : forall m f2 k ds s1 v s neg,
  wf_display f2 k -> Forall is_dig ds -> v = signed_value neg ds ->
  (a_sign (fa f2) = true -> (s <? 0) = neg) ->
  let f2' := put_sign m (store_common_region f2 (map digit_char ds) s1) s in
  f2' = mkField (fa f2) (zoned (c_ebcdic m) (fa f2) (s <? 0)
          (low_digits k (alignz (digits_value ds) s1 (a_scale (fa f2))))) /\
  denotes (c_ebcdic m) f2' (held f2 (low_part k (aligns v s1 (a_scale (fa f2))))) /\
  fa f2' = fa f2 /\ f_size f2' = f_size f2.
Proof.
  intros m f2 k ds s1 v s neg W Hd Hv Hs f2'.
  pose proof (wf_display_data_size _ _ W) as DS. pose proof W as (Ht & Ha & Hk & HL).
  assert (E : f2' = mkField (fa f2) (zoned (c_ebcdic m) (fa f2) (s <? 0)
          (low_digits k (alignz (digits_value ds) s1 (a_scale (fa f2)))))).
  { subst f2'. rewrite (store_common_region_spec f2 k) by auto.
    apply put_sign_put_digits; auto using low_digits_ne, low_digits_dig.
    rewrite low_digits_length. auto. }
  split; [exact E|]. rewrite E. split; [|split; [reflexivity|]].
  - destruct (signed_neg_le neg ds Hd) as (S1 & S2 & S3). rewrite <- Hv in S1, S2, S3.
    rewrite (held_neg f2 k v s1 neg S1 S2), S3.
    set (L := low_digits _ _).
    assert (Z1 : zoned (c_ebcdic m) (fa f2) (s <? 0) L = zoned (c_ebcdic m) (fa f2) (a_sign (fa f2) && neg) L).
    { destruct (a_sign (fa f2)) eqn:SG.
      - rewrite Hs by auto. reflexivity.
      - apply zoned_unsigned. auto. }
    rewrite Z1. apply den_display; auto.
    + subst L. auto using low_digits_ne.
    + subst L. apply low_digits_dig.
    + intros ->. reflexivity.
  - unfold f_size. cbn [fd]. rewrite zoned_length by auto using low_digits_ne.
    rewrite low_digits_length. auto.
Qed.

(** ** DISPLAY to DISPLAY *)

Lemma get_sign_digits : forall m a neg ds,
  a_type a = TDisplay -> ds <> [] -> Forall is_dig ds -> attr_ok a ->
  (a_sign a = false -> neg = false) ->
  exists s g, get_sign m (mkField a (zoned (c_ebcdic m) a neg ds)) = (s, g) /\
    (s <? 0) = neg /\ fa g = a /\ data_digits g = map digit_char ds /\
    g = mkField a (plain a neg ds) /\
    put_sign m g s = mkField a (zoned (c_ebcdic m) a neg ds).
Proof.
  intros m a neg ds Ht Hne Hd Ha Hu.
  destruct (a_sign a) eqn:HS.
  - exists (sgn_of neg), (mkField a (plain a neg ds)).
    split; [now apply get_sign_zoned|]. split; [apply sgn_of_neg|].
    split; [reflexivity|]. split; [apply data_digits_plain; auto|]. split; [reflexivity|].
    rewrite put_sign_plain_gen by auto. now rewrite sgn_of_neg.
  - assert (a_sep a = false) by (destruct (a_sep a) eqn:E; auto; unfold attr_ok in Ha; specialize (Ha E); congruence).
    rewrite DispProofs.zoned_unsigned by auto.
    assert (EP : plain a neg ds = map digit_char ds) by (unfold plain; now rewrite HS).
    exists 0, (mkField a (map digit_char ds)). unfold get_sign, put_sign. cbn [fa]. rewrite HS.
    split; [reflexivity|]. split; [now rewrite Hu|]. split; [reflexivity|].
    split; [rewrite <- EP at 1; apply data_digits_plain; auto|]. split; [now rewrite EP|reflexivity].
Qed.

Lemma denotes_display_cases : forall e f v, a_type (fa f) = TDisplay -> denotes e f v ->
  exists neg ds, f = mkField (fa f) (zoned e (fa f) neg ds) /\ ds <> [] /\ Forall is_dig ds /\
    (a_sign (fa f) = false -> neg = false) /\ attr_ok (fa f) /\ v = signed_value neg ds.
Proof.
  intros e f v Ht H. inversion H; subst; cbn [fa] in *; try congruence.
  exists neg, ds. repeat (split; [auto; fail|]). auto.
Qed.

Theorem display_to_display_spec : forall m f1 f2 v k,
  denotes (c_ebcdic m) f1 v -> a_type (fa f1) = TDisplay -> wf_display f2 k ->
  exists f2', display_to_display m f1 f2 = (f1, f2') /\
    denotes (c_ebcdic m) f2' (held f2 (low_part k (aligns v (a_scale (fa f1)) (a_scale (fa f2))))) /\
    fa f2' = fa f2 /\ f_size f2' = f_size f2.
Proof.
  intros m f1 f2 v k D1 T1 W2.
  destruct (denotes_display_cases _ _ _ T1 D1) as (neg & ds & E1 & Hne & Hd & Hu & Ha & Hv).
  destruct (get_sign_digits m (fa f1) neg ds T1 Hne Hd Ha Hu) as (s & g & G & HS & HA & HD & _ & HP).
  unfold display_to_display. rewrite E1, G. cbn [fa]. rewrite HD.
  destruct (store_region_denotes m f2 k ds (a_scale (fa f1)) v s neg W2 Hd Hv (fun _ => HS))
    as (_ & X1 & X2 & X3).
  eexists. split; [rewrite HP; reflexivity|]. split; auto.
Qed.
