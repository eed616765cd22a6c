(** Facts about decimal digit strings (proof file). *)
From Verif Require Import Base BaseFacts Field Sign Decimal SpecNum Numeric SpecStore.

Lemma digits_value_aux_app : forall l1 l2 n,
  digits_value_aux n (l1 ++ l2) = digits_value_aux (digits_value_aux n l1) l2.
Proof. induction l1; simpl; intros; auto. Qed.

Lemma digits_value_aux_lin : forall l n,
  digits_value_aux n l = n * 10 ^ Z.of_nat (length l) + digits_value l.
Proof.
  unfold digits_value. induction l as [|a l IH]; intros n; cbn [digits_value_aux length].
  - simpl; lia.
  - rewrite IH, (IH (10*0+a)). rewrite pow10_S. lia.
Qed.

Lemma digits_value_app : forall l1 l2,
  digits_value (l1 ++ l2) = digits_value l1 * 10 ^ Z.of_nat (length l2) + digits_value l2.
Proof.
  intros. unfold digits_value at 1. rewrite digits_value_aux_app, digits_value_aux_lin. reflexivity.
Qed.

Lemma digits_value_cons : forall d l,
  digits_value (d :: l) = d * 10 ^ Z.of_nat (length l) + digits_value l.
Proof. intros. change (d :: l) with ([d] ++ l). rewrite digits_value_app.
  change (digits_value [d]) with (10 * 0 + d). f_equal. Qed.

Lemma digits_value_snoc : forall l d, digits_value (l ++ [d]) = 10 * digits_value l + d.
Proof.
  intros. rewrite digits_value_app. change (length [d]) with 1%nat.
  change (10 ^ Z.of_nat 1) with 10. change (digits_value [d]) with (10 * 0 + d). lia.
Qed.

Lemma digits_value_bound : forall l, Forall is_dig l ->
  0 <= digits_value l < 10 ^ Z.of_nat (length l).
Proof.
  induction l using rev_ind; intros.
  - unfold digits_value; simpl; lia.
  - apply Forall_app in H. destruct H as [H1 H2]. inversion H2; subst.
    specialize (IHl H1). rewrite digits_value_snoc, app_length.
    simpl length. rewrite Nat.add_1_r, pow10_S. unfold is_dig in *. lia.
Qed.

Lemma str_value_digits : forall ds n, str_value n (map digit_char ds) = digits_value_aux n ds.
Proof.
  induction ds as [|a ds IH]; intros n; auto. cbn [map str_value digits_value_aux].
  rewrite IH. unfold digit_char. f_equal. lia.
Qed.

Lemma map_digit_char_ok : forall ds, Forall is_dig ds -> digits_ok (map digit_char ds).
Proof.
  intros. unfold digits_ok. apply Forall_map. eapply Forall_impl; eauto.
  unfold is_dig, is_digit, digit_char. cbv beta. lia.
Qed.

Lemma digits_ok_map : forall l, digits_ok l -> exists ds, Forall is_dig ds /\ l = map digit_char ds.
Proof.
  intros. exists (map (fun c => c - 48) l). split.
  - apply Forall_map. eapply Forall_impl; eauto. unfold is_dig, is_digit; cbv beta; lia.
  - rewrite map_map. rewrite <- (map_id l) at 1. apply map_ext. intros. unfold digit_char. lia.
Qed.

Lemma forallb_digits : forall l, forallb is_digitb l = true <-> digits_ok l.
Proof.
  intros. unfold digits_ok. rewrite forallb_forall, Forall_forall.
  split; intros H x Hx; specialize (H x Hx); now apply is_digitb_spec.
Qed.

Lemma skip_zeros_eq : forall a b l,
  skip_zeros (a :: b :: l) = if a =? 48 then skip_zeros (b :: l) else a :: b :: l.
Proof. reflexivity. Qed.

Lemma skip_zeros_value : forall l, str_value 0 (skip_zeros l) = str_value 0 l.
Proof.
  induction l as [|a [|b l] IH]; auto.
  rewrite skip_zeros_eq. destruct (Z.eqb_spec a 48); auto.
  subst. rewrite IH. reflexivity.
Qed.

Lemma skip_zeros_digits : forall l, digits_ok l -> digits_ok (skip_zeros l).
Proof.
  induction l as [|a [|b l] IH]; intros H; auto.
  rewrite skip_zeros_eq. destruct (a =? 48); auto. apply IH. now inversion H.
Qed.

Lemma skip_zeros_length : forall l, (length (skip_zeros l) <= length l)%nat.
Proof.
  induction l as [|a [|b l] IH]; auto.
  rewrite skip_zeros_eq. destruct (a =? 48); auto. etransitivity; [apply IH|]. simpl; lia.
Qed.

Lemma accum_u32_value : forall l n k, digits_ok l -> 0 <= n < 10 ^ Z.of_nat k ->
  (k + length l <= 9)%nat -> accum_u32 n l = str_value n l.
Proof.
  induction l as [|a l IH]; intros n k Hd Hn Hk; auto.
  inversion Hd; subst. cbn [accum_u32 str_value].
  assert (HE : 0 <= n * 10 + (a - 48) < 10 ^ Z.of_nat (S k)).
  { rewrite pow10_S. unfold is_digit in *. lia. }
  assert (HB : 10 ^ Z.of_nat (S k) <= 10 ^ 9).
  { apply Z.pow_le_mono_r; simpl in Hk; lia. }
  rewrite Z.mod_small.
  - apply (IH _ (S k)); auto. simpl in Hk; lia.
  - change (2 ^ 32) with 4294967296. change (10 ^ 9) with 1000000000 in HB. lia.
Qed.

(** ** fixed-width digit strings *)

(** Digits (0..9) of the k low-order positions of v. *)
Fixpoint low_digits (k : nat) (v : Z) : list Z :=
  match k with O => [] | S j => low_digits j (v / 10) ++ [v mod 10] end.

Lemma fixed_low : forall k v, fixed k v = map digit_char (low_digits k v).
Proof. induction k; intros; simpl; auto. rewrite IHk, map_app. reflexivity. Qed.

Lemma low_digits_length : forall k v, length (low_digits k v) = k.
Proof. induction k; intros; simpl; auto. rewrite app_length, IHk. simpl; lia. Qed.

Lemma fixed_length : forall k v, length (fixed k v) = k.
Proof. intros. now rewrite fixed_low, map_length, low_digits_length. Qed.

Lemma low_digits_dig : forall k v, Forall is_dig (low_digits k v).
Proof.
  induction k; intros; simpl; auto. apply Forall_app; split; auto.
  constructor; auto. unfold is_dig. lia.
Qed.

Lemma low_digits_value : forall k v, 0 <= v -> digits_value (low_digits k v) = v mod 10 ^ Z.of_nat k.
Proof.
  induction k; intros v Hv.
  - simpl low_digits. change (10 ^ Z.of_nat 0) with 1. rewrite Z.mod_1_r. reflexivity.
  - cbn [low_digits]. rewrite digits_value_snoc, IHk by lia.
    rewrite pow10_S. pose proof (pow10_pos_nat k).
    rewrite Z.rem_mul_r by lia. lia.
Qed.

Lemma fixed_digits : forall k v, digits_ok (fixed k v).
Proof. intros. rewrite fixed_low. apply map_digit_char_ok, low_digits_dig. Qed.

Lemma low_digits_pad : forall b a v, 0 <= v < 10 ^ Z.of_nat b ->
  low_digits (a + b) v = repeat 0 a ++ low_digits b v.
Proof.
  induction b; intros a v Hv.
  - rewrite Nat.add_0_r. simpl. rewrite app_nil_r.
    change (10 ^ Z.of_nat 0) with 1 in Hv. replace v with 0 by lia. clear.
    induction a; simpl; auto. change (0/10) with 0. change (0 mod 10) with 0.
    rewrite IHa. clear. induction a; simpl; auto. now rewrite IHa.
  - rewrite Nat.add_succ_r. cbn [low_digits]. rewrite IHb.
    + now rewrite app_assoc.
    + rewrite pow10_S in Hv. lia.
Qed.

Lemma skipn_low_digits : forall b a v, skipn a (low_digits (a + b) v) = low_digits b v.
Proof.
  induction b; intros a v.
  - rewrite Nat.add_0_r. simpl. apply skipn_all2. rewrite low_digits_length. lia.
  - rewrite Nat.add_succ_r. cbn [low_digits]. rewrite skipn_app, IHb.
    rewrite low_digits_length. replace (a - (a + b))%nat with 0%nat by lia. reflexivity.
Qed.

Lemma digits_value_inj : forall l1 l2, Forall is_dig l1 -> Forall is_dig l2 ->
  length l1 = length l2 -> digits_value l1 = digits_value l2 -> l1 = l2.
Proof.
  induction l1 as [|a l1 IH] using rev_ind; intros l2 H1 H2 HL HV.
  - destruct l2; simpl in *; auto; lia.
  - destruct l2 as [|b l2] using rev_ind.
    + rewrite app_length in HL. simpl in HL. lia.
    + apply Forall_app in H1, H2. destruct H1 as [H1 Ha], H2 as [H2 Hb].
      inversion Ha; inversion Hb; subst. rewrite !digits_value_snoc in HV.
      rewrite !app_length in HL. simpl in HL.
      unfold is_dig in *. assert (a = b) by lia. subst. f_equal. apply IH; auto; lia.
Qed.

Lemma low_digits_of_value : forall ds, Forall is_dig ds ->
  low_digits (length ds) (digits_value ds) = ds.
Proof.
  intros. apply digits_value_inj; auto using low_digits_dig.
  - apply low_digits_length.
  - pose proof (digits_value_bound ds H). rewrite low_digits_value by lia.
    apply Z.mod_small. lia.
Qed.

Lemma ndigits_fuel_spec : forall fuel v, 0 <= v -> v < 2 ^ (Z.of_nat fuel + 1) ->
  v < 10 ^ Z.of_nat (ndigits_fuel fuel v) /\
  (1 <= ndigits_fuel fuel v)%nat /\
  (v <> 0 -> 10 ^ (Z.of_nat (ndigits_fuel fuel v) - 1) <= v).
Proof.
  induction fuel; intros v H0 H1.
  - cbn. cbn in H1. change (Z.pow_pos 10 1) with 10. change (Z.pow_pos 2 1) with 2 in H1. lia.
  - cbn [ndigits_fuel]. destruct (Z.ltb_spec v 10).
    + change (Z.of_nat 1) with 1. change (10 ^ 1) with 10. change (10 ^ (1 - 1)) with 1. lia.
    + assert (HF : v / 10 < 2 ^ (Z.of_nat fuel + 1)).
      { rewrite Nat2Z.inj_succ in H1. replace (Z.succ (Z.of_nat fuel) + 1) with
          (Z.succ (Z.of_nat fuel + 1)) in H1 by lia. rewrite Z.pow_succ_r in H1 by lia. lia. }
      destruct (IHfuel (v / 10) ltac:(lia) HF) as (A & B & C).
      remember (ndigits_fuel fuel (v/10)) as k. rewrite pow10_S.
      replace (Z.of_nat (S k) - 1) with (Z.succ (Z.of_nat k - 1)) by lia.
      rewrite Z.pow_succ_r by lia.
      specialize (C ltac:(lia)). lia.
Qed.

Lemma ndigits_spec : forall v, 0 <= v ->
  v < 10 ^ Z.of_nat (ndigits v) /\ (1 <= ndigits v)%nat /\
  (v <> 0 -> 10 ^ (Z.of_nat (ndigits v) - 1) <= v).
Proof.
  intros v H. unfold ndigits. apply ndigits_fuel_spec; auto.
  destruct (Z.eq_dec v 0). { subst. simpl. lia. }
  pose proof (Z.log2_nonneg v). rewrite Z2Nat.id by lia.
  destruct (Z.log2_spec v); [lia|]. now rewrite Z.add_1_r.
Qed.

Lemma ndigits_le : forall v k, 0 <= v < 10 ^ Z.of_nat k -> (1 <= k)%nat -> (ndigits v <= k)%nat.
Proof.
  intros v k Hv Hk. destruct (ndigits_spec v) as (A & B & C); [lia|].
  destruct (Z.eq_dec v 0).
  - subst. unfold ndigits. simpl. lia.
  - specialize (C n). apply Nat.nlt_ge. intro.
    assert (10 ^ Z.of_nat k <= 10 ^ (Z.of_nat (ndigits v) - 1)) by (apply Z.pow_le_mono_r; lia).
    lia.
Qed.

Lemma ndigits_gt : forall v k, 0 <= v -> 10 ^ Z.of_nat k <= v -> (k < ndigits v)%nat.
Proof.
  intros v k Hv Hk. destruct (ndigits_spec v) as (A & B & C); [lia|].
  apply Nat.nle_gt. intro.
  assert (10 ^ Z.of_nat (ndigits v) <= 10 ^ Z.of_nat k) by (apply Z.pow_le_mono_r; lia). lia.
Qed.

(** The buffer never overflows for numbers of at most 2047 digits. *)
Lemma num_buff_gen : forall v n, 0 <= v -> (1 <= n)%nat -> Z.of_nat n = NUM_BUFF - 1 ->
  (v < 10 ^ Z.of_nat n -> num_buff_str v = Ok (fixed (ndigits v) v)) /\
  (10 ^ Z.of_nat n <= v -> num_buff_str v = UB).
Proof.
  intros v n Hv H1 Hn. unfold num_buff_str, mpz_get_str. rewrite fixed_length. split; intros.
  - pose proof (ndigits_le v n ltac:(lia) H1).
    destruct (Z.ltb_spec (Z.of_nat (ndigits v)) NUM_BUFF); auto. lia.
  - pose proof (ndigits_gt v n ltac:(lia) H).
    destruct (Z.ltb_spec (Z.of_nat (ndigits v)) NUM_BUFF); auto. lia.
Qed.
Lemma num_buff_ok : forall v, 0 <= v < NUM_LIMIT ->
  num_buff_str v = Ok (fixed (ndigits v) v).
Proof.
  intros v [H0 H]. apply (num_buff_gen v (Z.to_nat 2047) H0).
  - apply (Z2Nat.inj_le 1 2047); discriminate.
  - rewrite Z2Nat.id; [reflexivity|discriminate].
  - rewrite Z2Nat.id by discriminate. exact H.
Qed.
Lemma num_buff_ub : forall v, NUM_LIMIT <= v -> num_buff_str v = UB.
Proof.
  intros v H. assert (H0 : 0 <= v).
  { apply Z.le_trans with NUM_LIMIT; auto. apply Z.pow_nonneg. discriminate. }
  apply (num_buff_gen v (Z.to_nat 2047) H0).
  - apply (Z2Nat.inj_le 1 2047); discriminate.
  - rewrite Z2Nat.id; [reflexivity|discriminate].
  - rewrite Z2Nat.id by discriminate. exact H.
Qed.

(** Padding / truncating the digit string yields the k low-order digits. *)
Lemma pad_or_cut : forall v k, 0 <= v ->
  (if (k <? ndigits v)%nat then skipn (ndigits v - k) (fixed (ndigits v) v)
   else repeat 48 (k - ndigits v) ++ fixed (ndigits v) v) = fixed k v.
Proof.
  intros v k Hv. rewrite !fixed_low.
  destruct (Nat.ltb_spec k (ndigits v)).
  - rewrite skipn_map.
    replace (ndigits v) with ((ndigits v - k) + k)%nat at 2 by lia.
    now rewrite skipn_low_digits.
  - destruct (ndigits_spec v Hv) as (A & _).
    replace k with ((k - ndigits v) + ndigits v)%nat at 2 by lia.
    rewrite low_digits_pad by lia. rewrite map_app. f_equal.
    clear. induction (k - ndigits v)%nat; simpl; auto. now rewrite IHn.
Qed.
