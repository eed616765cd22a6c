(** Binary items (proof file). *)
From Verif Require Import Base BaseFacts Field Sign Decimal SpecNum Numeric SpecStore.

Lemma le_u_value : forall l, le_u l = le_value l.
Proof. induction l; simpl; auto. Qed.

Lemma le_value_app : forall l1 l2,
  le_value (l1 ++ l2) = le_value l1 + 256 ^ Z.of_nat (length l1) * le_value l2.
Proof.
  induction l1 as [|a l1 IH]; intros.
  - cbn [app le_value length]. rewrite Z.pow_0_r. lia.
  - cbn [app le_value length]. rewrite IH, Nat2Z.inj_succ, Z.pow_succ_r by lia. lia.
Qed.

Lemma le_value_zeros : forall n, le_value (repeat 0 n) = 0.
Proof. induction n; cbn [repeat le_value]; lia. Qed.

Lemma le_value_bound : forall l, bytes_ok l -> 0 <= le_value l < 256 ^ Z.of_nat (length l).
Proof.
  induction l as [|a l IH]; intros H.
  - cbn. lia.
  - inversion H; subst. specialize (IH H3). cbn [le_value length].
    rewrite Nat2Z.inj_succ, Z.pow_succ_r by lia. unfold is_byte in *. lia.
Qed.

Lemma le_bytes_length : forall k v, length (le_bytes k v) = k.
Proof. induction k; intros; cbn [le_bytes length]; auto. Qed.

Lemma le_bytes_ok : forall k v, bytes_ok (le_bytes k v).
Proof. induction k; intros; cbn [le_bytes]; constructor; auto. unfold is_byte. lia. apply IHk. Qed.

Lemma le_bytes_value : forall k v, 0 <= v -> le_value (le_bytes k v) = v mod 256 ^ Z.of_nat k.
Proof.
  induction k; intros v Hv.
  - cbn [le_bytes le_value]. change (256 ^ Z.of_nat 0) with 1. now rewrite Z.mod_1_r.
  - cbn [le_bytes le_value]. rewrite IHk by lia.
    rewrite Nat2Z.inj_succ, Z.pow_succ_r by lia.
    assert (0 < 256 ^ Z.of_nat k) by (apply Z.pow_pos_nonneg; lia).
    rewrite Z.rem_mul_r by lia. reflexivity.
Qed.

Lemma bytes_rev : forall l, bytes_ok l -> bytes_ok (rev l).
Proof. unfold bytes_ok. intros. now apply Forall_rev. Qed.

Lemma bin_unsigned_bound : forall sw l, bytes_ok l ->
  0 <= bin_unsigned sw l < 256 ^ Z.of_nat (length l).
Proof.
  intros. unfold bin_unsigned. destruct sw.
  - rewrite <- rev_length. apply le_value_bound. now apply bytes_rev.
  - now apply le_value_bound.
Qed.

Lemma len_cases : forall n : nat, (1 <= n <= 8)%nat ->
  n = 1%nat \/ n = 2%nat \/ n = 3%nat \/ n = 4%nat \/ n = 5%nat \/ n = 6%nat \/ n = 7%nat \/ n = 8%nat.
Proof. lia. Qed.

Lemma binary_get_uint64_spec : forall f, (1 <= f_size f <= 8)%nat ->
  binary_get_uint64 f = bin_unsigned (a_swap (fa f)) (fd f).
Proof.
  intros f H. unfold binary_get_uint64, bin_unsigned. rewrite !le_u_value.
  destruct (a_swap (fa f)).
  - rewrite rev_app_distr, le_value_app.
    assert (E : forall n, rev (repeat 0 n) = repeat 0 n).
    { clear. intros. assert (forall n, repeat 0 n ++ [0] = 0 :: repeat 0 n).
      { induction n0; simpl; auto. now rewrite IHn0. }
      induction n; simpl; auto. now rewrite IHn, H. }
    rewrite E, le_value_zeros. lia.
  - rewrite le_value_app, le_value_zeros. lia.
Qed.

Lemma shiftr_s64 : forall n u, (1 <= n <= 8)%nat -> 0 <= u < 256 ^ Z.of_nat n ->
  Z.shiftr (to_s64 (256 ^ Z.of_nat (8 - n) * u)) (8 * Z.of_nat (8 - n)) =
  if 256 ^ Z.of_nat n / 2 <=? u then u - 256 ^ Z.of_nat n else u.
Proof.
  intros n u Hn Hu. rewrite Z.shiftr_div_pow2 by lia. unfold to_s64.
  destruct (len_cases n Hn) as [->|[->|[->|[->|[->|[->|[->| ->]]]]]]].
  all: match goal with |- context [Z.of_nat (8 - ?k)] =>
         let x := eval vm_compute in (Z.of_nat (8 - k)) in change (Z.of_nat (8 - k)) with x end.
  all: match type of Hu with _ <= _ < 256 ^ ?e =>
         let x := eval vm_compute in (256 ^ e) in change (256 ^ e) with x in * end.
  all: repeat match goal with |- context [256 ^ ?e] =>
         let x := eval vm_compute in (256 ^ e) in change (256 ^ e) with x in * end.
  all: repeat match goal with |- context [2 ^ ?e] =>
         let x := eval vm_compute in (2 ^ e) in change (2 ^ e) with x in * end.
  all: match goal with |- context [?a / 2 <=? _] =>
         let x := eval vm_compute in (a / 2) in change (a / 2) with x in * end.
  all: match goal with |- (if ?c then _ else _) / _ = _ => idtac | |- _ => idtac end.
  all: match goal with |- context [if ?a <? ?b then _ else _] => destruct (Z.ltb_spec a b) end;
       match goal with |- context [if ?a <=? ?b then _ else _] => destruct (Z.leb_spec a b) end; lia.
Qed.

Lemma rev_repeat0 : forall n, rev (repeat 0 n) = repeat 0 n.
Proof.
  assert (forall n, repeat 0 n ++ [0] = 0 :: repeat 0 n).
  { induction n; simpl; auto. now rewrite IHn. }
  induction n; simpl; auto. now rewrite IHn, H.
Qed.

Lemma binary_get_int64_spec : forall f, (1 <= f_size f <= 8)%nat -> bytes_ok (fd f) ->
  a_sign (fa f) = true ->
  binary_get_int64 f = bin_value true (a_swap (fa f)) (fd f).
Proof.
  intros f H Hb Hs. unfold binary_get_int64, bin_value. rewrite Hs. rewrite !le_u_value.
  cbn [andb]. unfold f_size in *.
  pose proof (bin_unsigned_bound (a_swap (fa f)) (fd f) Hb) as B. unfold bin_unsigned in *.
  destruct (a_swap (fa f)).
  - rewrite rev_app_distr, rev_repeat0, le_value_app, le_value_zeros, repeat_length.
    rewrite Z.add_0_l. now apply shiftr_s64.
  - rewrite le_value_app, le_value_zeros, repeat_length.
    rewrite Z.add_0_l. now apply shiftr_s64.
Qed.

Theorem set_binary_spec : forall f, (1 <= f_size f <= 8)%nat -> bytes_ok (fd f) ->
  set_binary f = mkDec (bin_value (a_sign (fa f)) (a_swap (fa f)) (fd f)) (a_scale (fa f)).
Proof.
  intros. unfold set_binary. destruct (a_sign (fa f)) eqn:E.
  - now rewrite binary_get_int64_spec.
  - rewrite binary_get_uint64_spec by auto. reflexivity.
Qed.

(** Storing 64 bits keeps the low-order bytes. *)
Lemma le_bytes_firstn : forall k j v, firstn k (le_bytes (k + j) v) = le_bytes k v.
Proof. induction k; intros; cbn [Nat.add le_bytes firstn]; auto. now rewrite IHk. Qed.

Lemma binary_set_64_spec : forall f n, (1 <= f_size f <= 8)%nat ->
  let f' := binary_set_64 f n in
  fa f' = fa f /\ f_size f' = f_size f /\ bytes_ok (fd f') /\
  bin_unsigned (a_swap (fa f)) (fd f') = n mod 256 ^ Z.of_nat (f_size f).
Proof.
  intros f n H f'. subst f'. unfold binary_set_64.
  set (b := le_bytes 8 (n mod 2 ^ 64)).
  assert (HL : firstn (f_size f) b = le_bytes (f_size f) (n mod 2 ^ 64)).
  { subst b. replace 8%nat with (f_size f + (8 - f_size f))%nat by lia. apply le_bytes_firstn. }
  assert (HV : le_value (le_bytes (f_size f) (n mod 2 ^ 64)) = n mod 256 ^ Z.of_nat (f_size f)).
  { assert (0 < 2 ^ 64) by reflexivity.
    rewrite le_bytes_value by (apply Z.mod_pos_bound; auto).
    change (2 ^ 64) with (256 ^ 8).
    replace 8 with (Z.of_nat (f_size f) + Z.of_nat (8 - f_size f)) by lia.
    rewrite Z.pow_add_r by lia.
    assert (0 < 256 ^ Z.of_nat (f_size f)) by (apply Z.pow_pos_nonneg; lia).
    assert (0 < 256 ^ Z.of_nat (8 - f_size f)) by (apply Z.pow_pos_nonneg; lia).
    now apply mod_mod_mul. }
  destruct (a_swap (fa f)) eqn:Esw.
  - assert (HR : skipn (8 - f_size f) (rev b) = rev (firstn (f_size f) b)).
    { rewrite firstn_rev || idtac.
      rewrite <- (firstn_skipn (f_size f) b) at 1. rewrite rev_app_distr.
      rewrite skipn_app. rewrite skipn_all2.
      - rewrite rev_length, skipn_length. subst b. rewrite le_bytes_length.
        replace (8 - f_size f - (8 - f_size f))%nat with 0%nat by lia. reflexivity.
      - rewrite rev_length, skipn_length. subst b. rewrite le_bytes_length. lia. }
    cbn [set_fd fa fd]. unfold f_size at 1. cbn [fd set_fd]. rewrite HR, HL.
    repeat split; auto.
    + rewrite rev_length, le_bytes_length. reflexivity.
    + apply bytes_rev, le_bytes_ok.
    + unfold bin_unsigned. rewrite rev_involutive. exact HV.
  - cbn [set_fd fa fd]. unfold f_size at 1. cbn [fd set_fd]. rewrite HL.
    repeat split; auto.
    + apply le_bytes_length.
    + apply le_bytes_ok.
Qed.

Lemma bitlen_le : forall v n, 0 < n -> (bitlen v <= n <-> Z.abs v < 2 ^ n).
Proof.
  intros v n Hn. unfold bitlen. destruct (Z.eqb_spec v 0).
  - subst. cbn [Z.abs]. pose proof (Z.pow_pos_nonneg 2 n ltac:(lia) ltac:(lia)). lia.
  - assert (0 < Z.abs v) by lia. rewrite Z.log2_lt_pow2 by lia. lia.
Qed.

Lemma pow_bits : forall f, 256 ^ Z.of_nat (f_size f) = 2 ^ bits f.
Proof. intros. unfold bits. rewrite Z.pow_mul_r by lia. reflexivity. Qed.

(** Two's complement reading of v mod 2^bits. *)
Lemma bin_value_store : forall f v,
  (1 <= f_size f <= 8)%nat -> a_sign (fa f) = true ->
  - 2 ^ (bits f - 1) <= v < 2 ^ (bits f - 1) ->
  bin_value true (a_swap (fa f)) (fd (binary_set_64 f v)) = v.
Proof.
  intros f v H Hs Hv. destruct (binary_set_64_spec f v H) as (A & B & C & D).
  unfold bin_value. rewrite D. unfold f_size in B at 1. rewrite B.
  rewrite pow_bits. cbn [andb].
  assert (E : 2 ^ bits f = 2 * 2 ^ (bits f - 1)).
  { replace (bits f) with (Z.succ (bits f - 1)) at 1 by lia. apply Z.pow_succ_r. unfold bits. lia. }
  rewrite E. set (w := 2 ^ (bits f - 1)) in *.
  assert (0 < w) by (subst w; apply Z.pow_pos_nonneg; unfold bits; lia).
  rewrite (Z.mul_comm 2 w), Z.div_mul by lia. rewrite (Z.mul_comm w 2).
  clearbody w.
  destruct (Z_lt_le_dec v 0).
  - assert (EM : v mod (2 * w) = v + 2 * w).
    { symmetry. apply (Z.mod_unique_pos _ _ (-1)); lia. }
    rewrite EM. destruct (Z.leb_spec w (v + 2 * w)); lia.
  - rewrite Z.mod_small by lia. destruct (Z.leb_spec w v); lia.
Qed.

Lemma mpz_get_ui_small : forall v, 0 <= v < 2 ^ 64 -> mpz_get_ui v = v.
Proof. intros. unfold mpz_get_ui. rewrite Z.abs_eq, Z.mod_small; lia. Qed.

Theorem get_binary_fits : forall m v f o, wf_binary f -> bin_fits m o f v ->
  exists f', get_binary m v f o = Ok (mkStored false false f') /\
    fa f' = fa f /\ f_size f' = f_size f /\ bytes_ok (fd f') /\
    bin_value (a_sign (fa f)) (a_swap (fa f)) (fd f') = (if a_sign (fa f) then v else Z.abs v).
Proof.
  intros m v f o (Ht & Hn & Hd) (Hr & Hf).
  assert (HB : 0 < bits f) by (unfold bits; lia).
  unfold get_binary. destruct (Z.eqb_spec v 0) as [->|Hv].
  - exists (set_fd f (repeat 0 (f_size f))). repeat split; auto.
    + unfold f_size, set_fd. cbn [fd]. apply repeat_length.
    + unfold set_fd. cbn [fd]. apply Forall_forall. intros x Hx. apply repeat_spec in Hx. subst.
      unfold is_byte; lia.
    + unfold set_fd. cbn [fd]. unfold bin_value, bin_unsigned.
      rewrite rev_repeat0. replace (if a_swap (fa f) then repeat 0 (f_size f) else repeat 0 (f_size f))
        with (repeat 0 (f_size f)) by (destruct (a_swap (fa f)); auto).
      rewrite le_value_zeros, repeat_length.
      assert (0 < 256 ^ Z.of_nat (f_size f) / 2).
      { rewrite pow_bits. replace (bits f) with (Z.succ (bits f - 1)) by lia.
        rewrite Z.pow_succ_r by lia. rewrite Z.mul_comm, Z.div_mul by lia.
        apply Z.pow_pos_nonneg; lia. }
      destruct (Z.leb_spec (256 ^ Z.of_nat (f_size f) / 2) 0); [lia|].
      rewrite Bool.andb_false_r. destruct (a_sign (fa f)); reflexivity.
  - fold (bits f). unfold bin_range in Hr.
    set (w := if a_sign (fa f) then v else Z.abs v).
    assert (HW : Z.abs w = Z.abs v) by (subst w; destruct (a_sign (fa f)); lia).
    assert (HBl : (bits f - (if a_sign (fa f) then 1 else 0) <? bitlen w) = false).
    { apply Z.ltb_ge. apply bitlen_le.
      - unfold bits in *. destruct (a_sign (fa f)); lia.
      - rewrite HW. destruct (a_sign (fa f)); [lia|]. rewrite Z.sub_0_r. lia. }
    rewrite HBl.
    assert (HF : exists f',
      Ok (mkStored false false (if negb (a_sign (fa f)) || false then binary_set_64 f (mpz_get_ui w)
                else binary_set_64 f w)) = Ok (mkStored false false f') /\
      fa f' = fa f /\ f_size f' = f_size f /\ bytes_ok (fd f') /\
      bin_value (a_sign (fa f)) (a_swap (fa f)) (fd f') = w).
    { eexists. split; [reflexivity|]. destruct (a_sign (fa f)) eqn:Es; cbn [negb orb].
      - destruct (binary_set_64_spec f w Hn) as (A & B & C & D). repeat split; auto.
        apply bin_value_store; auto. subst w. lia.
      - assert (Hw : 0 <= w < 2 ^ bits f) by (subst w; lia).
        assert (2 ^ bits f <= 2 ^ 64) by (apply Z.pow_le_mono_r; unfold bits; lia).
        rewrite mpz_get_ui_small by lia.
        destruct (binary_set_64_spec f w Hn) as (A & B & C & D). repeat split; auto.
        unfold bin_value. cbn [andb]. rewrite D, pow_bits. apply Z.mod_small; lia. }
    destruct (opt_nonzero o && c_bintrunc m) eqn:Eo; [|exact HF].
    destruct (Z.leb_spec COB_MAX_BINARY (a_digits (fa f))); [unfold COB_MAX_BINARY in *; lia|].
    specialize (Hf eq_refl).
    destruct (Z.leb_spec (10 ^ a_digits (fa f)) (Z.abs w)); [lia|]. exact HF.
Qed.

Theorem get_binary_overflow : forall m v f o, wf_binary f -> ~ bin_fits m o f v ->
  (o_keep o = true -> get_binary m v f o = Ok (mkStored true true f)) /\
  (o_keep o = false -> exists f', get_binary m v f o = Ok (mkStored true true f') /\
     fa f' = fa f /\ f_size f' = f_size f /\ bytes_ok (fd f') /\
     bin_unsigned (a_swap (fa f)) (fd f') =
       (if o_trunc o then Z.abs v mod 10 ^ a_digits (fa f)
        else (if a_sign (fa f) then v else Z.abs v)) mod 2 ^ bits f).
Proof.
  intros m v f o (Ht & Hn & Hd) Hnf.
  assert (HB : 0 < bits f) by (unfold bits; lia).
  unfold get_binary. destruct (Z.eqb_spec v 0) as [->|Hv].
  { exfalso. apply Hnf. split.
    - unfold bin_range. pose proof (Z.pow_pos_nonneg 2 (bits f) ltac:(lia) ltac:(lia)).
      pose proof (Z.pow_pos_nonneg 2 (bits f - 1) ltac:(lia) ltac:(lia)).
      destruct (a_sign (fa f)); cbn [Z.abs]; lia.
    - intros _. cbn [Z.abs]. apply Z.pow_pos_nonneg; lia. }
  fold (bits f).
  set (w := if a_sign (fa f) then v else Z.abs v).
  assert (HW : Z.abs w = Z.abs v) by (subst w; destruct (a_sign (fa f)); lia).
  assert (PT : 0 < 10 ^ a_digits (fa f)) by (apply Z.pow_pos_nonneg; lia).
  assert (PB : 0 < 2 ^ bits f) by (apply Z.pow_pos_nonneg; lia).
  assert (HF : o_keep o = false -> exists f',
    Ok (mkStored true true (if negb (a_sign (fa f)) || true
          then binary_set_64 f (mpz_get_ui (if o_trunc o then Z.rem w (10 ^ a_digits (fa f)) else w mod 2 ^ bits f))
          else binary_set_64 f (if o_trunc o then Z.rem w (10 ^ a_digits (fa f)) else w mod 2 ^ bits f)))
      = Ok (mkStored true true f') /\
    fa f' = fa f /\ f_size f' = f_size f /\ bytes_ok (fd f') /\
    bin_unsigned (a_swap (fa f)) (fd f') =
      (if o_trunc o then Z.abs v mod 10 ^ a_digits (fa f) else w) mod 2 ^ bits f).
  { intros _. eexists. split; [reflexivity|]. rewrite Bool.orb_true_r.
    match goal with |- fa (binary_set_64 f ?n) = _ /\ _ =>
      destruct (binary_set_64_spec f n Hn) as (A & B & C & D) end.
    repeat split; auto. rewrite D, pow_bits. unfold mpz_get_ui.
    assert (E64 : 2 ^ 64 = 2 ^ bits f * 2 ^ (64 - bits f)).
    { rewrite <- Z.pow_add_r by (unfold bits; lia). f_equal. lia. }
    assert (P2 : 0 < 2 ^ (64 - bits f)) by (apply Z.pow_pos_nonneg; unfold bits; lia).
    assert (MM : forall x, (x mod 2 ^ 64) mod 2 ^ bits f = x mod 2 ^ bits f).
    { intros x. rewrite E64. now apply mod_mod_mul. }
    rewrite MM. destruct (o_trunc o).
    - assert (EA : Z.abs (Z.rem w (10 ^ a_digits (fa f))) = Z.abs v mod 10 ^ a_digits (fa f)).
      { rewrite <- Z.rem_abs by lia. rewrite HW, (Z.abs_eq (10 ^ _)) by lia.
        apply Z.rem_mod_nonneg; lia. }
      rewrite EA. reflexivity.
    - pose proof (Z.mod_pos_bound w (2 ^ bits f) PB). rewrite Z.abs_eq by lia.
      now rewrite Z.mod_mod by lia. }
  destruct (Z.ltb_spec (bits f - (if a_sign (fa f) then 1 else 0)) (bitlen w)) as [L|L].
  - split; intros K; rewrite K; auto.
    assert (X : o_trunc o && (COB_MAX_BINARY <=? a_digits (fa f)) = false)
      by (unfold COB_MAX_BINARY; destruct (o_trunc o); lia).
    rewrite X. exact (HF K).
  - assert (Hr : bin_range f v).
    { apply bitlen_le in L; [|unfold bits in *; destruct (a_sign (fa f)); lia].
      rewrite HW in L. unfold bin_range. destruct (a_sign (fa f)); [lia|].
      rewrite Z.sub_0_r in L. lia. }
    destruct (opt_nonzero o && c_bintrunc m) eqn:Eo.
    + destruct (Z.leb_spec COB_MAX_BINARY (a_digits (fa f))); [unfold COB_MAX_BINARY in *; lia|].
      destruct (Z.leb_spec (10 ^ a_digits (fa f)) (Z.abs w)) as [T|T].
      * split; intros K; rewrite K; auto.
      * exfalso. apply Hnf. split; auto. intros _. lia.
    + exfalso. apply Hnf. split; auto. intros Y. rewrite Y in Eo. discriminate.
Qed.
