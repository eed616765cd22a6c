(** Packed decimal items: fetch and store (proof file). *)
From Verif Require Import Base BaseFacts Field Sign Decimal SpecNum Numeric SpecStore NumFacts DispProofs.

(** Finite checks over bytes. *)
Fixpoint zrange (n : nat) : list Z :=
  match n with O => [] | S k => zrange k ++ [Z.of_nat k] end.
Lemma zrange_in : forall n z, 0 <= z < Z.of_nat n -> In z (zrange n).
Proof.
  induction n; intros; [lia|]. cbn [zrange]. apply in_or_app.
  destruct (Z.eq_dec z (Z.of_nat n)); [right; left; auto|left; apply IHn; lia].
Qed.
Lemma byte_check : forall (P : Z -> bool), forallb P (zrange 256) = true ->
  forall b, is_byte b -> P b = true.
Proof.
  intros P H b Hb. rewrite forallb_forall in H. apply H. apply zrange_in. unfold is_byte in Hb. lia.
Qed.
Lemma nib_check2 : forall (P : Z -> Z -> bool),
  forallb (fun a => forallb (P a) (zrange 16)) (zrange 16) = true ->
  forall a b, 0 <= a < 16 -> 0 <= b < 16 -> P a b = true.
Proof.
  intros P H a b Ha Hb. rewrite forallb_forall in H.
  specialize (H a (zrange_in 16 a ltac:(lia))). rewrite forallb_forall in H.
  apply H, zrange_in. lia.
Qed.

Definition is_nib (n : Z) : Prop := 0 <= n < 16.

Fixpoint unpack (l : list Z) : list Z :=
  match l with [] => [] | b :: r => hi4 b :: lo4 b :: unpack r end.

Lemma unpack_length : forall l, length (unpack l) = (2 * length l)%nat.
Proof. induction l; cbn [unpack length]; lia. Qed.

Lemma unpack_app : forall l1 l2, unpack (l1 ++ l2) = unpack l1 ++ unpack l2.
Proof. induction l1; intros; cbn [app unpack]; auto. now rewrite IHl1. Qed.

Lemma unpack_nib : forall l, bytes_ok l -> Forall is_nib (unpack l).
Proof.
  induction l; intros H; cbn [unpack]; auto. inversion H; subst.
  unfold is_byte in *. constructor; [|constructor; auto]; unfold is_nib, hi4, lo4; lia.
Qed.

Lemma pack_unpack : forall l, pack_nibbles (unpack l) = l.
Proof.
  induction l; cbn [unpack pack_nibbles]; auto. rewrite IHl. f_equal. unfold hi4, lo4. lia.
Qed.

Lemma two_ind : forall (P : list Z -> Prop), P [] -> (forall a, P [a]) ->
  (forall a b l, P l -> P (a :: b :: l)) -> forall l, P l.
Proof.
  intros P H0 H1 H2. fix IH 1. intros [|a [|b l]]; [apply H0|apply H1|apply H2; apply IH].
Qed.

Lemma unpack_pack : forall l, Forall is_nib l -> Nat.even (length l) = true ->
  unpack (pack_nibbles l) = l.
Proof.
  induction l as [|a|a b l IH] using two_ind; intros H He; auto.
  - discriminate.
  - inversion H as [|? ? Ha H']; subst. inversion H' as [|? ? Hb H'']; subst.
    cbn [pack_nibbles unpack]. rewrite IH; auto. unfold is_nib, hi4, lo4 in *.
    f_equal; [lia|]. f_equal. lia.
Qed.

Lemma pack_bytes : forall l, Forall is_nib l -> bytes_ok (pack_nibbles l).
Proof.
  induction l as [|a|a b l IH] using two_ind; intros H; try constructor.
  - inversion H as [|? ? Ha H']; subst. inversion H' as [|? ? Hb H'']; subst.
    unfold is_nib, is_byte in *. lia.
  - inversion H as [|? ? Ha H']; subst. inversion H'; subst. now apply IH.
Qed.

Lemma pack_length : forall l, length (pack_nibbles l) = (length l / 2)%nat.
Proof.
  induction l as [|a|a b l IH] using two_ind; auto.
  cbn [pack_nibbles length]. rewrite IH.
  replace (S (S (length l))) with (length l + 1 * 2)%nat by lia. rewrite Nat.div_add by lia. lia.
Qed.

Lemma nth_unpack_hi : forall l p, nth (2 * p) (unpack l) 0 = hi4 (nth p l 0).
Proof.
  induction l; intros p.
  - destruct p; [reflexivity|]. replace (2 * S p)%nat with (S (S (2 * p))) by lia. reflexivity.
  - destruct p; [reflexivity|]. replace (2 * S p)%nat with (S (S (2 * p))) by lia.
    cbn [unpack nth]. apply IHl.
Qed.
Lemma nth_unpack_lo : forall l p, nth (2 * p + 1) (unpack l) 0 = lo4 (nth p l 0).
Proof.
  induction l; intros p.
  - destruct p; [reflexivity|]. replace (2 * S p + 1)%nat with (S (S (2 * p + 1))) by lia. reflexivity.
  - destruct p; [reflexivity|]. replace (2 * S p + 1)%nat with (S (S (2 * p + 1))) by lia.
    cbn [unpack nth]. apply IHl.
Qed.

Lemma unpack_upd : forall l p v,
  unpack (upd p v l) = upd (2 * p) (hi4 v) (upd (2 * p + 1) (lo4 v) (unpack l)).
Proof.
  induction l; intros p v.
  - destruct p; reflexivity.
  - destruct p; [reflexivity|].
    replace (2 * S p)%nat with (S (S (2 * p))) by lia.
    replace (S (S (2 * p)) + 1)%nat with (S (S (2 * p + 1))) by lia.
    cbn [upd unpack]. rewrite IHl. reflexivity.
Qed.

(** ** Fetch *)

Lemma set_packed_loop_spec : forall n ds val s fuel, length ds = (2 * n + 1)%nat -> (n <= fuel)%nat ->
  Forall is_dig ds -> is_nib s ->
  set_packed_loop (Z.of_nat (2 * n + 1)) val (pack_nibbles (ds ++ [s])) fuel =
  (digits_value_aux val (firstn (2 * n) ds), [16 * nth (2 * n) ds 0 + s]).
Proof.
  induction n; intros ds val s fuel HL Hf Hd Hs.
  - destruct ds as [|d [|? ?]]; simpl in HL; try lia.
    destruct fuel; reflexivity.
  - destruct fuel as [|g]; [lia|].
    destruct ds as [|a [|b r]]; cbn [length] in HL; try lia.
    inversion Hd as [|? ? Ha Hd']; subst. inversion Hd' as [|? ? Hb Hr]; subst.
    cbn [app pack_nibbles set_packed_loop].
    destruct (Z.ltb_spec 1 (Z.of_nat (2 * S n + 1))); [|lia].
    cbn [nth tl].
    replace (Z.of_nat (2 * S n + 1) - 2) with (Z.of_nat (2 * n + 1)) by lia.
    rewrite IHn; auto; try lia.
    replace (2 * S n)%nat with (S (S (2 * n))) by lia. cbn [firstn digits_value_aux nth].
    f_equal. f_equal. unfold is_dig, hi4, lo4 in *.
    destruct (Z.eqb_spec val 0); destruct (Z.eqb_spec (16 * a + b) 0); lia.
Qed.

Lemma set_packed_loop_mpz_spec : forall n ds val vs s fuel, length ds = (2 * n + 1)%nat -> (n <= fuel)%nat ->
  Forall is_dig ds -> is_nib s -> (vs = false -> val = 0) ->
  exists vs', set_packed_loop_mpz (Z.of_nat (2 * n + 1)) val vs (pack_nibbles (ds ++ [s])) fuel =
    (digits_value_aux val (firstn (2 * n) ds), vs', [16 * nth (2 * n) ds 0 + s]) /\
    (vs' = false -> digits_value_aux val (firstn (2 * n) ds) = 0).
Proof.
  induction n; intros ds val vs s fuel HL Hf Hd Hs Hv.
  - destruct ds as [|d [|? ?]]; simpl in HL; try lia.
    exists vs. destruct fuel; auto.
  - destruct fuel as [|g]; [lia|].
    destruct ds as [|a [|b r]]; cbn [length] in HL; try lia.
    inversion Hd as [|? ? Ha Hd']; subst. inversion Hd' as [|? ? Hb Hr]; subst.
    cbn [app pack_nibbles set_packed_loop_mpz].
    destruct (Z.ltb_spec 1 (Z.of_nat (2 * S n + 1))); [|lia].
    cbn [nth tl].
    replace (Z.of_nat (2 * S n + 1) - 2) with (Z.of_nat (2 * n + 1)) by lia.
    assert (EV : (if 16 * a + b =? 0 then (if vs then val * 100 else val, vs)
                  else ((if vs then val * 100 else val) + (hi4 (16 * a + b) * 10 + lo4 (16 * a + b)), true))
                 = (10 * (10 * val + a) + b, if 16 * a + b =? 0 then vs else true)).
    { unfold is_dig, hi4, lo4 in *. destruct vs.
      - destruct (Z.eqb_spec (16 * a + b) 0); f_equal; lia.
      - rewrite (Hv eq_refl). destruct (Z.eqb_spec (16 * a + b) 0); f_equal; lia. }
    rewrite EV.
    destruct (IHn r (10 * (10 * val + a) + b) (if 16 * a + b =? 0 then vs else true) s g)
      as (vs' & E & F); auto; try lia.
    { intros. destruct (Z.eqb_spec (16 * a + b) 0); [|discriminate]. specialize (Hv H0).
      unfold is_dig in *. lia. }
    exists vs'. rewrite E.
    replace (2 * S n)%nat with (S (S (2 * n))) by lia. cbn [firstn digits_value_aux nth]. auto.
Qed.

Lemma digits_value_last : forall n ds, length ds = (2 * n + 1)%nat ->
  digits_value_aux 0 (firstn (2 * n) ds) * 10 + nth (2 * n) ds 0 = digits_value ds.
Proof.
  intros n ds H. rewrite <- (firstn_skipn (2 * n) ds) at 3.
  assert (E : skipn (2 * n) ds = [nth (2 * n) ds 0]).
  { assert (length (skipn (2 * n) ds) = 1%nat) by (rewrite skipn_length; lia).
    rewrite <- (firstn_skipn (2 * n) ds) at 2. rewrite app_nth2; rewrite firstn_length_le by lia; [|lia].
    rewrite Nat.sub_diag. destruct (skipn (2 * n) ds) as [|x [|? ?]]; simpl in H0; try lia. reflexivity. }
  rewrite E, digits_value_snoc. unfold digits_value. lia.
Qed.

Lemma odd_half : forall n, Nat.even n = false -> exists k, n = (2 * k + 1)%nat.
Proof.
  intros. exists (Nat.div2 n). pose proof (Nat.div2_odd n). unfold Nat.odd in H0. rewrite H in H0.
  simpl negb in H0. simpl Nat.b2n in H0. lia.
Qed.
Lemma even_half : forall n, Nat.even n = true -> exists k, n = (2 * k)%nat.
Proof.
  intros. exists (Nat.div2 n). pose proof (Nat.div2_odd n). unfold Nat.odd in H0. rewrite H in H0.
  simpl negb in H0. simpl Nat.b2n in H0. lia.
Qed.

Lemma even_2k : forall k, Nat.even (2 * k) = true.
Proof. intros. apply Nat.even_spec. exists k. lia. Qed.
Lemma even_2k1 : forall k, Nat.even (2 * k + 1) = false.
Proof. intros. rewrite <- Nat.negb_odd. apply Bool.negb_false_iff, Nat.odd_spec. exists k. lia. Qed.

Lemma sign_nib_ok : forall sg neg, is_nib (packed_sign_nibble sg neg).
Proof. intros. destruct sg, neg; unfold is_nib; simpl; lia. Qed.

Lemma land_15 : forall b, is_byte b -> Z.land b 15 = lo4 b.
Proof.
  intros b H. apply (byte_check (fun b => Z.land b 15 =? lo4 b)) in H; [lia|]. vm_compute. reflexivity.
Qed.
Lemma land_240 : forall b, is_byte b -> Z.land b 240 = 16 * hi4 b.
Proof.
  intros b H. apply (byte_check (fun b => Z.land b 240 =? 16 * hi4 b)) in H; [lia|]. vm_compute. reflexivity.
Qed.
Lemma lor_nib : forall h x, 0 <= h < 16 -> 0 <= x < 16 -> Z.lor (16 * h) x = 16 * h + x.
Proof.
  intros h x H H0. apply (nib_check2 (fun h x => Z.lor (16 * h) x =? 16 * h + x)) with (b := x) in H; [lia| |assumption].
  vm_compute. reflexivity.
Qed.

Definition packed_nibs (a : fattr) (neg : bool) (ds : list Z) : list Z :=
  (if Nat.even (length ds) then [0] else []) ++ ds ++ [packed_sign_nibble (a_sign a) neg].

Lemma packed_eq : forall a neg ds, packed a neg ds = pack_nibbles (packed_nibs a neg ds).
Proof. reflexivity. Qed.

Lemma packed_nibs_len : forall a neg ds, Nat.even (length (packed_nibs a neg ds)) = true /\
  (length (packed_nibs a neg ds) / 2 = length ds / 2 + 1)%nat.
Proof.
  intros. unfold packed_nibs. rewrite !app_length. cbn [length].
  destruct (Nat.even (length ds)) eqn:E.
  - destruct (even_half _ E) as (k & Hk). rewrite Hk. cbn [length].
    replace (1 + (2 * k + 1))%nat with (2 * (k + 1))%nat by lia. split; [apply even_2k|].
    rewrite !(Nat.mul_comm 2), !Nat.div_mul by lia. lia.
  - destruct (odd_half _ E) as (k & Hk). rewrite Hk. cbn [length].
    replace (0 + (2 * k + 1 + 1))%nat with (2 * (k + 1))%nat by lia. split; [apply even_2k|].
    rewrite (Nat.mul_comm 2 (k + 1)), Nat.div_mul by lia.
    replace (2 * k + 1)%nat with (1 + k * 2)%nat by lia. rewrite Nat.div_add by lia. simpl. lia.
Qed.

Lemma packed_nibs_nib : forall a neg ds, Forall is_dig ds -> Forall is_nib (packed_nibs a neg ds).
Proof.
  intros. unfold packed_nibs. apply Forall_app; split.
  - destruct (Nat.even (length ds)); constructor; unfold is_nib; try lia; constructor.
  - apply Forall_app; split.
    + eapply Forall_impl; [|exact H]. unfold is_dig, is_nib; intros; cbv beta in *; lia.
    + constructor; [apply sign_nib_ok|constructor].
Qed.

Lemma packed_length : forall a neg ds, length (packed a neg ds) = (length ds / 2 + 1)%nat.
Proof. intros. rewrite packed_eq, pack_length. apply packed_nibs_len. Qed.

Lemma packed_bytes : forall a neg ds, Forall is_dig ds -> bytes_ok (packed a neg ds).
Proof. intros. rewrite packed_eq. now apply pack_bytes, packed_nibs_nib. Qed.

Lemma packed_unpack : forall a neg ds, Forall is_dig ds -> unpack (packed a neg ds) = packed_nibs a neg ds.
Proof.
  intros. rewrite packed_eq. apply unpack_pack; [now apply packed_nibs_nib|apply packed_nibs_len].
Qed.

Lemma last_nibble : forall a neg ds, Forall is_dig ds ->
  lo4 (nth (length (packed a neg ds) - 1) (packed a neg ds) 0) = packed_sign_nibble (a_sign a) neg.
Proof.
  intros. rewrite <- nth_unpack_lo, packed_unpack by auto.
  assert (EL : (2 * (length (packed a neg ds) - 1) + 1 = length (packed_nibs a neg ds) - 1)%nat).
  { pose proof (packed_nibs_len a neg ds) as [E1 E2]. rewrite packed_eq, pack_length.
    destruct (even_half _ E1) as (k & Hk). rewrite Hk in *. rewrite (Nat.mul_comm 2 k), Nat.div_mul in * by lia.
    assert (1 <= k)%nat by lia. lia. }
  rewrite EL. unfold packed_nibs. rewrite app_assoc.
  set (l := (if Nat.even (length ds) then [0] else []) ++ ds).
  rewrite app_length. cbn [length]. replace (length l + 1 - 1)%nat with (length l) by lia.
  apply nth_snoc.
Qed.

Theorem packed_get_sign_spec : forall a neg ds, Forall is_dig ds ->
  packed_get_sign (mkField a (packed a neg ds)) =
  if a_sign a then (if neg then -1 else 1) else 0.
Proof.
  intros a neg ds Hd. unfold packed_get_sign, f_size. cbn [fa fd].
  destruct (a_sign a) eqn:Es; cbn [negb]; auto.
  rewrite land_15.
  - rewrite last_nibble, Es by auto. destruct neg; reflexivity.
  - apply Forall_nth_Z; [now apply packed_bytes|]. rewrite packed_length. lia.
Qed.

Theorem set_packed_spec : forall a neg ds,
  ds <> [] -> Forall is_dig ds -> a_digits a = Z.of_nat (length ds) ->
  (a_sign a = false -> neg = false) ->
  set_packed (mkField a (packed a neg ds)) = Ok (mkDec (signed_value neg ds) (a_scale a)).
Proof.
  intros a neg ds Hne Hd HD Hn. unfold set_packed. rewrite packed_get_sign_spec by auto.
  unfold f_size. cbn [fa fd]. rewrite packed_length.
  assert (ED : a_digits a / 2 = Z.of_nat (length ds / 2)) by (rewrite HD, Nat2Z.inj_div; reflexivity).
  destruct (Z.ltb_spec (Z.of_nat (length ds / 2 + 1)) (a_digits a / 2 + 1)); [lia|].
  assert (SG : ((if a_sign a then if neg then -1 else 1 else 0) <? 0) = neg).
  { destruct (a_sign a) eqn:Es; [destruct neg; reflexivity|]. rewrite Hn; auto. }
  cbv zeta. rewrite SG. unfold signed_value.
  assert (ET : a_digits a mod 2 = if Nat.even (length ds) then 0 else 1).
  { rewrite HD. destruct (Nat.even (length ds)) eqn:E.
    - destruct (even_half _ E). lia.
    - destruct (odd_half _ E). lia. }
  rewrite ET. clear ED ET.
  set (s := packed_sign_nibble (a_sign a) neg).
  assert (Hs : is_nib s) by apply sign_nib_ok.
  destruct (Nat.even (length ds)) eqn:E; cbn [Z.eqb].
  - destruct (even_half _ E) as (k & Hk). destruct ds as [|d r]; [congruence|].
    cbn [length] in Hk. inversion Hd as [|? ? Hd1 Hd2]; subst.
    assert (HP : packed a neg (d :: r) = (16 * 0 + d) :: pack_nibbles (r ++ [s])).
    { unfold packed. rewrite E. reflexivity. }
    rewrite HP. cbn [nth tl]. replace (lo4 (16 * 0 + d)) with d by (unfold lo4, is_dig in *; lia).
    assert (Hr : exists j, length r = (2 * j + 1)%nat) by (exists (k - 1)%nat; lia).
    destruct Hr as (j & Hj).
    assert (Edig : a_digits a - 1 = Z.of_nat (2 * j + 1)) by (rewrite HD; cbn [length]; lia).
    rewrite Edig.
    assert (Fu : (j <= length (d :: r) / 2 + 1)%nat).
    { cbn [length]. rewrite Hj. replace (S (2 * j + 1)) with ((j + 1) * 2)%nat by lia.
      rewrite Nat.div_mul by lia. lia. }
    assert (VV : forall x, x = digits_value_aux d (firstn (2 * j) r) ->
                 x * 10 + nth (2 * j) r 0 = digits_value (d :: r)).
    { intros x ->. rewrite digits_value_cons.
      rewrite digits_value_aux_lin. pose proof (digits_value_last j r Hj) as L.
      fold (digits_value (firstn (2*j) r)) in L.
      rewrite firstn_length_le by lia. rewrite Hj.
      rewrite Nat.add_1_r, pow10_S. lia. }
    assert (HL4 : hi4 (nth 0 [16 * nth (2 * j) r 0 + s] 0) = nth (2 * j) r 0).
    { cbn [nth]. unfold hi4, is_nib in *. assert (is_dig (nth (2 * j) r 0)) by (apply Forall_nth_Z; auto; lia).
      unfold is_dig in *. lia. }
    destruct (a_digits a <? 10).
    + rewrite set_packed_loop_spec by auto. rewrite HL4.
      f_equal. f_equal. destruct neg.
      * f_equal. rewrite <- (VV _ eq_refl). destruct (Z.eqb_spec (digits_value_aux d (firstn (2 * j) r)) 0) as [->|]; lia.
      * rewrite <- (VV _ eq_refl). destruct (Z.eqb_spec (digits_value_aux d (firstn (2 * j) r)) 0) as [->|]; lia.
    + destruct (set_packed_loop_mpz_spec j r d (negb (d =? 0)) s (length (d :: r) / 2 + 1)) as (vs & EE & FF); auto.
      { intros. lia. }
      rewrite EE, HL4. f_equal. f_equal.
      assert (XX : (if vs then digits_value_aux d (firstn (2 * j) r) * 10 else digits_value_aux d (firstn (2 * j) r)) +
        nth (2 * j) r 0 = digits_value (d :: r)).
      { rewrite <- (VV _ eq_refl). destruct vs; [lia|]. rewrite FF by auto. lia. }
      rewrite XX. reflexivity.
  - destruct (odd_half _ E) as (j & Hj).
    assert (HP : packed a neg ds = pack_nibbles (ds ++ [s])).
    { unfold packed. rewrite E. reflexivity. }
    rewrite HP, HD, Hj.
    assert (Fu : (j <= (2 * j + 1) / 2 + 1)%nat).
    { replace (2 * j + 1)%nat with (1 + j * 2)%nat by lia. rewrite Nat.div_add by lia. simpl. lia. }
    pose proof (digits_value_last j ds Hj) as VV.
    assert (HL4 : hi4 (nth 0 [16 * nth (2 * j) ds 0 + s] 0) = nth (2 * j) ds 0).
    { cbn [nth]. unfold hi4, is_nib in *. assert (is_dig (nth (2 * j) ds 0)) by (apply Forall_nth_Z; auto; lia).
      unfold is_dig in *. lia. }
    destruct (Z.of_nat (2 * j + 1) <? 10).
    + rewrite set_packed_loop_spec by auto. rewrite HL4. f_equal. f_equal. rewrite <- VV.
      destruct (Z.eqb_spec (digits_value_aux 0 (firstn (2 * j) ds)) 0) as [->|]; destruct neg; lia.
    + destruct (set_packed_loop_mpz_spec j ds 0 false s ((2 * j + 1) / 2 + 1)) as (vs & EE & FF); auto.
      cbn [negb]. rewrite EE, HL4. f_equal. f_equal. rewrite <- VV.
      destruct vs; [reflexivity|]. rewrite FF by auto. destruct neg; lia.
Qed.

(** ** Store *)

Lemma upd_split : forall l k v, (k < length l)%nat -> upd k v l = firstn k l ++ v :: skipn (S k) l.
Proof.
  induction l; intros k v H; [simpl in H; lia|].
  destruct k; [reflexivity|]. cbn [upd firstn skipn app]. rewrite IHl; auto. simpl in H; lia.
Qed.

Lemma firstn_upd : forall l k v, (k < length l)%nat -> firstn (S k) (upd k v l) = firstn k l ++ [v].
Proof.
  intros. rewrite upd_split by auto.
  rewrite firstn_app, firstn_length_le by lia. replace (S k - k)%nat with 1%nat by lia.
  rewrite firstn_firstn. replace (Nat.min (S k) k) with k by lia. reflexivity.
Qed.

Lemma skipn_upd : forall l k j v, (k < j)%nat -> skipn j (upd k v l) = skipn j l.
Proof.
  induction l; intros k j v H; auto. destruct j; [lia|]. destruct k; auto.
  cbn [upd skipn]. apply IHl. lia.
Qed.

Lemma upd_same : forall l k v, nth k l 0 = v -> upd k v l = l.
Proof. intros. subst. apply upd_id. Qed.

Lemma put_nibbles_spec : forall q i p d k,
  bytes_ok d -> digits_ok q -> (k + length q <= 2 * length d)%nat ->
  k = (2 * p + if Nat.even i then 0 else 1)%nat ->
  (forall j, (k <= j)%nat -> nth j (unpack d) 0 = 0) ->
  unpack (put_nibbles i p q d) =
    firstn k (unpack d) ++ map (fun c => c - 48) q ++ skipn (k + length q) (unpack d) /\
  bytes_ok (put_nibbles i p q d).
Proof.
  induction q as [|c q IH]; intros i p d k Hb Hq HL Hk Hz.
  - cbn [put_nibbles map length app]. rewrite Nat.add_0_r, firstn_skipn. auto.
  - inversion Hq as [|? ? Hc Hq']; subst.
    set (k := (2 * p + if Nat.even i then 0 else 1)%nat) in *.
    cbn [length] in HL.
    assert (Hx : 0 <= c - 48 <= 9) by (unfold is_digit in Hc; lia).
    assert (Hp : (p < length d)%nat) by (subst k; destruct (Nat.even i); lia).
    assert (Hbp : is_byte (nth p d 0)) by (apply Forall_nth_Z; auto).
    (* one step *)
    assert (STEP : forall d' i' p', d' = upd p (16 * (if Nat.even i then (c - 48) else hi4 (nth p d 0)) +
              (if Nat.even i then 0 else c - 48)) d ->
       i' = S i -> p' = (if Nat.even i then p else S p) ->
       unpack d' = upd k (c - 48) (unpack d) /\ bytes_ok d' /\
       S k = (2 * p' + if Nat.even i' then 0 else 1)%nat).
    { intros d' i' p' -> -> ->. repeat split.
      - rewrite unpack_upd. subst k. destruct (Nat.even i).
        + rewrite Nat.add_0_r.
          replace (hi4 (16 * (c - 48) + 0)) with (c - 48) by (unfold hi4; lia).
          replace (lo4 (16 * (c - 48) + 0)) with 0 by (unfold lo4; lia).
          f_equal. apply upd_same. apply Hz. lia.
        + replace (hi4 (16 * hi4 (nth p d 0) + (c - 48))) with (hi4 (nth p d 0)) by (unfold hi4; lia).
          replace (lo4 (16 * hi4 (nth p d 0) + (c - 48))) with (c - 48) by (unfold lo4; lia).
          apply upd_same. rewrite upd_nth_other by lia. apply nth_unpack_hi.
      - apply Forall_upd; auto. unfold is_byte, hi4 in *. destruct (Nat.even i); lia.
      - subst k. rewrite Nat.even_succ, <- Nat.negb_even. destruct (Nat.even i); cbn [negb]; lia. }
    cbn [put_nibbles].
    set (d1 := upd p (16 * (if Nat.even i then (c - 48) else hi4 (nth p d 0)) +
              (if Nat.even i then 0 else c - 48)) d).
    set (p1 := if Nat.even i then p else S p).
    assert (EQ : (if Nat.even i
       then put_nibbles (S i) p q (upd p (u8 (16 * (c - 48))) d)
       else put_nibbles (S i) (S p) q (upd p (Z.lor (nth p d 0) (c - 48)) d)) =
       put_nibbles (S i) p1 q d1).
    { subst d1 p1. destruct (Nat.even i) eqn:Ei.
      - f_equal. f_equal. unfold u8. rewrite Z.mod_small by lia. lia.
      - f_equal. f_equal.
        assert (L0 : lo4 (nth p d 0) = 0).
        { rewrite <- nth_unpack_lo. apply Hz. subst k. lia. }
        assert (Eb : nth p d 0 = 16 * hi4 (nth p d 0)) by (unfold hi4, lo4 in *; lia).
        rewrite Eb at 1. apply lor_nib; unfold hi4, is_byte in *; lia. }
    rewrite EQ.
    destruct (STEP d1 (S i) p1 eq_refl eq_refl eq_refl) as (U1 & B1 & K1).
    destruct (IH (S i) p1 d1 (S k)) as (U2 & B2); auto.
    { assert (length d1 = length d) by (subst d1; apply upd_length). lia. }
    { intros j Hj. rewrite U1, upd_nth_other by lia. apply Hz. lia. }
    split; auto. rewrite U2, U1.
    rewrite firstn_upd by (rewrite unpack_length; lia).
    rewrite <- app_assoc. cbn [app map length]. f_equal. f_equal.
    rewrite skipn_upd by lia. f_equal. f_equal. lia.
Qed.

Lemma map_sub48 : forall ds, map (fun c => c - 48) (map digit_char ds) = ds.
Proof.
  intros. rewrite map_map. rewrite <- (map_id ds) at 2. apply map_ext. intros. unfold digit_char. lia.
Qed.

Lemma unpack_repeat0 : forall n, unpack (repeat 0 n) = repeat 0 (2 * n).
Proof.
  induction n; auto. replace (2 * S n)%nat with (S (S (2 * n))) by lia.
  cbn [repeat unpack]. rewrite IHn. reflexivity.
Qed.

Lemma repeat_bytes0 : forall n, bytes_ok (repeat 0 n).
Proof. intros. apply Forall_forall. intros x Hx. apply repeat_spec in Hx. subst. unfold is_byte; lia. Qed.

Lemma nth_repeat0 : forall n j, nth j (repeat 0 n) 0 = 0.
Proof. induction n; destruct j; cbn [repeat nth]; auto. Qed.

Definition packed_of (f : field) (D : nat) (v : Z) : field :=
  mkField (fa f) (packed (fa f) (v <? 0) (low_digits D (Z.abs v))).

Lemma repeat_split : forall n k, (k <= n)%nat -> repeat 0 n = repeat 0 k ++ repeat 0 (n - k).
Proof. intros. rewrite <- repeat_app. f_equal. lia. Qed.

Theorem get_packed_spec : forall v f o D, wf_packed f D ->
  Z.abs v < NUM_LIMIT ->
  get_packed v f o =
    Ok (if Z.abs v <? 10 ^ Z.of_nat D then mkStored false false (packed_of f D v)
        else if o_keep o then mkStored true true f
        else mkStored false true (packed_of f D v)).
Proof.
  intros v f o D (Ht & HD & HD1 & HS) Hb.
  unfold get_packed. rewrite num_buff_ok by lia. cbn [obind].
  rewrite fixed_length, HD, Nat2Z.id, HS.
  rewrite Nat.ltb_irrefl.
  set (nd := ndigits (Z.abs v)).
  pose proof (ndigits_spec (Z.abs v) ltac:(lia)) as (N1 & N2 & N3). fold nd in N1, N2, N3.
  (* the digits that are actually stored, padded with zeros *)
  set (size := if (D <? nd)%nat then D else nd).
  set (q := if (D <? nd)%nat then skipn (nd - D) (fixed nd (Z.abs v)) else fixed nd (Z.abs v)).
  assert (Hsz : (1 <= size <= D)%nat).
  { subst size. destruct (Nat.ltb_spec D nd); lia. }
  assert (Hq : q = map digit_char (low_digits size (Z.abs v))).
  { subst q size. destruct (Nat.ltb_spec D nd).
    - rewrite fixed_low, skipn_map. f_equal.
      replace nd with ((nd - D) + D)%nat at 2 by lia. apply skipn_low_digits.
    - apply fixed_low. }
  assert (HPAD : repeat 0 (D - size) ++ low_digits size (Z.abs v) = low_digits D (Z.abs v)).
  { subst size. destruct (Nat.ltb_spec D nd).
    - rewrite Nat.sub_diag. reflexivity.
    - replace D with ((D - nd) + nd)%nat at 2 by lia. rewrite low_digits_pad; auto. lia. }
  assert (STORE : put_packed_sign (set_fd f (put_nibbles (1 - size mod 2) (D / 2 - size / 2) q
                    (repeat 0 (D / 2 + 1)))) (Z.sgn v) = packed_of f D v).
  { set (k := (2 * (D / 2 - size / 2) + if Nat.even (1 - size mod 2) then 0 else 1)%nat).
    assert (Kval : (k + size = 2 * (D / 2) + 1)%nat).
    { subst k. assert (Hd2 : (size / 2 <= D / 2)%nat) by (apply Nat.div_le_mono; lia).
      pose proof (Nat.div_mod size 2 ltac:(lia)) as DM.
      pose proof (Nat.mod_upper_bound size 2 ltac:(lia)) as MB.
      assert (MC : (size mod 2 = 0 \/ size mod 2 = 1)%nat) by lia.
      destruct MC as [MC|MC]; rewrite MC in *; cbn [Nat.sub Nat.even]; lia. }
    destruct (put_nibbles_spec q (1 - size mod 2) (D / 2 - size / 2) (repeat 0 (D / 2 + 1)) k) as (U & B).
    - apply repeat_bytes0.
    - rewrite Hq. apply map_digit_char_ok, low_digits_dig.
    - rewrite repeat_length, Hq, map_length, low_digits_length. lia.
    - reflexivity.
    - intros. rewrite unpack_repeat0. apply nth_repeat0.
    - set (d := put_nibbles (1 - size mod 2) (D / 2 - size / 2) q (repeat 0 (D / 2 + 1))) in *.
      rewrite unpack_repeat0, Hq, map_sub48, map_length, low_digits_length, Kval in U.
      replace (2 * (D / 2 + 1))%nat with (2 * (D / 2) + 1 + 1)%nat in U by lia.
      rewrite (repeat_app 0 (2 * (D/2) + 1) 1) in U.
      rewrite skipn_app, repeat_length, Nat.sub_diag, skipn_all2 in U by (rewrite repeat_length; lia).
      cbn [skipn repeat app] in U.
      rewrite <- (repeat_app 0 (2 * (D/2) + 1) 1) in U || idtac.
      assert (UF : unpack d = (if Nat.even D then [0] else []) ++ low_digits D (Z.abs v) ++ [0]).
      { rewrite U. rewrite firstn_app, repeat_length.
        replace (k - (2 * (D / 2) + 1))%nat with 0%nat by lia. cbn [firstn]. rewrite app_nil_r.
        rewrite <- HPAD.
        assert (FK : firstn k (repeat 0 (2 * (D / 2) + 1)) = repeat 0 k).
        { rewrite (repeat_split _ k) by lia. rewrite firstn_app, repeat_length, Nat.sub_diag.
          rewrite firstn_all2 by (rewrite repeat_length; lia). simpl. apply app_nil_r. }
        rewrite FK. rewrite !app_assoc. f_equal. f_equal.
        destruct (Nat.even D) eqn:Ev.
        - destruct (even_half _ Ev) as (j & Hj). rewrite Hj in Kval.
          rewrite (Nat.mul_comm 2 j), Nat.div_mul in Kval by lia.
          replace k with (1 + (D - size))%nat by lia. rewrite repeat_app. reflexivity.
        - destruct (odd_half _ Ev) as (j & Hj).
          assert (D / 2 = j)%nat. { rewrite Hj. replace (2 * j + 1)%nat with (1 + j * 2)%nat by lia.
            rewrite Nat.div_add by lia. reflexivity. }
          replace k with (D - size)%nat by lia. reflexivity. }
      assert (DL : length d = (D / 2 + 1)%nat).
      { assert (length (unpack d) = (2 * (D / 2) + 2)%nat).
        { rewrite U, !app_length, low_digits_length. cbn [length].
          rewrite firstn_length_le by (rewrite app_length, repeat_length; cbn [length repeat]; lia). lia. }
        rewrite unpack_length in H. lia. }
      unfold put_packed_sign, packed_of. cbn [set_fd fa fd]. unfold f_size. cbn [set_fd fd]. rewrite DL.
      replace (D / 2 + 1 - 1)%nat with (D / 2)%nat by lia.
      assert (BB : is_byte (nth (D / 2) d 0)) by (apply Forall_nth_Z; auto; lia).
      rewrite land_240 by auto.
      set (sn := if negb (a_sign (fa f)) then 15 else if Z.sgn v <? 0 then 13 else 12).
      assert (SN : sn = packed_sign_nibble (a_sign (fa f)) (v <? 0)).
      { subst sn. unfold packed_sign_nibble. rewrite sgn_neg. destruct (a_sign (fa f)), (v <? 0); reflexivity. }
      assert (Hsn : 0 <= sn < 16) by (rewrite SN; apply sign_nib_ok).
      rewrite lor_nib by (unfold hi4, is_byte in *; lia).
      unfold set_fd. cbn [fa]. f_equal.
      rewrite <- (pack_unpack (upd _ _ _)). unfold packed. f_equal.
      rewrite low_digits_length, unpack_upd.
      replace (hi4 (16 * hi4 (nth (D / 2) d 0) + sn)) with (hi4 (nth (D / 2) d 0)) by (unfold hi4; lia).
      replace (lo4 (16 * hi4 (nth (D / 2) d 0) + sn)) with sn by (unfold lo4; lia).
      rewrite upd_same by (rewrite upd_nth_other by lia; apply nth_unpack_hi).
      rewrite UF, <- SN. rewrite !app_assoc.
      set (pre := (if Nat.even D then [0] else []) ++ low_digits D (Z.abs v)).
      assert (PL : length pre = (2 * (D / 2) + 1)%nat).
      { assert (length (unpack d) = S (length pre)).
        { rewrite UF, !app_assoc. fold pre. rewrite app_length. simpl. lia. }
        rewrite unpack_length, DL in H. lia. }
      rewrite <- PL. apply upd_snoc. }
  destruct (Nat.ltb_spec D nd) as [L|L].
  - cbn [andb]. destruct (Z.ltb_spec (Z.abs v) (10 ^ Z.of_nat D)) as [X|X].
    + pose proof (ndigits_le (Z.abs v) D ltac:(lia) HD1). fold nd in H. lia.
    + destruct (o_keep o); auto. cbn [fst]. rewrite STORE. reflexivity.
  - cbn [andb]. destruct (Z.ltb_spec (Z.abs v) (10 ^ Z.of_nat D)) as [X|X].
    + rewrite STORE. reflexivity.
    + pose proof (ndigits_gt (Z.abs v) D ltac:(lia) X). fold nd in H. lia.
Qed.
