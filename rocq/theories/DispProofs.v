(** Proofs about the sign and about DISPLAY items (proof file). *)
From Verif Require Import Base BaseFacts Field Sign Decimal SpecNum Numeric SpecStore NumFacts.

Lemma dig_cases : forall d, is_dig d ->
  d = 0 \/ d = 1 \/ d = 2 \/ d = 3 \/ d = 4 \/ d = 5 \/ d = 6 \/ d = 7 \/ d = 8 \/ d = 9.
Proof. unfold is_dig; intros; lia. Qed.

Ltac dig d H :=
  let E := fresh in
  pose proof (dig_cases d H) as E;
  repeat (destruct E as [E|E]); subst d.

(** What reading does to the byte carrying an embedded sign. *)
Definition get_byte (ebc : bool) (c : Z) : Z * Z :=
  if is_digitb c then (1, c)
  else if c =? c_sp then (1, c_0)
  else if ebc then get_sign_ebcdic c
  else (-1, u8 (c - 64)).
Definition put_byte (ebc : bool) (c s : Z) : Z :=
  if ebc then put_sign_ebcdic c s else if s <? 0 then u8 (c + 64) else c.

Lemma get_byte_overpunch : forall ebc neg d, is_dig d ->
  get_byte ebc (overpunch ebc neg d) = ((if neg then -1 else 1), digit_char d).
Proof. intros. dig d H; destruct ebc, neg; reflexivity. Qed.

Lemma put_byte_digit : forall ebc d s, is_dig d ->
  put_byte ebc (digit_char d) s = overpunch ebc (s <? 0) d.
Proof.
  intros. unfold put_byte, put_sign_ebcdic. destruct (s <? 0); dig d H; destruct ebc; reflexivity.
Qed.

Lemma overpunch_byte : forall ebc neg d, is_dig d ->
  overpunch ebc neg d <> 0 /\ overpunch ebc neg d <> 255.
Proof. intros. dig d H; destruct ebc, neg; split; discriminate. Qed.

Lemma real_get_sign_emb : forall m f, a_type (fa f) = TDisplay -> a_sep (fa f) = false ->
  real_get_sign m f =
  (fst (get_byte (c_ebcdic m) (nth (sign_pos f) (fd f) 0)),
   set_fd f (upd (sign_pos f) (snd (get_byte (c_ebcdic m) (nth (sign_pos f) (fd f) 0))) (fd f))).
Proof.
  intros m f Ht Hs. unfold real_get_sign, get_byte. rewrite Ht, Hs.
  set (c := nth (sign_pos f) (fd f) 0).
  destruct (is_digitb c).
  - cbn [fst snd]. subst c. rewrite upd_id. destruct f; reflexivity.
  - destruct (c =? c_sp); [reflexivity|].
    destruct (c_ebcdic m); [|reflexivity]. destruct (get_sign_ebcdic c); reflexivity.
Qed.

Lemma real_put_sign_emb : forall m f s, a_type (fa f) = TDisplay -> a_sep (fa f) = false ->
  real_put_sign m f s =
  set_fd f (upd (sign_pos f) (put_byte (c_ebcdic m) (nth (sign_pos f) (fd f) 0) s) (fd f)).
Proof.
  intros m f s Ht Hs. unfold real_put_sign, put_byte. rewrite Ht, Hs.
  destruct (c_ebcdic m); auto. destruct (s <? 0); auto.
  rewrite upd_id. destruct f; reflexivity.
Qed.

Lemma upd_snoc : forall l x v, upd (length l) v (l ++ [x]) = l ++ [v].
Proof. intros. rewrite <- (Nat.add_0_r (length l)). now rewrite upd_app_r. Qed.

Lemma nth_snoc : forall (l : list Z) x d, nth (length l) (l ++ [x]) d = x.
Proof. intros. rewrite app_nth2, Nat.sub_diag by lia. reflexivity. Qed.

Lemma removelast_snoc : forall (l : list Z) x, removelast (l ++ [x]) = l.
Proof. intros. rewrite removelast_app by discriminate. simpl. apply app_nil_r. Qed.

Lemma last_snoc : forall (l : list Z) x d, last (l ++ [x]) d = x.
Proof. intros. apply last_last. Qed.

Lemma nonempty_snoc : forall (l : list Z), l <> [] -> exists r x, l = r ++ [x].
Proof. intros. destruct (exists_last H) as (r & x & E). eauto. Qed.

Lemma firstn_all_app : forall (l r : list Z), firstn (length l) (l ++ r) = l.
Proof. intros. rewrite firstn_app, Nat.sub_diag, firstn_all. simpl. apply app_nil_r. Qed.

(** Bytes of a DISPLAY item in which an embedded sign has been removed. *)
Definition plain (a : fattr) (neg : bool) (ds : list Z) : list Z :=
  if a_sign a && a_sep a then zoned false a neg ds else map digit_char ds.

Definition sgn_of (neg : bool) : Z := if neg then -1 else 1.
Lemma sgn_of_neg : forall neg, (sgn_of neg <? 0) = neg.
Proof. destruct neg; reflexivity. Qed.

Lemma get_sign_zoned : forall m a neg ds,
  a_type a = TDisplay -> ds <> [] -> Forall is_dig ds -> a_sign a = true ->
  get_sign m (mkField a (zoned (c_ebcdic m) a neg ds)) =
    (sgn_of neg, mkField a (plain a neg ds)).
Proof.
  intros m a neg ds Ht Hne Hd Hs. unfold get_sign, plain. cbn [fa]. rewrite Hs.
  destruct (a_sep a) eqn:Hsep.
  - unfold real_get_sign, zoned, sign_pos, f_size. cbn [fa fd]. rewrite Ht, Hs, Hsep. cbn [negb andb].
    destruct (a_lead a) eqn:Hl.
    + cbn [nth]. destruct neg; reflexivity.
    + rewrite app_length. cbn [length]. replace (length (map digit_char ds) + 1 - 1)%nat
        with (length (map digit_char ds)) by lia. rewrite nth_snoc. destruct neg; reflexivity.
  - rewrite real_get_sign_emb by auto. unfold sign_pos, f_size, zoned. cbn [fa fd andb].
    rewrite Hs, Hsep. cbn [negb].
    destruct (a_lead a) eqn:Hl.
    + destruct ds as [|d r]; [congruence|]. inversion Hd; subst. cbn [nth].
      rewrite get_byte_overpunch by auto. reflexivity.
    + destruct (nonempty_snoc ds Hne) as (r & d & E). subst ds.
      rewrite removelast_snoc, last_snoc, app_length. cbn [length].
      replace (length (map digit_char r) + 1 - 1)%nat with (length (map digit_char r)) by lia.
      rewrite nth_snoc, upd_snoc. apply Forall_app in Hd. destruct Hd as [_ Hd]. inversion Hd; subst.
      rewrite get_byte_overpunch by auto. cbn [fst snd]. unfold set_fd. cbn [fa].
      rewrite map_app. reflexivity.
Qed.

Lemma put_sign_plain_gen : forall m a s neg ds,
  a_type a = TDisplay -> ds <> [] -> Forall is_dig ds -> a_sign a = true ->
  put_sign m (mkField a (plain a neg ds)) s = mkField a (zoned (c_ebcdic m) a (s <? 0) ds).
Proof.
  intros m a s neg ds Ht Hne Hd Hs. unfold put_sign, plain. cbn [fa]. rewrite Hs.
  destruct (a_sep a) eqn:Hsep; cbn [andb].
  - unfold real_put_sign, zoned, sign_pos, f_size. cbn [fa fd]. rewrite Ht, Hs, Hsep. cbn [negb].
    destruct (a_lead a) eqn:Hl.
    + cbn [nth upd]. unfold set_fd, sign_char, c_minus, c_plus. cbn [fa].
      destruct (s <? 0); reflexivity.
    + rewrite app_length. cbn [length]. replace (length (map digit_char ds) + 1 - 1)%nat
        with (length (map digit_char ds)) by lia. rewrite upd_snoc.
      unfold set_fd, sign_char, c_minus, c_plus. cbn [fa]. reflexivity.
  - rewrite real_put_sign_emb by auto. unfold sign_pos, f_size, zoned. cbn [fa fd].
    rewrite Hs, Hsep. cbn [negb].
    destruct (a_lead a) eqn:Hl.
    + destruct ds as [|d r]; [congruence|]. inversion Hd; subst. cbn [nth map upd].
      rewrite put_byte_digit by auto. reflexivity.
    + destruct (nonempty_snoc ds Hne) as (r & d & E). subst ds.
      apply Forall_app in Hd. destruct Hd as [_ Hd]. inversion Hd; subst.
      rewrite removelast_snoc, last_snoc, map_app. cbn [map]. rewrite app_length. cbn [length].
      replace (length (map digit_char r) + 1 - 1)%nat with (length (map digit_char r)) by lia.
      rewrite nth_snoc, upd_snoc, put_byte_digit by auto. reflexivity.
Qed.

Lemma data_digits_plain : forall a neg ds, a_sign a = true \/ a_sep a = false ->
  data_digits (mkField a (plain a neg ds)) = map digit_char ds.
Proof.
  intros a neg ds H. unfold data_digits, data_size, f_size, data_off, plain, zoned. cbn [fa fd].
  destruct (a_sep a) eqn:Hsep; cbn [andb].
  - destruct H as [H|H]; [|congruence]. rewrite H. cbn [negb andb].
    destruct (a_lead a) eqn:Hl; cbn [skipn length].
    + replace (S (length (map digit_char ds)) - 1)%nat with (length (map digit_char ds)) by lia.
      apply firstn_all.
    + rewrite app_length. cbn [length].
      replace (length (map digit_char ds) + 1 - 1)%nat with (length (map digit_char ds)) by lia.
      apply firstn_all_app.
  - rewrite Bool.andb_false_r. cbn [skipn]. rewrite Nat.sub_0_r. apply firstn_all.
Qed.

(** An unsigned item never has the SEPARATE flag in a compiled program. *)
Lemma zoned_length : forall e a neg ds, attr_ok a -> ds <> [] ->
  length (zoned e a neg ds) = (length ds + if a_sep a then 1 else 0)%nat.
Proof.
  intros e a neg ds Ha Hne. unfold zoned, attr_ok in *.
  destruct (a_sign a) eqn:Hs; cbn [negb].
  - destruct (a_sep a).
    + destruct (a_lead a); cbn [length]; try rewrite app_length; rewrite map_length; cbn [length]; lia.
    + destruct (a_lead a).
      * destruct ds; [congruence|]. cbn [length]. rewrite map_length. lia.
      * destruct (nonempty_snoc ds Hne) as (r & d & E). subst ds.
        rewrite removelast_snoc, !app_length, map_length. cbn [length]. lia.
  - destruct (a_sep a); [specialize (Ha eq_refl); congruence|]. rewrite map_length. lia.
Qed.

Lemma zoned_unsigned : forall e a neg ds, a_sign a = false -> zoned e a neg ds = map digit_char ds.
Proof. intros. unfold zoned. now rewrite H. Qed.

Lemma data_size_zoned : forall e a neg ds, attr_ok a -> ds <> [] ->
  data_size (mkField a (zoned e a neg ds)) = length ds.
Proof.
  intros. unfold data_size, f_size. cbn [fa fd]. rewrite zoned_length by auto.
  destruct (a_sep a); lia.
Qed.

(** First data byte of a zoned item is neither 255 nor 0. *)
Lemma zoned_first : forall e a neg ds, attr_ok a -> ds <> [] -> Forall is_dig ds ->
  let c := nth 0 (data_digits (mkField a (zoned e a neg ds))) 0 in c <> 255 /\ c <> 0.
Proof.
  intros e a neg ds Ha Hne Hd c. subst c.
  assert (HD : forall d, is_dig d -> digit_char d <> 255 /\ digit_char d <> 0)
    by (unfold is_dig, digit_char; intros; lia).
  unfold data_digits. rewrite data_size_zoned by auto. cbn [fa fd].
  unfold zoned, data_off, attr_ok in *. destruct ds as [|d r]; [congruence|].
  inversion Hd as [|? ? H1 H2]; subst.
  destruct (a_sign a) eqn:Hs; cbn [negb].
  - destruct (a_sep a); cbn [andb].
    + destruct (a_lead a); cbn [skipn map length app firstn nth]; auto.
    + destruct (a_lead a).
      * cbn [skipn length firstn nth]. destruct (overpunch_byte e neg d H1); auto.
      * cbn [skipn].
        destruct r as [|d2 r].
        -- cbn [removelast last map app length firstn nth]. destruct (overpunch_byte e neg d H1); auto.
        -- change (removelast (d :: d2 :: r)) with (d :: removelast (d2 :: r)).
           cbn [map app length firstn nth]. auto.
  - destruct (a_sep a); [specialize (Ha eq_refl); congruence|].
    cbn [andb skipn map length firstn nth]. auto.
Qed.

Theorem set_display_zoned : forall m a neg ds,
  a_type a = TDisplay -> attr_ok a -> ds <> [] -> Forall is_dig ds ->
  (a_sign a = false -> neg = false) ->
  set_display m (mkField a (zoned (c_ebcdic m) a neg ds)) =
    Ok (mkDec (signed_value neg ds) (a_scale a), mkField a (zoned (c_ebcdic m) a neg ds)).
Proof.
  intros m a neg ds Ht Ha Hne Hd Hn. unfold set_display.
  destruct (zoned_first (c_ebcdic m) a neg ds Ha Hne Hd) as [F1 F2].
  apply Z.eqb_neq in F1, F2. rewrite F1, F2. clear F1 F2.
  assert (Hval : forall (l : list Z), digits_ok l ->
    (if (length (skip_zeros l) <? 10)%nat then Ok (accum_u32 0 (skip_zeros l))
     else if forallb is_digitb (skip_zeros l) then Ok (str_value 0 (skip_zeros l))
     else NotModelled) = Ok (str_value 0 l)).
  { intros l Hl. pose proof (skip_zeros_digits l Hl) as Hz.
    destruct (Nat.ltb_spec (length (skip_zeros l)) 10).
    - rewrite (accum_u32_value _ 0 0); auto; try lia.
      now rewrite skip_zeros_value.
    - apply forallb_digits in Hz. rewrite Hz. now rewrite skip_zeros_value. }
  destruct (a_sign a) eqn:Hs.
  - rewrite get_sign_zoned by auto.
    rewrite data_digits_plain by auto.
    rewrite Hval by (apply map_digit_char_ok; auto). cbn [obind fa].
    rewrite sgn_of_neg, str_value_digits, put_sign_plain_gen, sgn_of_neg by auto.
    reflexivity.
  - rewrite (Hn eq_refl). unfold get_sign. cbn [fa]. rewrite Hs.
    rewrite zoned_unsigned by auto.
    assert (Hsep : a_sep a = false).
    { destruct (a_sep a) eqn:E; auto. specialize (Ha E). congruence. }
    assert (Hp : map digit_char ds = plain a false ds).
    { unfold plain. now rewrite Hs. }
    assert (HDD : data_digits (mkField a (map digit_char ds)) = map digit_char ds)
      by (rewrite Hp at 1; apply data_digits_plain; auto).
    cbv zeta. rewrite HDD.
    rewrite Hval by (apply map_digit_char_ok; auto). cbn [obind fa].
    rewrite str_value_digits. unfold put_sign. cbn [fa]. rewrite Hs. reflexivity.
Qed.

(** ** Storing *)

Lemma put_digits_plain : forall f ds,
  attr_ok (fa f) -> length (fd f) = (length ds + if a_sep (fa f) then 1 else 0)%nat ->
  a_sep (fa f) = false ->
  put_digits f (map digit_char ds) = mkField (fa f) (map digit_char ds).
Proof.
  intros f ds Ha HL Hsep. unfold put_digits, data_off. rewrite Hsep in *. cbn [andb firstn app].
  rewrite map_length, Nat.add_0_l, skipn_all2 by lia. rewrite app_nil_r. reflexivity.
Qed.

Lemma put_sign_put_digits : forall m f ds s,
  a_type (fa f) = TDisplay -> attr_ok (fa f) -> ds <> [] -> Forall is_dig ds ->
  length (fd f) = (length ds + if a_sep (fa f) then 1 else 0)%nat ->
  put_sign m (put_digits f (map digit_char ds)) s =
    mkField (fa f) (zoned (c_ebcdic m) (fa f) (s <? 0) ds).
Proof.
  intros m f ds s Ht Ha Hne Hd HL.
  destruct (a_sep (fa f)) eqn:Hsep.
  - specialize (Ha Hsep). unfold put_sign, put_digits, data_off. cbn [set_fd fa].
    rewrite Ha. unfold real_put_sign, zoned, sign_pos, f_size. cbn [set_fd fa fd].
    rewrite Ht, Ha, Hsep. cbn [negb andb].
    destruct (a_lead (fa f)) eqn:Hl.
    + destruct (fd f) as [|c0 rest] eqn:Ef; [cbn [length] in HL; lia|].
      cbn [firstn app upd length] in *. unfold set_fd. cbn [fa]. f_equal. unfold sign_char, c_minus, c_plus.
      f_equal. rewrite map_length. cbn [Nat.add skipn].
      rewrite skipn_all2 by lia. apply app_nil_r.
    + cbn [firstn app Nat.add]. rewrite map_length.
      assert (HK : exists x, skipn (length ds) (fd f) = [x]).
      { assert (length (skipn (length ds) (fd f)) = 1%nat) by (rewrite skipn_length; lia).
        destruct (skipn (length ds) (fd f)) as [|x [|y t]]; simpl in H; try lia. eauto. }
      destruct HK as [x Hx]. rewrite Hx, app_length, map_length. cbn [length].
      replace (length ds + 1 - 1)%nat with (length (map digit_char ds)) by (rewrite map_length; lia).
      rewrite upd_snoc. unfold set_fd, sign_char, c_minus, c_plus. cbn [fa]. reflexivity.
  - rewrite put_digits_plain; auto; [|rewrite Hsep; auto].
    destruct (a_sign (fa f)) eqn:Hs.
    + assert (Hp : map digit_char ds = plain (fa f) false ds).
      { unfold plain. now rewrite Hs, Hsep. }
      rewrite Hp at 1. rewrite put_sign_plain_gen by auto. reflexivity.
    + unfold put_sign. cbn [fa]. rewrite Hs. now rewrite zoned_unsigned.
Qed.

(** Well-formed DISPLAY item: k >= 1 digit positions plus the separate sign. *)
Lemma wf_display_data_size : forall f k, wf_display f k -> data_size f = k.
Proof. intros f k (_ & _ & _ & H). unfold data_size, f_size. destruct (a_sep (fa f)); lia. Qed.

Lemma low_digits_ne : forall k v, (1 <= k)%nat -> low_digits k v <> [].
Proof. intros k v H E. apply (f_equal (@length Z)) in E. rewrite low_digits_length in E. simpl in E. lia. Qed.

(** The bytes of [f] after storing [v]: the k low-order digits and the sign. *)
Definition zoned_of (m : cfg) (f : field) (k : nat) (v : Z) : field :=
  mkField (fa f) (zoned (c_ebcdic m) (fa f) (v <? 0) (low_digits k (Z.abs v))).

Lemma sgn_neg : forall v, (Z.sgn v <? 0) = (v <? 0).
Proof. intros. destruct v; reflexivity. Qed.

Theorem get_display_spec : forall m v f o k, wf_display f k ->
  Z.abs v < NUM_LIMIT ->
  get_display m v f o =
    Ok (if Z.abs v <? 10 ^ Z.of_nat k then mkStored false false (zoned_of m f k v)
        else if o_keep o then mkStored true true f
        else mkStored false true (zoned_of m f k v)).
Proof.
  intros m v f o k W Hb. pose proof W as (Ht & Ha & Hk & HL).
  unfold get_display. rewrite num_buff_ok by lia. cbn [obind].
  rewrite (wf_display_data_size f k W), fixed_length.
  assert (HS : put_sign m (put_digits f (fixed k (Z.abs v))) (Z.sgn v) = zoned_of m f k v).
  { rewrite fixed_low, put_sign_put_digits; auto using low_digits_ne, low_digits_dig.
    - unfold zoned_of. now rewrite sgn_neg.
    - now rewrite low_digits_length. }
  pose proof (pad_or_cut (Z.abs v) k ltac:(lia)) as HP.
  destruct (Nat.ltb_spec k (ndigits (Z.abs v))) as [H|H].
  - destruct (Z.ltb_spec (Z.abs v) (10 ^ Z.of_nat k)) as [H0|H0].
    + pose proof (ndigits_le (Z.abs v) k ltac:(lia) Hk). lia.
    + rewrite HP. rewrite HS. destruct (o_keep o); reflexivity.
  - destruct (Z.ltb_spec (Z.abs v) (10 ^ Z.of_nat k)) as [H0|H0].
    + rewrite HP, HS. reflexivity.
    + pose proof (ndigits_gt (Z.abs v) k ltac:(lia) H0). lia.
Qed.
