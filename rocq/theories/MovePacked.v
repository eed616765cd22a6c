(** MOVE between DISPLAY and COMP-3 (proof file). *)
From Coq Require Import QArith Qabs.
From Verif Require Import Base BaseFacts Field Sign Decimal SpecNum Numeric SpecStore NumFacts.
From Verif Require Import DispProofs DecProofs BinProofs PackedProofs StoreProofs PackedInt PackedIntProofs.
From Verif Require Import Move MoveProofs.
Local Open Scope Z_scope.

Lemma pack_loop_eq : forall ns i d,
  pack_loop i ns d = put_nibbles i (i / 2) (map digit_char ns) d.
Proof.
  induction ns as [|n ns IH]; intros i d; auto. cbn [pack_loop map put_nibbles].
  replace (digit_char n - 48) with n by (unfold digit_char; lia).
  destruct (Nat.even i) eqn:E.
  - destruct (even_half _ E) as (j & ->). rewrite IH, div2_even.
    replace (S (2 * j)) with (2 * j + 1)%nat by lia. rewrite div2_odd. reflexivity.
  - destruct (odd_half _ E) as (j & ->). rewrite IH, div2_odd.
    replace (S (2 * j + 1)) with (2 * S j)%nat by lia. rewrite div2_even. reflexivity.
Qed.

(** Packing D digits into a cleared item and setting the sign. *)
Lemma pack_store : forall f D ns s, wf_packed f D -> length ns = D -> Forall is_dig ns ->
  put_packed_sign (set_fd f (pack_loop (1 - D mod 2) ns (repeat 0 (f_size f)))) s =
  mkField (fa f) (packed (fa f) (s <? 0) ns).
Proof.
  intros f D ns s (Ht & HD & H1 & HS) HL Hd. rewrite HS, pack_loop_eq.
  set (off := (1 - D mod 2)%nat).
  assert (OFF : off = length (pre_of ns) /\ repeat 0 off = pre_of ns /\ (off + D = 2 * (D / 2) + 1)%nat).
  { subst off. unfold pre_of. rewrite HL. destruct (Nat.even D) eqn:E.
    - destruct (even_half _ E) as (j & ->). rewrite div2_even.
      rewrite (Nat.mul_comm 2 j), Nat.mod_mul by lia. cbn [length repeat Nat.sub]. split; [|split]; auto; lia.
    - destruct (odd_half _ E) as (j & ->). rewrite div2_odd.
      replace (2 * j + 1)%nat with (1 + j * 2)%nat by lia. rewrite Nat.mod_add by lia.
      change (1 mod 2)%nat with 1%nat. cbn [length repeat Nat.sub]. split; [|split]; auto; lia. }
  destruct OFF as (O1 & O2 & O3).
  destruct (put_nibbles_spec (map digit_char ns) off (off / 2) (repeat 0 (D / 2 + 1)) off) as (U & B).
  - apply repeat_bytes0.
  - now apply map_digit_char_ok.
  - rewrite map_length, repeat_length. lia.
  - subst off. assert (M : (D mod 2 = 0 \/ D mod 2 = 1)%nat).
    { pose proof (Nat.mod_upper_bound D 2). lia. }
    destruct M as [-> | ->]; reflexivity.
  - intros. rewrite unpack_repeat0. apply nth_repeat0.
  - set (d := put_nibbles off (off / 2) (map digit_char ns) (repeat 0 (D / 2 + 1))) in *.
    rewrite map_sub48, map_length, HL, unpack_repeat0 in U.
    assert (UF : unpack d = pre_of ns ++ ns ++ [0]).
    { rewrite U. rewrite <- O2. f_equal; [|f_equal].
      - rewrite (repeat_split _ off) by lia. rewrite firstn_app, repeat_length, Nat.sub_diag.
        rewrite firstn_all2 by (rewrite repeat_length; lia). cbn [firstn]. apply app_nil_r.
      - rewrite (repeat_split _ (off + D)) by lia. rewrite skipn_app, repeat_length, Nat.sub_diag.
        rewrite skipn_all2 by (rewrite repeat_length; lia). cbn [skipn app].
        replace (2 * (D / 2 + 1) - (off + D))%nat with 1%nat by lia. reflexivity. }
    set (t := if negb (a_sign (fa f)) then 15 else if s <? 0 then 13 else 12).
    assert (T : t = packed_sign_nibble (a_sign (fa f)) (s <? 0)).
    { subst t. unfold packed_sign_nibble. destruct (a_sign (fa f)); reflexivity. }
    assert (PS : put_packed_sign (set_fd f d) s = set_fd f (set_sign_nib d t)).
    { unfold put_packed_sign, set_sign_nib. cbn [set_fd fa fd]. reflexivity. }
    rewrite PS. unfold set_fd. cbn [fa]. f_equal.
    destruct (set_sign_nib_spec d (pre_of ns) ns 0 t B) as (S1 & S2); auto.
    { rewrite T. apply sign_nib_ok. }
    rewrite packed_unfold, <- T. apply packed_from_unpack. auto.
Qed.

Lemma seq_nth_map : forall (g : nat -> Z) n i s, (i < n)%nat -> nth i (map g (seq s n)) 0 = g (s + i)%nat.
Proof.
  intros. rewrite (nth_indep _ 0 (g 0%nat)) by (rewrite map_length, seq_length; lia).
  rewrite map_nth, seq_nth by lia. reflexivity.
Qed.

Theorem display_to_packed_spec : forall m f1 f2 v D,
  denotes (c_ebcdic m) f1 v -> a_type (fa f1) = TDisplay ->
  Z.of_nat (data_size f1) = a_digits (fa f1) -> wf_packed f2 D ->
  exists f2', display_to_packed m f1 f2 = Ok (f1, f2') /\
    denotes (c_ebcdic m) f2' (held f2 (low_part D (aligns v (a_scale (fa f1)) (a_scale (fa f2))))) /\
    fa f2' = fa f2 /\ f_size f2' = f_size f2.
Proof.
  intros m f1 f2 v D D1 T1 DG W2. pose proof W2 as (Ht2 & HD2 & HD1 & HS2).
  destruct (denotes_display_cases _ _ _ T1 D1) as (neg & ds & E1 & Hne & Hd & Hu & Ha & Hv).
  destruct (get_sign_digits m (fa f1) neg ds T1 Hne Hd Ha Hu) as (s & g & G & HS & HA & HDD & HG & HP).
  rewrite <- E1 in G, HP.
  assert (DS : data_size f1 = length ds).
  { rewrite E1. apply data_size_zoned; auto. }
  set (n := length ds) in *.
  assert (Hn : (1 <= n)%nat) by (subst n; destruct ds; [congruence|cbn [length]; lia]).
  rewrite DS in DG.
  assert (GD : data_size g = n).
  { apply (f_equal (@length Z)) in HDD. rewrite map_length in HDD. fold n in HDD.
    assert (f_size g = f_size f1).
    { unfold f_size. rewrite HG, E1. cbn [fd fa]. rewrite zoned_length by auto.
      unfold plain. destruct (a_sign (fa f1)) eqn:Q1; destruct (a_sep (fa f1)) eqn:Q2; cbn [andb].
      - rewrite zoned_length, Q2 by auto. reflexivity.
      - rewrite map_length. lia.
      - specialize (Ha Q2). congruence.
      - rewrite map_length. lia. }
    unfold data_size in *. rewrite HA, H. exact DS. }
  assert (SZ : (n <= f_size f1)%nat) by (unfold data_size in DS; lia).
  unfold display_to_packed. rewrite G, HD2, <- DG.
  destruct (Z.ltb_spec (Z.of_nat (f_size f1)) (Z.of_nat n)); [lia|].
  rewrite !Nat2Z.id.
  (* digits of g *)
  assert (ND : forall p, (p < n)%nat -> nth p (skipn (data_off (fa f1)) (fd g)) 0 = 48 + nth p ds 0).
  { intros p Hp.
    assert (X : nth p (data_digits g) 0 = nth p (map digit_char ds) 0) by now rewrite HDD.
    unfold data_digits in X. rewrite GD, nth_firstn_Z in X by lia.
    rewrite HA in X. rewrite X.
    rewrite (nth_indep _ 0 (digit_char 0)) by (rewrite map_length; fold n; lia).
    rewrite map_nth. reflexivity. }
  assert (LEN : (n <= length (skipn (data_off (fa f1)) (fd g)))%nat).
  { apply (f_equal (@length Z)) in HDD. unfold data_digits in HDD.
    rewrite firstn_length, map_length, GD, HA in HDD. fold n in HDD. lia. }
  (* null check fails *)
  assert (NULL : forallb (Z.eqb 0) (firstn n (fd g)) = false).
  { assert (F : nth 0 (fd g) 0 <> 0).
    { rewrite HG. cbn [fd]. destruct ds as [|d0 dr]; [congruence|]. pose proof (Forall_inv Hd) as D0. clear - D0.
      unfold plain, zoned. destruct (a_sign (fa f1)), (a_sep (fa f1)), (a_lead (fa f1)); cbn [negb andb map app nth];
        unfold sign_char, digit_char, is_dig in *; destruct neg; cbv iota; lia. }
    destruct (fd g) as [|b r]; [cbn [nth] in F; lia|]. cbn [nth] in F.
    destruct n; [lia|]. cbn [firstn forallb]. destruct (Z.eqb_spec 0 b); [lia|reflexivity]. }
  rewrite NULL.
  set (p0 := Z.of_nat n - a_scale (fa f1) - (Z.of_nat D - a_scale (fa f2))).
  cbv zeta.
  match goal with |- context [existsb ?h ?l] => set (hb := h); set (ps := l) end.
  assert (EX : existsb hb ps = false).
  { destruct (existsb hb ps) eqn:Q; auto. apply existsb_exists in Q. destruct Q as (x & _ & Hx).
    subst hb. cbv beta in Hx. apply andb_true_iff in Hx. destruct Hx as (X1 & X2).
    apply andb_true_iff in X1. destruct X1 as (X3 & X4). lia. }
  rewrite EX.
  assert (M2 : (D mod 2 < 2)%nat) by (apply Nat.mod_upper_bound; lia).
  pose proof (Nat.div_mod D 2 ltac:(lia)) as DM.
  match goal with |- context [if ?b then UB else _] => destruct b eqn:SZ2 end.
  { apply Z.ltb_lt in SZ2. rewrite HS2 in SZ2. lia. }
  match goal with |- context [map ?h ps] => set (dg := h) end.
  assert (NS : map dg ps = low_digits D (alignz (digits_value ds) (a_scale (fa f1)) (a_scale (fa f2)))).
  { pose proof (digits_value_bound ds Hd) as HB. fold n in HB.
    pose proof (alignz_nonneg (digits_value ds) (a_scale (fa f1)) (a_scale (fa f2)) ltac:(lia)) as HAZ.
    subst ps. rewrite map_map. apply nth_ext_Z.
    - now rewrite map_length, seq_length, low_digits_length.
    - rewrite map_length, seq_length. intros j Hj. rewrite seq_nth_map by lia.
      rewrite nth_low_digits, dig_align by lia. rewrite Nat.add_0_l. subst dg. cbv beta.
      destruct (Z.leb_spec 0 (p0 + Z.of_nat j)) as [L1|L1]; cbn [andb].
      + destruct (Z.ltb_spec (p0 + Z.of_nat j) (Z.of_nat n)) as [L2|L2].
        * rewrite ND by lia.
          assert (DD : is_dig (nth (Z.to_nat (p0 + Z.of_nat j)) ds 0)) by (apply Forall_nth_Z; auto; lia).
          unfold c_sp. destruct (Z.eqb_spec (48 + nth (Z.to_nat (p0 + Z.of_nat j)) ds 0) 32) as [Q|_].
          { unfold is_dig in DD. lia. }
          unfold d2i_u8, u8. rewrite Z.mod_small by (unfold is_dig in DD; lia).
          rewrite nth_digits in * by (auto; lia). fold n.
          replace (Z.of_nat n - 1 - Z.of_nat (Z.to_nat (p0 + Z.of_nat j)))
            with (Z.of_nat D - 1 - Z.of_nat j - (a_scale (fa f2) - a_scale (fa f1))) by (subst p0; lia).
          lia.
        * unfold dig. rewrite (proj2 (Z.ltb_lt _ 0)) by (subst p0; lia). reflexivity.
      + symmetry. apply (dig_high _ _ (Z.of_nat n)); [lia|]. subst p0. lia. }
  rewrite NS, (pack_store f2 D) by (auto using low_digits_length, low_digits_dig).
  rewrite HP. eexists. split; [reflexivity|]. split; [|split; [reflexivity|]].
  - destruct (signed_neg_le neg ds Hd) as (S1 & S2 & S3). rewrite <- Hv in S1, S2, S3.
    rewrite (held_neg f2 D v _ neg S1 S2), S3, HS.
    set (L := low_digits _ _).
    assert (Z1 : packed (fa f2) neg L = packed (fa f2) (a_sign (fa f2) && neg) L).
    { destruct (a_sign (fa f2)) eqn:SG; auto. apply packed_unsigned. auto. }
    rewrite Z1. apply den_packed; auto.
    + subst L. auto using low_digits_ne.
    + subst L. apply low_digits_dig.
    + subst L. rewrite low_digits_length. auto.
    + intros ->. reflexivity.
  - unfold f_size at 1. cbn [fd]. rewrite packed_length, low_digits_length, HS2. reflexivity.
Qed.

Lemma denotes_packed_cases : forall e f v, a_type (fa f) = TPacked -> denotes e f v ->
  exists neg ds, f = mkField (fa f) (packed (fa f) neg ds) /\ ds <> [] /\ Forall is_dig ds /\
    Z.of_nat (length ds) = a_digits (fa f) /\
    (a_sign (fa f) = false -> neg = false) /\ v = signed_value neg ds.
Proof.
  intros e f v Ht H. inversion H; subst; cbn [fa] in *; try congruence.
  exists neg, ds. repeat (split; [auto; fail|]). auto.
Qed.

Theorem packed_to_display_spec : forall m f1 f2 v k,
  denotes (c_ebcdic m) f1 v -> a_type (fa f1) = TPacked -> a_digits (fa f1) <= 64 -> wf_display f2 k ->
  exists f2', packed_to_display m f1 f2 = Ok (f1, f2') /\
    denotes (c_ebcdic m) f2' (held f2 (low_part k (aligns v (a_scale (fa f1)) (a_scale (fa f2))))) /\
    fa f2' = fa f2 /\ f_size f2' = f_size f2.
Proof.
  intros m f1 f2 v k D1 T1 DG W2.
  destruct (denotes_packed_cases _ _ _ T1 D1) as (neg & ds & E1 & Hne & Hd & HL & Hu & Hv).
  unfold packed_to_display.
  assert (GS : get_sign m f1 = (if a_sign (fa f1) then (if neg then -1 else 1) else 0, f1)).
  { pose proof (packed_get_sign_spec (fa f1) neg ds Hd) as P. rewrite <- E1 in P.
    unfold packed_get_sign in P. unfold get_sign, real_get_sign. rewrite T1.
    destruct (a_sign (fa f1)); cbn [negb] in *; auto. now rewrite P. }
  rewrite GS. rewrite <- HL, Nat2Z.id. set (n := length ds) in *.
  assert (HB : (64 <? n)%nat = false) by (apply Nat.ltb_ge; lia). rewrite HB.
  assert (FS : f_size f1 = (n / 2 + 1)%nat).
  { unfold f_size. rewrite E1. cbn [fd]. now rewrite packed_length. }
  pose proof (Nat.div_mod n 2 ltac:(lia)) as DM.
  assert (M2 : (n mod 2 < 2)%nat) by (apply Nat.mod_upper_bound; lia).
  match goal with |- context [if ?b then UB else _] => destruct b eqn:SZ2 end.
  { apply Nat.ltb_lt in SZ2. rewrite FS in SZ2. lia. }
  assert (BUF : map (fun i : nat => 48 + (if Nat.even i then hi4 (nth (i / 2) (fd f1) 0) else lo4 (nth (i / 2) (fd f1) 0)))
       (seq (1 - n mod 2) n) = map digit_char ds).
  { apply nth_ext_Z.
    - now rewrite !map_length, seq_length.
    - rewrite map_length, seq_length. intros j Hj. rewrite seq_nth_map by lia. cbv beta.
      rewrite (nth_indep (map digit_char ds) 0 (digit_char 0)) by (rewrite map_length; fold n; lia).
      rewrite map_nth. unfold digit_char. f_equal.
      set (i := (1 - n mod 2 + j)%nat).
      assert (X : (if Nat.even i then hi4 (nth (i / 2) (fd f1) 0) else lo4 (nth (i / 2) (fd f1) 0)) =
                  nth i (unpack (fd f1)) 0).
      { destruct (Nat.even i) eqn:E.
        - destruct (even_half _ E) as (q & ->). rewrite div2_even. symmetry. apply nth_unpack_hi.
        - destruct (odd_half _ E) as (q & ->). rewrite div2_odd. symmetry. apply nth_unpack_lo. }
      rewrite X, E1. cbn [fd]. rewrite packed_unpack by auto. unfold packed_nibs. fold n.
      subst i. destruct (Nat.even n) eqn:EV.
      + destruct (even_half _ EV) as (q & Hq). rewrite Hq, (Nat.mul_comm 2 q), Nat.mod_mul by lia.
        cbn [Nat.sub Nat.add app nth]. apply app_nth1. fold n. lia.
      + destruct (odd_half _ EV) as (q & Hq).
        assert (n mod 2 = 1)%nat.
        { rewrite Hq. replace (2 * q + 1)%nat with (1 + q * 2)%nat by lia. rewrite Nat.mod_add by lia. reflexivity. }
        rewrite H. cbn [Nat.sub Nat.add app]. apply app_nth1. fold n. lia. }
  cbv zeta. rewrite BUF.
  destruct (store_region_denotes m f2 k ds (a_scale (fa f1)) v
    (if a_sign (fa f1) then if neg then -1 else 1 else 0) neg W2 Hd Hv) as (_ & X1 & X2 & X3).
  { intros _. destruct (a_sign (fa f1)) eqn:SG; destruct neg; auto. now specialize (Hu eq_refl). }
  eexists. split; [reflexivity|]. split; auto.
Qed.
