(** Integer operations on COMP-3 items (proof file). *)
From Verif Require Import Base BaseFacts Field Sign Decimal SpecNum Numeric SpecStore NumFacts
  DispProofs PackedProofs StoreProofs PackedInt.

(** ** Nibble access *)
Lemma div2_even : forall k, (2 * k / 2 = k)%nat.
Proof. intros. rewrite Nat.mul_comm. apply Nat.div_mul. lia. Qed.
Lemma div2_odd : forall k, ((2 * k + 1) / 2 = k)%nat.
Proof. intros. rewrite Nat.mul_comm, Nat.div_add_l by lia. simpl. lia. Qed.

Lemma get_nib_unpack : forall d j, bytes_ok d -> get_nib d j = nth j (unpack d) 0.
Proof.
  intros d j Hb. unfold get_nib.
  assert (B : is_byte (nth (j / 2) d 0)).
  { destruct (Nat.lt_ge_cases (j / 2) (length d)).
    - apply Forall_nth_Z; auto.
    - rewrite nth_overflow by auto. unfold is_byte; lia. }
  destruct (Nat.even j) eqn:E.
  - destruct (even_half _ E) as (k & ->). rewrite div2_even in *. rewrite nth_unpack_hi, land_240 by auto.
    unfold hi4, is_byte in *. lia.
  - destruct (odd_half _ E) as (k & ->). rewrite div2_odd in *. rewrite nth_unpack_lo. now apply land_15.
Qed.

Lemma set_nib_unpack : forall d j t, bytes_ok d -> is_nib t ->
  unpack (set_nib d j t) = upd j t (unpack d) /\ bytes_ok (set_nib d j t).
Proof.
  intros d j t Hb Ht. unfold set_nib.
  assert (B : is_byte (nth (j / 2) d 0)).
  { destruct (Nat.lt_ge_cases (j / 2) (length d)).
    - apply Forall_nth_Z; auto.
    - rewrite nth_overflow by auto. unfold is_byte; lia. }
  unfold is_nib in Ht.
  destruct (Nat.even j) eqn:E.
  - destruct (even_half _ E) as (k & ->). rewrite div2_even in *.
    set (b := nth k d 0) in *.
    assert (X : u8 (Z.lor (Z.land b 15) (16 * t)) = 16 * t + lo4 b).
    { rewrite land_15 by auto. rewrite Z.lor_comm, lor_nib by (unfold lo4, is_byte in *; lia).
      unfold u8. rewrite Z.mod_small; auto. unfold lo4, is_byte in *; lia. }
    rewrite X. split.
    + rewrite unpack_upd.
      replace (hi4 (16 * t + lo4 b)) with t by (unfold hi4, lo4, is_byte in *; lia).
      replace (lo4 (16 * t + lo4 b)) with (lo4 b) by (unfold hi4, lo4, is_byte in *; lia).
      f_equal. apply upd_same. unfold b. apply nth_unpack_lo.
    + apply Forall_upd; auto. unfold is_byte, lo4 in *. lia.
  - destruct (odd_half _ E) as (k & ->). rewrite div2_odd in *.
    set (b := nth k d 0) in *.
    assert (X : u8 (Z.lor (Z.land b 240) t) = 16 * hi4 b + t).
    { rewrite land_240 by auto. rewrite lor_nib by (unfold hi4, is_byte in *; lia).
      unfold u8. rewrite Z.mod_small; auto. unfold hi4, is_byte in *; lia. }
    rewrite X. split.
    + rewrite unpack_upd.
      replace (hi4 (16 * hi4 b + t)) with (hi4 b) by (unfold hi4, lo4, is_byte in *; lia).
      replace (lo4 (16 * hi4 b + t)) with t by (unfold hi4, lo4, is_byte in *; lia).
      apply upd_same. rewrite upd_nth_other by lia. unfold b. apply nth_unpack_hi.
    + apply Forall_upd; auto. unfold is_byte, hi4 in *. lia.
Qed.

Lemma upd_mid : forall (pre post : list Z) t x, upd (length pre) x (pre ++ t :: post) = pre ++ x :: post.
Proof. induction pre; intros; cbn [length app upd]; auto. now rewrite IHpre. Qed.
Lemma nth_mid : forall (pre post : list Z) t, nth (length pre) (pre ++ t :: post) 0 = t.
Proof. induction pre; intros; cbn [length app nth]; auto. Qed.

(** ** The addition loop *)
Lemma add_packed_loop_spec : forall ds subtr val carry z pre post d,
  bytes_ok d -> unpack d = pre ++ ds ++ post -> Forall is_dig ds -> 0 <= val -> 0 <= carry <= 1 ->
  exists ds' c z' d',
    add_packed_loop (length ds) (length pre + length ds - 1) subtr val carry z d = (c, z', d') /\
    bytes_ok d' /\ unpack d' = pre ++ ds' ++ post /\ Forall is_dig ds' /\ length ds' = length ds /\
    0 <= c <= 1 /\
    (if subtr then digits_value ds - carry - val = digits_value ds' - 10 ^ Z.of_nat (length ds) * (c + val / 10 ^ Z.of_nat (length ds))
     else digits_value ds + carry + val = digits_value ds' + 10 ^ Z.of_nat (length ds) * (c + val / 10 ^ Z.of_nat (length ds))) /\
    (z <= z' <= z + length ds)%nat /\ ((z' = z + length ds)%nat <-> digits_value ds' = 0).
Proof.
  induction ds as [|t ds IH] using rev_ind; intros subtr val carry z pre post d Hb HU Hd Hv Hc.
  - cbn [length]. exists [], carry, z, d. cbn [add_packed_loop]. change (10 ^ Z.of_nat 0) with 1.
    rewrite Z.div_1_r. cbn [app] in *. repeat split; auto; try lia.
    destruct subtr; change (digits_value []) with 0; lia.
  - apply Forall_app in Hd. destruct Hd as [Hd Ht]. inversion Ht as [|? ? Ht1 _]; subst.
    rewrite app_length. cbn [length]. rewrite Nat.add_1_r.
    replace (length pre + S (length ds) - 1)%nat with (length pre + length ds)%nat by lia.
    rewrite <- !app_assoc in HU. cbn [app] in HU. rewrite app_assoc in HU.
    assert (LP : (length pre + length ds)%nat = length (pre ++ ds)) by (rewrite app_length; reflexivity).
    cbn [add_packed_loop].
    assert (GN : get_nib d (length pre + length ds) = t).
    { rewrite get_nib_unpack by auto. rewrite HU, LP. apply nth_mid. }
    rewrite GN.
    assert (CV : (if val =? 0 then (carry, val) else (carry + val mod 10, val / 10)) = (carry + val mod 10, val / 10)).
    { destruct (Z.eqb_spec val 0); auto. subst. rewrite Zmod_0_l, Zdiv_0_l. f_equal. lia. }
    rewrite CV. clear CV.
    set (c1 := carry + val mod 10).
    assert (C1 : 0 <= c1 <= 10) by (unfold c1; pose proof (Z.mod_pos_bound val 10); lia).
    set (tc := if subtr then (let t0 := t - c1 in if t0 <? 0 then (t0 + 10, 1) else (t0, 0))
               else (let t0 := t + c1 in if 9 <? t0 then (t0 mod 10, 1) else (t0, 0))).
    assert (TC : is_dig (fst tc) /\ 0 <= snd tc <= 1 /\
      (if subtr then t - c1 = fst tc - 10 * snd tc else t + c1 = fst tc + 10 * snd tc)).
    { unfold tc, is_dig in *. destruct subtr; cbv zeta.
      - destruct (Z.ltb_spec (t - c1) 0); cbn [fst snd]; lia.
      - destruct (Z.ltb_spec 9 (t + c1)); cbn [fst snd]; lia. }
    destruct tc as [t' c']. cbn [fst snd] in TC. destruct TC as (T1 & T2 & T3).
    assert (NT : is_nib t') by (unfold is_dig, is_nib in *; lia).
    destruct (set_nib_unpack d (length pre + length ds) t' Hb NT) as [SU SB].
    rewrite HU, LP, upd_mid in SU. rewrite <- LP in SU. rewrite <- app_assoc in SU.
    destruct (IH subtr (val / 10) c' (if t' =? 0 then S z else z) pre (t' :: post)
                (set_nib d (length pre + length ds) t') SB SU Hd ltac:(apply Z.div_pos; lia) T2)
      as (ds' & c & z' & d' & E & B' & U' & D' & L' & C' & V' & Z1 & Z2).
    replace (pred (length pre + length ds)) with (length pre + length ds - 1)%nat by lia.
    rewrite E. exists (ds' ++ [t']), c, z', d'. split; [reflexivity|]. split; [exact B'|].
    split. { rewrite U', <- app_assoc. reflexivity. }
    split. { apply Forall_app; auto. }
    split. { rewrite app_length. cbn [length]. lia. }
    split; [exact C'|].
    pose proof (digits_value_bound ds' D') as DB.
    split; [|split].
    + rewrite pow10_S, !digits_value_snoc. rewrite <- Z.div_div by (pose proof (pow10_pos_nat (length ds)); lia).
      set (P := 10 ^ Z.of_nat (length ds)) in *. set (Q := val / 10 / P) in *.
      assert (val = 10 * (val / 10) + val mod 10) by (apply Z.div_mod; lia).
      unfold c1 in T3. destruct subtr; clearbody P Q; lia.
    + destruct (t' =? 0); lia.
    + rewrite digits_value_snoc. unfold is_dig in T1. destruct (Z.eqb_spec t' 0).
      * subst t'. split; intros; [assert (z' = (S z) + length ds)%nat by lia; apply Z2 in H0; lia|].
        assert (digits_value ds' = 0) by lia. apply Z2 in H0. lia.
      * split; intros; exfalso; lia.
Qed.

Lemma complement_loop_spec : forall ds carry pre post d,
  bytes_ok d -> unpack d = pre ++ ds ++ post -> Forall is_dig ds -> 0 <= carry <= 1 ->
  exists ds' d', complement_loop (length ds) (length pre + length ds - 1) carry d = d' /\
    bytes_ok d' /\ unpack d' = pre ++ ds' ++ post /\ Forall is_dig ds' /\ length ds' = length ds /\
    digits_value ds' = (- digits_value ds - carry) mod 10 ^ Z.of_nat (length ds).
Proof.
  induction ds as [|t ds IH] using rev_ind; intros carry pre post d Hb HU Hd Hc.
  - cbn [length complement_loop]. exists [], d. cbn [app] in *. change (10 ^ Z.of_nat 0) with 1.
    rewrite Z.mod_1_r. repeat split; auto.
  - apply Forall_app in Hd. destruct Hd as [Hd Ht]. inversion Ht as [|? ? Ht1 _]; subst.
    rewrite app_length. cbn [length]. rewrite Nat.add_1_r.
    replace (length pre + S (length ds) - 1)%nat with (length pre + length ds)%nat by lia.
    rewrite <- !app_assoc in HU. cbn [app] in HU. rewrite app_assoc in HU.
    assert (LP : (length pre + length ds)%nat = length (pre ++ ds)) by (rewrite app_length; reflexivity).
    cbn [complement_loop].
    assert (GN : get_nib d (length pre + length ds) = t).
    { rewrite get_nib_unpack by auto. rewrite HU, LP. apply nth_mid. }
    rewrite GN.
    set (tc := if 0 <? t + carry then (1, 10 - (t + carry)) else (0, t + carry)).
    assert (TC : is_dig (snd tc) /\ 0 <= fst tc <= 1 /\ snd tc = 10 * fst tc - (t + carry)).
    { unfold tc, is_dig in *. destruct (Z.ltb_spec 0 (t + carry)); cbn [fst snd]; lia. }
    destruct tc as [c' t']. cbn [fst snd] in TC. destruct TC as (T1 & T2 & T3).
    assert (NT : is_nib t') by (unfold is_dig, is_nib in *; lia).
    destruct (set_nib_unpack d (length pre + length ds) t' Hb NT) as [SU SB].
    rewrite HU, LP, upd_mid in SU. rewrite <- LP in SU. rewrite <- app_assoc in SU.
    destruct (IH c' pre (t' :: post) _ SB SU Hd T2) as (ds' & d' & E & B' & U' & D' & L' & V').
    replace (pred (length pre + length ds)) with (length pre + length ds - 1)%nat by lia.
    rewrite E. exists (ds' ++ [t']), d'. split; [reflexivity|]. split; [exact B'|].
    split. { rewrite U', <- app_assoc. reflexivity. }
    split. { apply Forall_app; auto. }
    split. { rewrite app_length. cbn [length]. lia. }
    rewrite !digits_value_snoc, V', pow10_S. set (P := 10 ^ Z.of_nat (length ds)).
    assert (0 < P) by apply pow10_pos_nat.
    rewrite T3. apply Z.mod_unique_pos with (q := (- digits_value ds - c') / P).
    + pose proof (Z.mod_pos_bound (- digits_value ds - c') P ltac:(lia)). unfold is_dig in T1. lia.
    + pose proof (Z.div_mod (- digits_value ds - c') P ltac:(lia)). lia.
Qed.

(** ** cob_add_packed *)

Definition pre_of (ds : list Z) : list Z := if Nat.even (length ds) then [0] else [].

Lemma packed_unfold : forall a neg ds, packed a neg ds =
  pack_nibbles (pre_of ds ++ ds ++ [packed_sign_nibble (a_sign a) neg]).
Proof. reflexivity. Qed.

Lemma pre_len : forall ds ds', length ds' = length ds -> pre_of ds' = pre_of ds.
Proof. intros. unfold pre_of. now rewrite H. Qed.

Lemma packed_from_unpack : forall d ds s, unpack d = pre_of ds ++ ds ++ [s] ->
  d = pack_nibbles (pre_of ds ++ ds ++ [s]).
Proof. intros. rewrite <- H. symmetry. apply pack_unpack. Qed.

Lemma start_nib_eq : forall a l ds, a_digits a = Z.of_nat (length ds) -> ds <> [] ->
  start_nib (mkField a l) = (length (pre_of ds) + length ds - 1)%nat.
Proof.
  intros a l ds HD Hne. unfold start_nib, pre_of. cbn [fa]. rewrite HD, Nat2Z.id.
  assert (1 <= length ds)%nat by (destruct ds; [congruence|cbn [length]; lia]).
  destruct (Nat.even (length ds)) eqn:E.
  - destruct (even_half _ E) as (k & Hk). rewrite Hk in *. cbn [length].
    replace ((2 * k) mod 2)%nat with 0%nat by (rewrite Nat.mul_comm, Nat.mod_mul by lia; reflexivity).
    replace (2 * k + (1 - 0))%nat with (2 * k + 1)%nat by lia. rewrite div2_odd. lia.
  - destruct (odd_half _ E) as (k & Hk). rewrite Hk in *. cbn [length].
    replace ((2 * k + 1) mod 2)%nat with 1%nat.
    2:{ rewrite Nat.add_comm, (Nat.mul_comm 2 k), Nat.mod_add by lia. reflexivity. }
    replace (2 * k + 1 + (1 - 1))%nat with (2 * k + 1)%nat by lia. rewrite div2_odd. lia.
Qed.

Lemma set_sign_nib_spec : forall d pre ds s t, bytes_ok d -> is_nib t ->
  unpack d = pre ++ ds ++ [s] ->
  unpack (set_sign_nib d t) = pre ++ ds ++ [t] /\ bytes_ok (set_sign_nib d t).
Proof.
  intros d pre ds s t Hb Ht HU. unfold set_sign_nib.
  assert (HL : (2 * length d = length pre + length ds + 1)%nat).
  { rewrite <- unpack_length, HU, !app_length. cbn [length]. lia. }
  set (p := (length d - 1)%nat).
  assert (B : is_byte (nth p d 0)) by (apply Forall_nth_Z; auto; unfold p; lia).
  assert (X : Z.lor (Z.land (nth p d 0) 240) t = 16 * hi4 (nth p d 0) + t).
  { rewrite land_240 by auto. unfold is_nib in Ht. apply lor_nib; unfold hi4, is_byte in *; lia. }
  rewrite X. unfold is_nib in Ht. split.
  - rewrite unpack_upd.
    replace (hi4 (16 * hi4 (nth p d 0) + t)) with (hi4 (nth p d 0)) by (unfold hi4; lia).
    replace (lo4 (16 * hi4 (nth p d 0) + t)) with t by (unfold lo4; lia).
    rewrite upd_same by (rewrite upd_nth_other by lia; apply nth_unpack_hi).
    rewrite HU, app_assoc. replace (2 * p + 1)%nat with (length (pre ++ ds)).
    2:{ rewrite app_length. unfold p. lia. }
    rewrite upd_snoc, <- app_assoc. reflexivity.
  - apply Forall_upd; auto. unfold is_byte, hi4 in *. lia.
Qed.

Lemma packed_sn : forall sg neg, is_nib (packed_sign_nibble sg neg).
Proof. exact sign_nib_ok. Qed.

Theorem add_packed_spec : forall a neg ds n,
  a_type a = TPacked -> ds <> [] -> Forall is_dig ds -> a_digits a = Z.of_nat (length ds) ->
  (a_sign a = false -> neg = false) -> 0 <= a_scale a ->
  let V := n * 10 ^ a_scale a in
  let P := 10 ^ Z.of_nat (length ds) in
  Z.abs V < 2 ^ 63 -> Z.abs V < P ->
  exists neg' ds', add_packed (mkField a (packed a neg ds)) n = Ok (mkField a (packed a neg' ds')) /\
    length ds' = length ds /\ Forall is_dig ds' /\ (a_sign a = false -> neg' = false) /\
    signed_value neg' ds' =
      (let t := signed_value neg ds + V in
       if a_sign a then Z.sgn t * (Z.abs t mod P) else Z.abs t mod P).
Proof.
  intros a neg ds n Ht Hne Hd HD Hn Hs V P H63 HP.
  assert (L1 : (1 <= length ds)%nat) by (destruct ds; [congruence|cbn [length]; lia]).
  unfold add_packed. cbn [fa fd]. rewrite Z.max_r by auto. fold V.
  destruct (Z.leb_spec (2 ^ 63) (Z.abs V)); [lia|].
  destruct (Z.leb_spec (a_digits a) 0); [lia|].
  unfold f_size. cbn [fd]. rewrite packed_length, HD, Nat2Z.id.
  destruct (Nat.ltb_spec (length ds / 2 + 1) (length ds / 2 + 1)); [lia|].
  rewrite packed_get_sign_spec by auto.
  set (sign := if a_sign a then if neg then -1 else 1 else 0).
  assert (SG : (sign <? 0) = neg).
  { unfold sign. destruct (a_sign a) eqn:E; [destruct neg; reflexivity|]. now rewrite Hn. }
  rewrite SG. rewrite (start_nib_eq a _ ds) by auto.
  set (val := if neg then - V else V).
  assert (AV : Z.abs val = Z.abs V) by (unfold val; destruct neg; lia).
  set (s := packed_sign_nibble (a_sign a) neg).
  assert (U0 : unpack (packed a neg ds) = pre_of ds ++ ds ++ [s]) by now apply packed_unpack.
  destruct (add_packed_loop_spec ds (val <? 0) (Z.abs val) 0 0 (pre_of ds) [s] (packed a neg ds)
              (packed_bytes a neg ds Hd) U0 Hd ltac:(lia) ltac:(lia))
    as (ds' & c & z' & d' & E & B' & U' & D' & L' & C' & V' & Z1 & Z2).
  rewrite E. fold P in V'. rewrite AV in V'. rewrite (Z.div_small (Z.abs V) P) in V' by lia.
  assert (PP : 0 < P) by apply pow10_pos_nat.
  pose proof (digits_value_bound ds' D') as DB. rewrite L' in DB. fold P in DB.
  pose proof (digits_value_bound ds Hd) as DB0. fold P in DB0.
  set (X := digits_value ds) in *. set (X' := digits_value ds') in *.
  rewrite <- (pre_len ds ds' L') in U'.
  (* the magnitude of the exact sum, in the sign of the item *)
  assert (TT : signed_value neg ds + V = if neg then - (X + val) else X + val).
  { unfold signed_value, val. fold X. destruct neg; lia. }
  rewrite TT. cbv zeta.
  assert (PK : forall neg'', d' = packed a neg'' ds' <-> s = packed_sign_nibble (a_sign a) neg'').
  { intros. split; intros Q.
    - rewrite Q, packed_unpack in U' by auto. unfold packed_nibs in U'. fold (pre_of ds') in U'.
      rewrite !app_assoc in U'. apply app_inj_tail in U'. symmetry. tauto.
    - rewrite packed_unfold, <- Q. now apply packed_from_unpack. }
  assert (SIGNED : forall t, is_nib t -> forall neg'', t = packed_sign_nibble (a_sign a) neg'' ->
     set_sign_nib d' t = packed a neg'' ds').
  { intros t Nt neg'' Et. destruct (set_sign_nib_spec d' (pre_of ds') ds' s t B' Nt U') as [SU SB].
    rewrite packed_unfold, <- Et. now apply packed_from_unpack. }
  assert (COMP : exists ds2, complement_packed (mkField a d') = mkField a (packed a neg ds2) /\
      length ds2 = length ds /\ Forall is_dig ds2 /\ digits_value ds2 = (- X') mod P /\
      bytes_ok (packed a neg ds2)).
  { destruct (complement_loop_spec ds' 0 (pre_of ds') [s] d' B' U' D' ltac:(lia))
      as (ds2 & d2 & E2 & B2 & U2 & D2 & L2 & V2).
    exists ds2. unfold complement_packed, set_fd. cbn [fa fd].
    assert (Hne' : ds' <> []) by (intro Q; subst ds'; cbn [length] in L'; lia).
    rewrite (start_nib_eq a _ ds') by (auto; now rewrite L').
    rewrite HD, Nat2Z.id, <- L', E2.
    rewrite <- (pre_len ds' ds2 L2) in U2. apply packed_from_unpack in U2. fold s in U2.
    assert (d2 = packed a neg ds2) by exact U2. rewrite H2 in *.
    split; [reflexivity|]. split; [lia|]. split; [exact D2|].
    split; [|exact B2]. rewrite V2, L'. f_equal. unfold X'. lia. }
  destruct COMP as (ds2 & E2 & L2 & D2 & V2 & B2).
  destruct (Z.ltb_spec val 0) as [Hsub|Hsub]; cbn [andb].
  - (* subtraction *)
    assert (EV : X + val = X' - P * c) by (rewrite <- AV in V'; rewrite Z.abs_neq in V' by lia; lia).
    assert (VB : - P < val) by (rewrite <- AV in HP; lia).
    assert (CC : c = 0 \/ c = 1) by lia.
    destruct CC as [-> | ->]; cbn [Z.eqb negb].
    + (* no borrow *)
      assert (X' = X + val) by lia.
      assert (MM : Z.abs (if neg then - (X + val) else X + val) mod P = X').
      { rewrite Z.mod_small; destruct neg; lia. }
      rewrite MM.
      destruct (a_sign a) eqn:Es; subst sign.
      * assert (SZ : negb ((if neg then -1 else 1) =? 0) = true) by (destruct neg; reflexivity).
        rewrite SZ. destruct (Nat.eqb_spec (length ds) z') as [Ez|Ez].
        -- assert (X' = 0) by (apply Z2; lia).
           exists false, ds'. rewrite (SIGNED 12 ltac:(unfold is_nib; lia) false eq_refl).
           split; [reflexivity|]. split; [exact L'|]. split; [exact D'|]. split; [discriminate|].
           unfold signed_value. fold X'. rewrite H3. lia.
        -- assert (X' <> 0) by (intro Q; apply Z2 in Q; lia).
           exists neg, ds'. rewrite (proj2 (PK neg) eq_refl) at 1.
           split; [reflexivity|]. split; [exact L'|]. split; [exact D'|]. split; [exact Hn|].
           unfold signed_value. fold X'. destruct neg.
           ++ rewrite Z.sgn_neg by lia. lia.
           ++ rewrite Z.sgn_pos by lia. lia.
      * cbn [Z.eqb negb]. exists neg, ds'. rewrite (proj2 (PK neg) eq_refl) at 1.
        split; [reflexivity|]. split; [exact L'|]. split; [exact D'|]. split; [exact Hn|].
        rewrite Hn by auto. reflexivity.
    + (* borrow: complement *)
      assert (NX : X' <> 0) by lia.
      assert (V2' : digits_value ds2 = - (X + val)).
      { rewrite V2. replace (- X') with (- (X + val) + (-1) * P) by lia.
        rewrite Z.mod_add by lia. apply Z.mod_small. lia. }
      assert (MM : Z.abs (if neg then - (X + val) else X + val) mod P = - (X + val)).
      { rewrite Z.mod_small; destruct neg; lia. }
      rewrite MM.
      destruct (a_sign a) eqn:Es; subst sign.
      * assert (SZ : negb ((if neg then -1 else 1) =? 0) = true) by (destruct neg; reflexivity).
        rewrite SZ. destruct (Nat.eqb_spec (length ds) z') as [Ez|Ez].
        { exfalso. apply NX. apply Z2. lia. }
        unfold set_fd at 2 3. cbn [fa]. rewrite E2. cbn [fd].
        assert (U2 : unpack (packed a neg ds2) = pre_of ds2 ++ ds2 ++ [packed_sign_nibble (a_sign a) neg])
          by now apply packed_unpack.
        set (t := if - (if neg then -1 else 1) <? 0 then 13 else 12).
        assert (Tn : t = packed_sign_nibble (a_sign a) (negb neg)) by (unfold t; rewrite Es; destruct neg; reflexivity).
        assert (Nt : is_nib t) by (rewrite Tn; apply sign_nib_ok).
        destruct (set_sign_nib_spec _ _ _ _ t B2 Nt U2) as [SU SB].
        exists (negb neg), ds2. rewrite (packed_unfold a (negb neg) ds2), <- Tn.
        apply packed_from_unpack in SU. rewrite SU. unfold set_fd; cbn [fa].
        split; [reflexivity|]. split; [exact L2|]. split; [exact D2|]. split; [discriminate|].
        unfold signed_value. rewrite V2'. destruct neg; cbn [negb].
        -- rewrite Z.sgn_pos by lia. lia.
        -- rewrite Z.sgn_neg by lia. lia.
      * cbn [Z.eqb negb]. unfold set_fd. cbn [fa]. rewrite E2. exists neg, ds2.
        split; [reflexivity|]. split; [exact L2|]. split; [exact D2|]. split; [exact Hn|].
        unfold signed_value. rewrite (Hn eq_refl). exact V2'.
  - (* addition *)
    assert (EV : X + val = X' + P * c) by (rewrite <- AV in V'; rewrite Z.abs_eq in V' by lia; lia).
    assert (MM : Z.abs (if neg then - (X + val) else X + val) mod P = X').
    { assert (Z.abs (if neg then - (X + val) else X + val) = X' + c * P) by (destruct neg; lia).
      rewrite H2, Z.mod_add by lia. apply Z.mod_small. lia. }
    rewrite MM.
    destruct (a_sign a) eqn:Es; subst sign.
    + assert (SZ : negb ((if neg then -1 else 1) =? 0) = true) by (destruct neg; reflexivity).
      rewrite SZ. destruct (Nat.eqb_spec (length ds) z') as [Ez|Ez].
      * assert (X' = 0) by (apply Z2; lia).
        exists false, ds'. rewrite (SIGNED 12 ltac:(unfold is_nib; lia) false eq_refl).
        split; [reflexivity|]. split; [exact L'|]. split; [exact D'|]. split; [discriminate|].
        unfold signed_value. fold X'. rewrite H2. lia.
      * assert (X' <> 0) by (intro Q; apply Z2 in Q; lia).
        exists neg, ds'. rewrite (proj2 (PK neg) eq_refl) at 1.
        split; [reflexivity|]. split; [exact L'|]. split; [exact D'|]. split; [exact Hn|].
        assert (0 <= P * c) by (apply Z.mul_nonneg_nonneg; lia).
        unfold signed_value. fold X'. destruct neg.
        ++ rewrite Z.sgn_neg by lia. lia.
        ++ rewrite Z.sgn_pos by lia. lia.
    + cbn [Z.eqb negb]. exists neg, ds'. rewrite (proj2 (PK neg) eq_refl) at 1.
      split; [reflexivity|]. split; [exact L'|]. split; [exact D'|]. split; [exact Hn|].
      rewrite Hn by auto. reflexivity.
Qed.

(** ** cob_set_packed_int *)

Lemma pack_app : forall l1 l2, Nat.even (length l1) = true ->
  pack_nibbles (l1 ++ l2) = pack_nibbles l1 ++ pack_nibbles l2.
Proof.
  intros l1. induction l1 as [|x|x y l IH] using two_ind; intros l2 H.
  - reflexivity.
  - discriminate.
  - cbn [app pack_nibbles]. rewrite IH; auto.
Qed.

Lemma repeat_snoc : forall n (x : Z), repeat x (S n) = repeat x n ++ [x].
Proof. induction n; intros; auto. change (repeat x (S (S n))) with (x :: repeat x (S n)).
  rewrite IHn at 1. reflexivity. Qed.

Lemma low_digits_0 : forall k, low_digits k 0 = repeat 0 k.
Proof. induction k; auto. cbn [low_digits]. change (0 / 10) with 0. change (0 mod 10) with 0.
  now rewrite IHk, <- repeat_snoc. Qed.

Lemma pack_zeros : forall p, pack_nibbles (repeat 0 (2 * p)) = repeat 0 p.
Proof. intros. now rewrite <- unpack_repeat0, pack_unpack. Qed.

Lemma low_digits_two : forall k n, low_digits (S (S k)) n = low_digits k (n / 100) ++ [n / 10 mod 10; n mod 10].
Proof. intros. cbn [low_digits]. rewrite <- app_assoc. rewrite Z.div_div by lia. reflexivity. Qed.

Lemma bcd_mod : forall n, 0 <= n -> bcd (n mod 100) = 16 * (n / 10 mod 10) + n mod 10.
Proof. intros. unfold bcd. lia. Qed.

Lemma packed_int_loop_spec : forall p n post, 0 <= n ->
  packed_int_loop p n (repeat 0 p ++ post) = pack_nibbles (low_digits (2 * p) n) ++ post.
Proof.
  induction p as [|q IH]; intros n post Hn; [reflexivity|].
  cbn [packed_int_loop]. destruct (Z.eqb_spec n 0) as [->|Hz].
  - now rewrite low_digits_0, pack_zeros.
  - rewrite repeat_snoc, <- app_assoc. cbn [app].
    replace q with (length (repeat 0 q)) at 2 by apply repeat_length.
    rewrite upd_mid, IH by lia.
    replace (2 * S q)%nat with (S (S (2 * q))) by lia.
    rewrite low_digits_two, pack_app, <- app_assoc.
    + cbn [pack_nibbles app]. now rewrite bcd_mod.
    + rewrite low_digits_length. apply even_2k.
Qed.

Lemma cmp_fill_eq : forall fuel p n d, 0 <= n < 100 ^ Z.of_nat fuel -> (fuel <= S p)%nat ->
  cmp_fill fuel p n d = packed_int_loop (S p) n d.
Proof.
  induction fuel as [|g IH]; intros p n d Hn Hp.
  - change (100 ^ Z.of_nat 0) with 1 in Hn. replace n with 0 by lia. reflexivity.
  - cbn [cmp_fill packed_int_loop]. destruct (n =? 0); auto.
    assert (BB : Z.lor (n mod 100 mod 10) (16 * (n mod 100 / 10)) = bcd (n mod 100)).
    { rewrite Z.lor_comm. unfold bcd. apply lor_nib; lia. }
    rewrite BB. assert (HN : 0 <= n / 100 < 100 ^ Z.of_nat g).
    { rewrite Nat2Z.inj_succ, Z.pow_succ_r in Hn by lia. lia. }
    destruct p as [|p].
    + assert (g = 0)%nat by lia. subst g. reflexivity.
    + cbn [pred]. apply IH; auto. lia.
Qed.

Theorem set_packed_int_spec : forall f D val, wf_packed f D -> - 2 ^ 31 < val < 2 ^ 31 ->
  set_packed_int f val =
    Ok (mkField (fa f) (packed (fa f) (val <? 0) (low_digits D (Z.abs val)))).
Proof.
  intros f D val (Ht & HD & H1 & Hs) Hv. unfold set_packed_int.
  destruct (Z.eqb_spec val (- 2 ^ 31)) as [Hq|_]; [lia|].
  set (n := Z.abs val). set (s := packed_sign_nibble (a_sign (fa f)) (val <? 0)).
  assert (LS : Z.lor (16 * (n mod 10)) (if negb (a_sign (fa f)) then 15 else if val <? 0 then 13 else 12)
               = 16 * (n mod 10) + s).
  { unfold s, packed_sign_nibble. destruct (a_sign (fa f)); cbn [negb];
      apply lor_nib; try lia; destruct (val <? 0); lia. }
  rewrite LS. rewrite Hs. replace (D / 2 + 1 - 1)%nat with (D / 2)%nat by lia.
  set (p := (D / 2)%nat).
  cbv zeta.
  assert (PL : packed_int_loop p (n / 10) (upd p (16 * (n mod 10) + s) (repeat 0 (p + 1))) =
     pack_nibbles (low_digits (2 * p) (n / 10)) ++ [16 * (n mod 10) + s]).
  { replace (p + 1)%nat with (S p) by lia. rewrite repeat_snoc.
    replace p with (length (repeat 0 p)) at 2 by apply repeat_length.
    rewrite upd_snoc. apply packed_int_loop_spec. unfold n. lia. }
  rewrite PL. clear PL.
  assert (EQ : pack_nibbles (low_digits (2 * p) (n / 10)) ++ [16 * (n mod 10) + s] =
               pack_nibbles (low_digits (S (2 * p)) n ++ [s])).
  { cbn [low_digits]. rewrite <- app_assoc, pack_app; [reflexivity|].
    rewrite low_digits_length. apply even_2k. }
  rewrite EQ. unfold set_fd. f_equal. f_equal.
  rewrite packed_unfold. fold s. unfold pre_of. rewrite low_digits_length.
  rewrite HD. destruct (Nat.even D) eqn:ED.
  - destruct (even_half D ED) as [k Ek]. assert (Hp : p = k) by (unfold p; rewrite Ek; apply div2_even).
    replace (Z.even (Z.of_nat D)) with true by (rewrite Ek; rewrite Nat2Z.inj_mul, Z.even_mul; reflexivity).
    clear EQ. rewrite Hp. clearbody p. replace (2 * k)%nat with D by exact Ek.
    pose proof (skipn_low_digits D 1 n) as SK. change (1 + D)%nat with (S D) in SK.
    pose proof (low_digits_length (S D) n) as LL.
    pose proof (low_digits_dig (S D) n) as DG.
    destruct (low_digits (S D) n) as [|x r]; [discriminate|]. cbn [skipn] in SK. subst r.
    pose proof (low_digits_length D n) as LL'.
    destruct (low_digits D n) as [|y r]; [cbn [length] in LL'; lia|].
    cbn [app pack_nibbles nth upd]. f_equal.
    inversion DG as [|? ? DX DR]. inversion DR as [|? ? DY DR'].
    unfold is_dig in *. rewrite land_15 by (unfold is_byte; lia). unfold lo4. lia.
  - destruct (odd_half D ED) as [k Ek]. assert (Hp : p = k) by (unfold p; rewrite Ek; apply div2_odd).
    replace (Z.even (Z.of_nat D)) with false.
    2:{ rewrite Ek, Nat2Z.inj_add, Nat2Z.inj_mul, Z.even_add, Z.even_mul. reflexivity. }
    clear EQ. rewrite Hp. clearbody p. replace (S (2 * k)) with D by (clear -Ek; lia). reflexivity.
Qed.

(** ** cob_cmp_packed *)

Lemma cmp_pack : forall l1 l2, length l1 = length l2 -> Nat.even (length l1) = true ->
  Forall is_dig l1 -> Forall is_dig l2 ->
  Z.sgn (cmp_bytes (pack_nibbles l1) (pack_nibbles l2)) = Z.sgn (digits_value l1 - digits_value l2).
Proof.
  intros l1. induction l1 as [|x|a b l IH] using two_ind; intros l2 HL HE H1 H2.
  - destruct l2; [reflexivity|discriminate].
  - discriminate.
  - destruct l2 as [|a' [|b' l']]; try discriminate. cbn [pack_nibbles cmp_bytes].
    cbn [length] in HL, HE. assert (HL' : length l = length l') by lia.
    inversion H1 as [|? ? DA H1']; subst. inversion H1' as [|? ? DB H1'']; subst.
    inversion H2 as [|? ? DA' H2']; subst. inversion H2' as [|? ? DB' H2'']; subst.
    assert (EV : forall u v r, digits_value (u :: v :: r) = (10 * u + v) * 10 ^ Z.of_nat (length r) + digits_value r).
    { intros. rewrite !digits_value_cons. cbn [length]. rewrite pow10_S. lia. }
    rewrite !EV. rewrite <- HL'. unfold is_dig in DA, DB, DA', DB'.
    pose proof (digits_value_bound l H1'') as B1. pose proof (digits_value_bound l' H2'') as B2.
    rewrite <- HL' in B2. set (P := 10 ^ Z.of_nat (length l)) in *.
    set (V1 := digits_value l) in *. set (V2 := digits_value l') in *.
    destruct (Z.eqb_spec (16 * a + b) (16 * a' + b')) as [E|E].
    + assert (a = a') by lia. assert (b = b') by lia. subst a' b'.
      rewrite IH by (auto; now apply Nat.even_spec || auto).
      f_equal. fold V1 V2. lia.
    + destruct (Z.lt_trichotomy (10 * a + b) (10 * a' + b')) as [C|[C|C]].
      * assert ((10 * a + b + 1) * P <= (10 * a' + b') * P) by (apply Z.mul_le_mono_nonneg_r; lia).
        rewrite !Z.sgn_neg; lia.
      * exfalso. lia.
      * assert ((10 * a' + b' + 1) * P <= (10 * a + b) * P) by (apply Z.mul_le_mono_nonneg_r; lia).
        rewrite !Z.sgn_pos; lia.
Qed.

(** States of the static cache. *)
Definition cache_ok (st : cmp_state) : Prop :=
  Z.abs (lastval st) < 2 ^ 31 /\ pvalue st = pack_nibbles (low_digits 39 (Z.abs (lastval st)) ++ [0]).

Lemma cache_init : cache_ok cmp_init.
Proof. split; [reflexivity|]. vm_compute. reflexivity. Qed.

Lemma cache_set : forall st n, cache_ok st -> Z.abs n < 2 ^ 31 ->
  cache_ok (cmp_set st n) /\ lastval (cmp_set st n) = n.
Proof.
  intros st n [HB HP] Hn. unfold cmp_set.
  destruct (Z.eqb_spec n (lastval st)) as [->|Hne]; [split; [split|]; auto|].
  split; [|reflexivity]. split; [exact Hn|]. cbn [lastval pvalue].
  assert (F : firstn 14 (pvalue st) = repeat 0 14).
  { rewrite HP. change 39%nat with (28 + 11)%nat. rewrite low_digits_pad.
    2:{ change (10 ^ Z.of_nat 11) with 100000000000. change (2 ^ 31) with 2147483648 in HB. lia. }
    rewrite <- app_assoc, pack_app by (rewrite repeat_length; reflexivity).
    change 28%nat with (2 * 14)%nat. rewrite pack_zeros.
    change 14%nat with (length (repeat 0 14)) at 1. apply firstn_all_app. }
  rewrite F. change (repeat 0 14 ++ repeat 0 6) with (repeat 0 20).
  set (m := Z.abs n) in *.
  assert (G : cmp_fill 10 18 (m / 10) (upd 19 (16 * (m mod 10)) (repeat 0 20)) =
              pack_nibbles (low_digits 39 m ++ [0])).
  { rewrite cmp_fill_eq; [|change (100 ^ Z.of_nat 10) with 100000000000000000000;
                            change (2 ^ 31) with 2147483648 in Hn; lia|lia].
    change (upd 19 (16 * (m mod 10)) (repeat 0 20)) with (repeat 0 19 ++ [16 * (m mod 10)]).
    rewrite packed_int_loop_spec by lia.
    assert (EQ : low_digits 39 m = low_digits 38 (m / 10) ++ [m mod 10]) by reflexivity.
    rewrite EQ, <- app_assoc. change (2 * 19)%nat with 38%nat.
    pose proof (low_digits_length 38 (m / 10)) as LL.
    rewrite (pack_app (low_digits 38 (m / 10))) by (rewrite LL; reflexivity).
    cbn [app pack_nibbles]. f_equal. f_equal. lia. }
  destruct (Z.eqb_spec m 0) as [E|E]; [|exact G].
  rewrite E. vm_compute. reflexivity.
Qed.

(** The 20-byte work area built from the item. *)
Lemma cmp_area : forall a neg ds, ds <> [] -> Forall is_dig ds ->
  a_digits a = Z.of_nat (length ds) -> (length ds <= 38)%nat ->
  let f := mkField a (packed a neg ds) in
  let v := repeat 0 (20 - f_size f) ++ fd f in
  let v := upd 19 (Z.land (nth 19 v 0) 240) v in
  let k := (20 - f_size f)%nat in
  (if Z.even (a_digits (fa f)) then upd k (Z.land (nth k v 0) 15) v else v) =
  pack_nibbles (repeat 0 (39 - length ds) ++ ds ++ [0]).
Proof.
  intros a neg ds Hne Hd HD H38. cbn [fa fd]. unfold f_size. cbn [fd]. rewrite packed_length.
  set (k := (20 - (length ds / 2 + 1))%nat).
  set (s := packed_sign_nibble (a_sign a) neg).
  assert (Lp : (length ds / 2 <= 19)%nat).
  { apply Nat.div_le_upper_bound; lia. }
  assert (V0 : repeat 0 k ++ packed a neg ds = pack_nibbles (repeat 0 (2 * k) ++ pre_of ds ++ ds ++ [s])).
  { rewrite packed_unfold, (pack_app (repeat 0 (2 * k))) by (rewrite repeat_length; apply even_2k).
    rewrite pack_zeros. reflexivity. }
  set (v0 := repeat 0 k ++ packed a neg ds) in *.
  assert (B0 : bytes_ok v0).
  { unfold v0. apply Forall_app. split; [apply repeat_bytes0|now apply packed_bytes]. }
  assert (L0 : length v0 = 20%nat).
  { unfold v0. rewrite app_length, repeat_length, packed_length. unfold k. lia. }
  assert (PAD : repeat 0 (2 * k) ++ pre_of ds = repeat 0 (39 - length ds)).
  { unfold pre_of. destruct (Nat.even (length ds)) eqn:E.
    - destruct (even_half _ E) as [j Ej]. change [0] with (repeat 0 1). rewrite <- repeat_app. f_equal.
      unfold k. rewrite Ej, div2_even. lia.
    - destruct (odd_half _ E) as [j Ej]. rewrite app_nil_r. f_equal.
      unfold k. rewrite Ej, div2_odd. lia. }
  assert (U0 : unpack v0 = repeat 0 (39 - length ds) ++ ds ++ [s]).
  { rewrite V0, unpack_pack.
    - rewrite app_assoc, PAD. reflexivity.
    - apply Forall_app. split; [apply Forall_forall; intros x Hx; apply repeat_spec in Hx; subst; unfold is_nib; lia|].
      apply Forall_app. split; [unfold pre_of; destruct (Nat.even (length ds)); constructor; auto; unfold is_nib; lia|].
      apply Forall_app. split; [eapply Forall_impl; [|exact Hd]; unfold is_dig, is_nib; cbv beta; lia|].
      constructor; auto. apply sign_nib_ok.
    - rewrite app_assoc, PAD, !app_length, repeat_length. cbn [length].
      replace (39 - length ds + (length ds + 1))%nat with 40%nat by lia. reflexivity. }
  assert (BY : is_byte (nth 19 v0 0)) by (apply Forall_nth_Z; auto; lia).
  set (v1 := upd 19 (Z.land (nth 19 v0 0) 240) v0).
  assert (U1 : unpack v1 = repeat 0 (39 - length ds) ++ ds ++ [0]).
  { unfold v1. rewrite land_240 by auto. rewrite unpack_upd.
    replace (hi4 (16 * hi4 (nth 19 v0 0))) with (hi4 (nth 19 v0 0)) by (unfold hi4; lia).
    replace (lo4 (16 * hi4 (nth 19 v0 0))) with 0 by (unfold lo4; lia).
    rewrite upd_same by (rewrite upd_nth_other by lia; apply nth_unpack_hi).
    rewrite U0, !app_assoc.
    replace (2 * 19 + 1)%nat with (length (repeat 0 (39 - length ds) ++ ds)).
    2:{ rewrite app_length, repeat_length. lia. }
    now rewrite upd_snoc. }
  assert (R : v1 = pack_nibbles (repeat 0 (39 - length ds) ++ ds ++ [0])) by (rewrite <- U1; now rewrite pack_unpack).
  rewrite <- R. destruct (Z.even (a_digits a)) eqn:EV; [|reflexivity].
  assert (HI : hi4 (nth k v1 0) = 0).
  { rewrite <- nth_unpack_hi, U1. rewrite app_nth1, nth_repeat0; [reflexivity|].
    rewrite repeat_length. rewrite HD in EV.
    assert (E2 : Nat.even (length ds) = true).
    { apply Nat.even_spec. apply Z.even_spec in EV. destruct EV as [q Eq]. exists (Z.to_nat q). lia. }
    destruct (even_half _ E2) as [j Ej]. unfold k. rewrite Ej, div2_even. lia. }
  assert (B1 : is_byte (nth k v1 0)).
  { destruct (Nat.lt_ge_cases k (length v1)) as [C|C].
    - apply Forall_nth_Z; auto. unfold v1. apply Forall_upd; auto. rewrite land_240 by auto.
      unfold is_byte, hi4 in *. lia.
    - rewrite nth_overflow by auto. unfold is_byte. lia. }
  apply upd_same. rewrite land_15 by auto. unfold hi4, lo4, is_byte in *. lia.
Qed.

Theorem cmp_packed_spec : forall st a neg ds n,
  cache_ok st -> ds <> [] -> Forall is_dig ds -> a_digits a = Z.of_nat (length ds) ->
  (length ds <= 38)%nat -> (a_sign a = false -> neg = false) ->
  (neg = true -> digits_value ds <> 0) -> Z.abs n < 2 ^ 31 ->
  exists c st', cmp_packed st (mkField a (packed a neg ds)) n = Ok (c, st') /\ cache_ok st' /\ Z.sgn c = Z.sgn (signed_value neg ds - n).
Proof.
  intros st a neg ds n Hst Hne Hd HD H38 Hsg Hnz Hn.
  pose proof (cmp_area a neg ds Hne Hd HD H38) as AR. cbv zeta in AR.
  unfold cmp_packed. cbv zeta. rewrite AR. clear AR.
  rewrite packed_get_sign_spec by auto.
  set (sign := if a_sign a then if neg then -1 else 1 else 0).
  assert (SG : (sign <? 0) = neg).
  { unfold sign. destruct (a_sign a) eqn:E; [destruct neg; reflexivity|]. now rewrite Hsg. }
  assert (SG' : (0 <=? sign) = negb neg) by (rewrite Z.leb_antisym, SG; reflexivity).
  rewrite SG, SG'. clear SG SG'. clearbody sign. pose proof (digits_value_bound ds Hd) as DB. set (X := digits_value ds) in *.
  destruct (negb neg && (n <? 0)) eqn:C1.
  { apply andb_true_iff in C1. destruct C1 as [C1 C2]. apply Z.ltb_lt in C2.
    destruct neg; [discriminate|]. exists 1, st. split; [reflexivity|]. split; [exact Hst|].
    unfold signed_value. fold X. rewrite !Z.sgn_pos; lia. }
  destruct (neg && (0 <=? n)) eqn:C2.
  { apply andb_true_iff in C2. destruct C2 as [C2 C3]. apply Z.leb_le in C3. subst neg.
    exists (-1), st. split; [reflexivity|]. split; [exact Hst|].
    specialize (Hnz eq_refl). unfold signed_value. fold X. rewrite !Z.sgn_neg; lia. }
  unfold f_size. cbn [fd]. rewrite packed_length.
  assert (Lp : (length ds / 2 <= 19)%nat) by (apply Nat.div_le_upper_bound; lia).
  destruct (Nat.ltb_spec 20 (length ds / 2 + 1)); [lia|].
  destruct (Z.eqb_spec n (- 2 ^ 31)); [lia|]. cbn [orb].
  destruct (cache_set st n Hst Hn) as [CO LV].
  destruct CO as [CO1 CO2]. rewrite LV in CO2.
  set (st' := cmp_set st n) in *.
  exists (let c := cmp_bytes (pack_nibbles (repeat 0 (39 - length ds) ++ ds ++ [0])) (pvalue st') in
          if neg then - c else c), st'.
  split; [reflexivity|]. split; [split; [exact CO1|rewrite LV; exact CO2]|].
  cbv zeta. rewrite CO2.
  assert (PADX : digits_value (repeat 0 (39 - length ds) ++ ds ++ [0]) = 10 * X).
  { rewrite app_assoc, digits_value_snoc, digits_value_app.
    replace (digits_value (repeat 0 (39 - length ds))) with 0.
    2:{ rewrite <- low_digits_0, low_digits_value by lia. now rewrite Z.mod_0_l by (pose proof (pow10_pos_nat (39 - length ds)); lia). }
    fold X. lia. }
  assert (NV : digits_value (low_digits 39 (Z.abs n) ++ [0]) = 10 * Z.abs n).
  { rewrite digits_value_snoc, low_digits_value by lia. rewrite Z.mod_small; [lia|].
    split; [lia|]. eapply Z.lt_trans; [exact Hn|]. reflexivity. }
  assert (CP : Z.sgn (cmp_bytes (pack_nibbles (repeat 0 (39 - length ds) ++ ds ++ [0]))
                 (pack_nibbles (low_digits 39 (Z.abs n) ++ [0]))) = Z.sgn (10 * X - 10 * Z.abs n)).
  { rewrite <- PADX, <- NV. apply cmp_pack.
    - rewrite !app_length, repeat_length, low_digits_length. cbn [length]. lia.
    - rewrite !app_length, repeat_length. cbn [length].
      replace (39 - length ds + (length ds + 1))%nat with 40%nat by lia. reflexivity.
    - apply Forall_app. split; [apply Forall_forall; intros x Hx; apply repeat_spec in Hx; rewrite Hx; unfold is_dig; lia|].
      apply Forall_app. split; auto. constructor; auto. unfold is_dig; lia.
    - apply Forall_app. split; [apply low_digits_dig|]. constructor; auto. unfold is_dig; lia. }
  unfold signed_value. fold X.
  destruct neg; cbn [negb andb] in C1, C2.
  - rewrite Z.sgn_opp, CP. apply Z.leb_gt in C2.
    rewrite <- Z.sgn_opp. rewrite Z.abs_neq by lia.
    replace (- (10 * X - 10 * - n)) with (10 * (- X - n)) by lia. rewrite Z.sgn_mul. cbn [Z.sgn]. lia.
  - rewrite CP. apply Z.ltb_ge in C1. rewrite Z.abs_eq by lia.
    replace (10 * X - 10 * n) with (10 * (X - n)) by lia. rewrite Z.sgn_mul. cbn [Z.sgn]. lia.
Qed.

(** ** codegen.h *)

Lemma packed_loop_spec : forall l v s, Nat.even (length l) = false -> Forall is_dig l -> is_nib s ->
  get_packed_int_loop v (pack_nibbles (l ++ [s])) = digits_value_aux v l.
Proof.
  intros l. induction l as [|x|a b l IH] using two_ind; intros v s HE HD Hs.
  - discriminate.
  - inversion HD; subst. unfold is_dig, is_nib in *. cbn [app pack_nibbles get_packed_int_loop digits_value_aux].
    replace ((16 * x + s) / 16) with x by lia. lia.
  - inversion HD as [|? ? DA HD']; subst. inversion HD' as [|? ? DB HD'']; subst.
    cbn [app pack_nibbles digits_value_aux].
    assert (NE : pack_nibbles (l ++ [s]) <> []).
    { destruct l as [|c l]; [discriminate|]. destruct l; cbn; discriminate. }
    assert (EQ : forall b0 r, r <> [] -> get_packed_int_loop v (b0 :: r) =
              get_packed_int_loop ((v * 10 + b0 / 16) * 10 + Z.land b0 15) r).
    { intros b0 r Hr. destruct r; [congruence|reflexivity]. }
    rewrite EQ by auto. rewrite IH by auto. unfold is_dig in *.
    rewrite land_15 by (unfold is_byte; lia). unfold lo4. f_equal. lia.
Qed.

Lemma last_packed : forall a neg ds, Forall is_dig ds -> ds <> [] ->
  lo4 (last (packed a neg ds) 0) = packed_sign_nibble (a_sign a) neg.
Proof.
  intros. pose proof (packed_unpack a neg ds H) as U.
  assert (NE : packed a neg ds <> []).
  { intro Q. pose proof (packed_length a neg ds) as L. rewrite Q in L. cbn [length] in L. lia. }
  destruct (nonempty_snoc _ NE) as (r & x & E). rewrite E in *. rewrite last_snoc.
  rewrite unpack_app in U. unfold packed_nibs in U. rewrite !app_assoc in U.
  change (unpack [x]) with ([hi4 x] ++ [lo4 x]) in U. rewrite app_assoc in U.
  apply app_inj_tail in U. tauto.
Qed.

Theorem get_packed_int_spec : forall a neg ds,
  ds <> [] -> Forall is_dig ds -> (a_sign a = false -> neg = false) -> digits_value ds < 2 ^ 31 ->
  get_packed_int (mkField a (packed a neg ds)) = Ok (signed_value neg ds).
Proof.
  intros a neg ds Hne Hd Hsg HV. unfold get_packed_int. cbn [fd].
  assert (LE : get_packed_int_loop 0 (packed a neg ds) = digits_value ds).
  { rewrite packed_unfold. unfold pre_of. rewrite app_assoc, packed_loop_spec.
    - destruct (Nat.even (length ds)); reflexivity.
    - destruct (Nat.even (length ds)) eqn:E; cbn [app length].
      + rewrite Nat.even_succ, <- Nat.negb_even, E. reflexivity.
      + exact E.
    - apply Forall_app. split; auto. destruct (Nat.even (length ds)); constructor; auto. unfold is_dig; lia.
    - apply sign_nib_ok. }
  rewrite LE. destruct (Z.leb_spec (2 ^ 31) (digits_value ds)); [lia|].
  assert (BL : is_byte (last (packed a neg ds) 0)).
  { assert (NE : packed a neg ds <> []).
    { intro Q. pose proof (packed_length a neg ds) as L. rewrite Q in L. cbn [length] in L. lia. }
    destruct (nonempty_snoc _ NE) as (r & x & E).
    pose proof (packed_bytes a neg ds Hd) as B. rewrite E in *. rewrite last_snoc.
    apply Forall_app in B. destruct B as [_ B]. now inversion B. }
  rewrite land_15 by auto. rewrite last_packed by auto. unfold packed_sign_nibble, signed_value.
  destruct (a_sign a) eqn:Es; [destruct neg; reflexivity|]. rewrite Hsg by auto. reflexivity.
Qed.

Fixpoint le100 (l : list Z) : Z :=
  match l with [] => 0 | b :: r => (10 * hi4 b + lo4 b) + 100 * le100 r end.
Definition is_bcd (b : Z) : Prop := is_byte b /\ is_dig (hi4 b) /\ is_dig (lo4 b).

Lemma le100_rev : forall l, digits_value (unpack (rev l)) = le100 l.
Proof.
  induction l as [|b l IH]; [reflexivity|]. cbn [rev le100]. rewrite unpack_app.
  change (unpack [b]) with ([hi4 b] ++ [lo4 b]). rewrite app_assoc, !digits_value_snoc, IH. lia.
Qed.

Lemma add_loop100 : forall l carry n, Forall is_bcd l -> 0 <= carry <= 1 -> 0 <= n ->
  let r := add_packed_int_loop carry n l in
  length r = length l /\ Forall is_bcd r /\
  le100 r = (le100 l + carry + n) mod 100 ^ Z.of_nat (length l).
Proof.
  induction l as [|b l IH]; intros carry n HB HC Hn; cbv zeta.
  - cbn [add_packed_int_loop length le100]. change (100 ^ Z.of_nat 0) with 1. rewrite Z.mod_1_r. auto.
  - inversion HB as [|? ? Hb HB']; subst. destruct Hb as (B1 & B2 & B3).
    cbn [add_packed_int_loop].
    assert (PB : 0 <= le100 (b :: l) < 100 ^ Z.of_nat (length (b :: l))).
    { clear -HB. induction HB as [|c l0 [C1 [C2 C3]] HB IH].
      - cbn. lia.
      - cbn [le100 length]. rewrite Nat2Z.inj_succ, Z.pow_succ_r by lia. unfold is_dig in *. lia. }
    destruct ((carry =? 0) && (n =? 0)) eqn:E.
    + apply andb_true_iff in E. destruct E as [E1 E2]. apply Z.eqb_eq in E1, E2. subst.
      rewrite !Z.add_0_r, Z.mod_small by auto. auto.
    + set (inc := b / 16 * 10 + Z.land b 15 + carry + n mod 100).
      assert (LL : Z.land b 15 = lo4 b) by now apply land_15.
      assert (HH : b / 16 = hi4 b).
      { unfold hi4. reflexivity. }
      unfold is_dig in *.
      assert (IB : 0 <= inc < 200) by (unfold inc; rewrite LL, HH; lia).
      assert (BY : Z.lor (16 * (inc mod 100 / 10)) (inc mod 100 mod 10) =
                   16 * (inc mod 100 / 10) + inc mod 100 mod 10) by (apply lor_nib; lia).
      rewrite BY.
      destruct (IH (inc / 100) (n / 100) HB' ltac:(lia) ltac:(lia)) as (R1 & R2 & R3).
      set (r := add_packed_int_loop (inc / 100) (n / 100) l) in *.
      split; [cbn [length]; congruence|]. 
      assert (H4 : hi4 (16 * (inc mod 100 / 10) + inc mod 100 mod 10) = inc mod 100 / 10).
      { unfold hi4. lia. }
      assert (L4 : lo4 (16 * (inc mod 100 / 10) + inc mod 100 mod 10) = inc mod 100 mod 10).
      { unfold lo4. lia. }
      split.
      * constructor; auto. split; [unfold is_byte; lia|]. rewrite H4, L4. unfold is_dig. lia.
      * cbn [le100 length]. rewrite H4, L4, R3, Nat2Z.inj_succ, Z.pow_succ_r by lia.
        set (P := 100 ^ Z.of_nat (length l)) in *.
        assert (PP : 0 < P) by (unfold P; apply Z.pow_pos_nonneg; lia).
        rewrite (Z.rem_mul_r _ 100 P) by lia.
        assert (T : 10 * hi4 b + lo4 b + 100 * le100 l + carry + n = inc + 100 * (le100 l + n / 100)).
        { unfold inc. rewrite LL, HH. lia. }
        rewrite T.
        replace ((inc + 100 * (le100 l + n / 100)) mod 100) with (inc mod 100).
        2:{ rewrite Z.mul_comm, Z.mod_add by lia. reflexivity. }
        replace ((inc + 100 * (le100 l + n / 100)) / 100) with (le100 l + inc / 100 + n / 100).
        2:{ rewrite Z.mul_comm, Z.div_add by lia. lia. }
        lia.
Qed.

(** Additions that keep the sign (codegen.h 268-288). *)
Lemma add_packed_int_same : forall a neg ds n,
  ds <> [] -> Forall is_dig ds -> (a_sign a = false -> neg = false) ->
  0 < n -> digits_value ds + n < 10 ^ Z.of_nat (length ds) ->
  exists ds',
    (let d := packed a neg ds in let b := last d 0 in
     let inc := b / 16 + n mod 10 in
     rev (add_packed_int_loop (inc / 10) (n / 10) (rev (removelast d))) ++
       [Z.lor (16 * (inc mod 10)) (Z.land b 15)]) = packed a neg ds' /\
    length ds' = length ds /\ Forall is_dig ds' /\ digits_value ds' = digits_value ds + n.
Proof.
  intros a neg ds n Hne Hd Hsg Hn HF. cbv zeta.
  set (s := packed_sign_nibble (a_sign a) neg).
  assert (NE : packed a neg ds <> []).
  { intro Q. pose proof (packed_length a neg ds) as L. rewrite Q in L. cbn [length] in L. lia. }
  destruct (nonempty_snoc _ NE) as (r & b & E).
  pose proof (packed_bytes a neg ds Hd) as B. rewrite E in B. apply Forall_app in B. destruct B as [BR BB].
  inversion BB as [|? ? Bb _]; subst.
  pose proof (packed_unpack a neg ds Hd) as U. rewrite E, unpack_app in U. unfold packed_nibs in U.
  fold (pre_of ds) in U. change (unpack [b]) with ([hi4 b] ++ [lo4 b]) in U.
  rewrite !app_assoc in U. apply app_inj_tail in U. destruct U as [U SB]. fold s in SB.
  rewrite E, last_snoc, removelast_snoc.
  assert (HH : b / 16 = hi4 b) by reflexivity.
  rewrite land_15, HH, SB by auto. 
  assert (DU : Forall is_dig (pre_of ds ++ ds)).
  { apply Forall_app. split; auto. unfold pre_of. destruct (Nat.even (length ds)); constructor; auto. unfold is_dig; lia. }
  rewrite <- U in DU. apply Forall_app in DU. destruct DU as [DU1 DU2]. inversion DU2 as [|? ? DB _]; subst.
  assert (BCD : Forall is_bcd (rev r)).
  { apply Forall_rev. clear -DU1 BR. induction r as [|c r IH]; constructor.
    - inversion BR; subst. inversion DU1 as [|? ? D1 D2]; subst. inversion D2; subst. split; auto.
    - apply IH. now inversion BR. inversion DU1 as [|? ? D1 D2]; subst. now inversion D2. }
  unfold is_dig in DB. set (inc := hi4 b + n mod 10) in *.
  destruct (add_loop100 (rev r) (inc / 10) (n / 10) BCD ltac:(unfold inc; lia) ltac:(lia)) as (R1 & R2 & R3).
  set (r' := add_packed_int_loop (inc / 10) (n / 10) (rev r)) in *.
  rewrite rev_length in R1, R3.
  assert (LN : (2 * length r + 1 = length (pre_of ds) + length ds)%nat).
  { rewrite <- app_length, <- U, app_length, unpack_length. reflexivity. }
  assert (XV : digits_value ds = 10 * le100 (rev r) + hi4 b).
  { rewrite <- le100_rev, rev_involutive, <- digits_value_snoc, U, digits_value_app.
    unfold pre_of. destruct (Nat.even (length ds)); unfold digits_value; cbn [digits_value_aux]; lia. }
  set (nl := unpack (rev r') ++ [inc mod 10]).
  assert (NB : 0 <= le100 (rev r) + inc / 10 + n / 10 < 100 ^ Z.of_nat (length r)).
  { assert (C : 10 * 100 ^ Z.of_nat (length r) >= 10 ^ Z.of_nat (length ds)).
    { apply Z.le_ge. change 100 with (10 ^ 2). rewrite <- Z.pow_mul_r, <- Z.pow_succ_r by lia.
      apply Z.pow_le_mono_r; lia. }
    pose proof (digits_value_bound ds Hd). unfold inc. lia. }
  rewrite Z.mod_small in R3 by exact NB.
  assert (NV : digits_value nl = digits_value ds + n).
  { unfold nl. rewrite digits_value_snoc, le100_rev, R3, XV. unfold inc. lia. }
  assert (ND : Forall is_dig nl).
  { unfold nl. apply Forall_app. split.
    - clear -R2. apply Forall_rev in R2. induction R2 as [|c l [C1 [C2 C3]] _ IH]; constructor; auto; constructor; auto.
    - constructor; auto. unfold is_dig. lia. }
  assert (NLN : length nl = (length (pre_of ds) + length ds)%nat).
  { unfold nl. rewrite app_length, unpack_length, rev_length, R1. cbn [length]. lia. }
  assert (SP : exists ds', nl = pre_of ds ++ ds' /\ length ds' = length ds).
  { unfold pre_of in *. destruct (Nat.even (length ds)); [|exists nl; split; auto].
    destruct nl as [|x ds']; [cbn [length] in NLN; lia|]. exists ds'.
    cbn [length] in NLN. assert (LD : length ds' = length ds) by lia. split; auto.
    cbn [app]. f_equal. rewrite digits_value_cons in NV.
    inversion ND as [|? ? DX DR]; subst. pose proof (digits_value_bound ds' DR) as DB'.
    unfold is_dig in DX. destruct (Z.eq_dec x 0) as [|Nx]; auto. exfalso.
    rewrite LD in *. assert (1 * 10 ^ Z.of_nat (length ds) <= x * 10 ^ Z.of_nat (length ds)) by
      (apply Z.mul_le_mono_nonneg_r; lia). lia. }
  destruct SP as (ds' & SP1 & SP2). exists ds'. rewrite SP1 in ND, NV.
  apply Forall_app in ND. destruct ND as [_ ND].
  split; [|split; [exact SP2|split; [exact ND|]]].
  - rewrite packed_unfold. fold s. apply packed_from_unpack.
    rewrite (pre_len ds ds') by auto. rewrite app_assoc, <- SP1. unfold nl.
    assert (SN : is_nib s) by apply sign_nib_ok.
    assert (LB : Z.lor (16 * (inc mod 10)) s = 16 * (inc mod 10) + s) by (unfold is_nib in SN; apply lor_nib; lia).
    rewrite LB, unpack_app, <- app_assoc. f_equal. cbn [unpack app].
    unfold is_nib in SN. unfold hi4, lo4. f_equal; [lia|]. f_equal. lia.
  - rewrite digits_value_app in NV. rewrite <- NV. unfold pre_of.
    destruct (Nat.even (length ds)); unfold digits_value; cbn [digits_value_aux]; lia.
Qed.

Theorem add_packed_int_spec : forall a neg ds n,
  a_type a = TPacked -> ds <> [] -> Forall is_dig ds -> a_digits a = Z.of_nat (length ds) ->
  (a_sign a = false -> neg = false) -> a_scale a = 0 ->
  let P := 10 ^ Z.of_nat (length ds) in
  Z.abs n < 2 ^ 31 -> Z.abs n < P -> Z.abs (signed_value neg ds + n) < P ->
  exists neg' ds', add_packed_int (mkField a (packed a neg ds)) n = Ok (mkField a (packed a neg' ds')) /\
    length ds' = length ds /\ Forall is_dig ds' /\ (a_sign a = false -> neg' = false) /\
    signed_value neg' ds' =
      (let t := signed_value neg ds + n in if a_sign a then t else Z.abs t).
Proof.
  intros a neg ds n Ht Hne Hd HD Hsg Hsc P H31 HP HS. cbv zeta. unfold add_packed_int.
  pose proof (digits_value_bound ds Hd) as DB. fold P in DB.
  assert (S0 : 0 <= signed_value false ds) by (unfold signed_value; lia).
  destruct (Z.eqb_spec n 0) as [->|Hn0].
  { exists neg, ds. split; [reflexivity|]. split; auto. split; auto. split; auto.
    rewrite Z.add_0_r. destruct (a_sign a) eqn:Es; auto. rewrite Hsg by auto. lia. }
  assert (OTHER : exists neg' ds', add_int_packed (mkField a (packed a neg ds)) n =
     Ok (mkField a (packed a neg' ds')) /\
    length ds' = length ds /\ Forall is_dig ds' /\ (a_sign a = false -> neg' = false) /\
    signed_value neg' ds' =
      (let t := signed_value neg ds + n in if a_sign a then t else Z.abs t)).
  { unfold add_int_packed. destruct (Z.eqb_spec n 0); [lia|].
    assert (V1 : n * 10 ^ a_scale a = n) by (rewrite Hsc; change (10 ^ 0) with 1; lia).
    destruct (add_packed_spec a neg ds n Ht Hne Hd HD Hsg ltac:(lia)) as (neg' & ds' & E1 & E2 & E3 & E4 & E5).
    - rewrite V1. change (2 ^ 31) with 2147483648 in H31. change (2 ^ 63) with 9223372036854775808. lia.
    - rewrite V1. exact HP.
    - exists neg', ds'. repeat (split; [assumption|]). cbv zeta in *. rewrite E5, V1. fold P.
      rewrite (Z.mod_small (Z.abs _)) by lia.
      destruct (a_sign a); [apply Z.sgn_abs || (rewrite Z.mul_comm; apply Z.abs_sgn)|reflexivity]. }
  assert (BL : is_byte (last (packed a neg ds) 0)).
  { assert (NE : packed a neg ds <> []).
    { intro Q. pose proof (packed_length a neg ds) as L. rewrite Q in L. cbn [length] in L. lia. }
    destruct (nonempty_snoc _ NE) as (r & x & E).
    pose proof (packed_bytes a neg ds Hd) as B. rewrite E in *. rewrite last_snoc.
    apply Forall_app in B. destruct B as [_ B]. now inversion B. }
  assert (NN : (Z.land (last (packed a neg ds) 0) 15 =? 13) = neg).
  { rewrite land_15 by auto. rewrite last_packed by auto. unfold packed_sign_nibble.
    destruct (a_sign a) eqn:Es; [destruct neg; reflexivity|]. rewrite Hsg by auto. reflexivity. }
  cbn [fd]. rewrite NN.
  destruct (neg && (0 <? n)) eqn:C1; [exact OTHER|].
  destruct (negb neg && (n <? 0)) eqn:C2; [exact OTHER|].
  destruct (Z.eqb_spec n (- 2 ^ 31)) as [Q|_]; [lia|].
  destruct (add_packed_int_same a neg ds (Z.abs n) Hne Hd Hsg ltac:(lia)) as (ds' & E1 & E2 & E3 & E4).
  { fold P. unfold signed_value in HS. destruct neg; cbn [negb andb] in C1, C2; 
      [apply Z.ltb_ge in C1|apply Z.ltb_ge in C2]; lia. }
  cbv zeta in E1. exists neg, ds'. unfold set_fd. cbn [fa]. rewrite E1.
  split; [reflexivity|]. split; auto. split; auto. split; auto.
  unfold signed_value. rewrite E4. destruct neg; cbn [negb andb] in C1, C2.
  - apply Z.ltb_ge in C1. destruct (a_sign a); [lia|]. discriminate Hsg; auto.
  - apply Z.ltb_ge in C2. destruct (a_sign a); lia.
Qed.
