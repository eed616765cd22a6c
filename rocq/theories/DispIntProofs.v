(** Proofs about DispInt.v. *)
From Verif Require Import Base BaseFacts Field Sign Decimal SpecNum Numeric SpecStore
  NumFacts DispProofs PackedProofs StoreProofs PackedInt DispInt.

Fixpoint le10 (l : list Z) : Z := match l with [] => 0 | d :: r => d + 10 * le10 r end.
Lemma le10_rev : forall l, digits_value (rev l) = le10 l.
Proof. induction l as [|d l IH]; [reflexivity|]. cbn [rev le10]. rewrite digits_value_snoc, IH. lia. Qed.

Lemma le10_bound : forall l, Forall is_dig l -> 0 <= le10 l < 10 ^ Z.of_nat (length l).
Proof.
  intros l H. rewrite <- le10_rev. rewrite <- rev_length. apply digits_value_bound. now apply Forall_rev.
Qed.

Lemma dig_land : forall d, is_dig d -> Z.land (digit_char d) 15 = d.
Proof. intros d H. destruct (dig_cases d H) as [|[|[|[|[|[|[|[|[|]]]]]]]]]; subst; reflexivity. Qed.

Lemma mod_split10 : forall i L Q, 0 < Q -> (i + 10 * L) mod (10 * Q) = i mod 10 + 10 * ((L + i / 10) mod Q).
Proof.
  intros i L Q HQ. rewrite Z.rem_mul_r by lia.
  replace (i + 10 * L) with (i + L * 10) by lia. rewrite Z.mod_add, Z.div_add by lia.
  f_equal. f_equal. f_equal. lia.
Qed.

Lemma add_loop_spec : forall rd bt c n, Forall is_dig rd -> 0 <= c <= 1 -> 0 <= n ->
  exists ret rd', display_add_loop bt c n (map digit_char rd) = (ret, map digit_char rd') /\
    length rd' = length rd /\ Forall is_dig rd' /\
    le10 rd' = (le10 rd + n + c) mod 10 ^ Z.of_nat (length rd) /\
    ret = (if 10 ^ Z.of_nat (length rd) <=? le10 rd + n + c then (if bt then 1 else 0) else 0).
Proof.
  induction rd as [|d rd IH]; intros bt c n HD HC Hn.
  - cbn [map display_add_loop length le10]. change (10 ^ Z.of_nat 0) with 1. rewrite Z.mod_1_r.
    eexists _, []. split; [reflexivity|]. split; [reflexivity|]. split; [constructor|]. split; [reflexivity|].
    destruct (Z.ltb_spec 0 n); destruct (Z.eqb_spec c 0); destruct (Z.leb_spec 1 (0 + n + c)); cbn [orb negb]; try lia; reflexivity.
  - inversion HD as [|? ? Hd HD']; subst. cbn [map display_add_loop length le10].
    rewrite dig_land by auto. unfold is_dig in Hd.
    pose proof (le10_bound rd HD') as LB.
    rewrite pow10_S. set (Q := 10 ^ Z.of_nat (length rd)) in *.
    assert (HQ : 0 < Q) by apply pow10_pos_nat.
    destruct (Z.ltb_spec 0 n) as [N|N].
    + set (i := d + n mod 10 + c).
      assert (BR : (if 9 <? i then (1, 48 + i mod 10) else (0, 48 + i)) = (i / 10, 48 + i mod 10)).
      { destruct (Z.ltb_spec 9 i); f_equal; unfold i in *; lia. }
      rewrite BR. destruct (IH bt (i / 10) (n / 10) HD' ltac:(unfold i; lia) ltac:(lia))
        as (ret & rd' & E & L & F & V & R).
      rewrite E. exists ret, (i mod 10 :: rd'). split; [reflexivity|]. split; [cbn [length]; lia|].
      split; [constructor; auto; unfold is_dig; lia|].
      assert (T : d + 10 * le10 rd + n + c = i + 10 * (le10 rd + n / 10)) by (unfold i; lia).
      rewrite T. split.
      * cbn [le10]. rewrite V, mod_split10 by auto. reflexivity.
      * rewrite R. destruct (Z.leb_spec Q (le10 rd + n / 10 + i / 10));
          destruct (Z.leb_spec (10 * Q) (i + 10 * (le10 rd + n / 10))); try lia; reflexivity.
    + assert (n = 0) by lia. subst n. destruct (Z.eqb_spec c 0) as [->|Hc].
      * exists 0, (d :: rd). split; [reflexivity|]. split; [reflexivity|]. split; [auto|].
        rewrite Z.mod_small by lia. split; [cbn [le10]; lia|].
        destruct (Z.leb_spec (10 * Q) (d + 10 * le10 rd + 0 + 0)); [lia|reflexivity].
      * assert (c = 1) by lia. subst c. unfold digit_char at 1 2, u8.
        rewrite (Z.mod_small (48 + d + 1)) by lia.
        destruct (Z.leb_spec (48 + d + 1) 57).
        -- exists 0, (d + 1 :: rd). split; [unfold digit_char; cbn [map]; f_equal; f_equal; lia|].
           split; [reflexivity|]. split; [constructor; auto; unfold is_dig; lia|].
           rewrite Z.mod_small by lia. split; [cbn [le10]; lia|].
           destruct (Z.leb_spec (10 * Q) (d + 10 * le10 rd + 0 + 1)); [lia|reflexivity].
        -- assert (d = 9) by lia. subst d.
           destruct (IH bt 1 0 HD' ltac:(lia) ltac:(lia)) as (ret & rd' & E & L & F & V & R).
           rewrite E. exists ret, (0 :: rd'). split; [reflexivity|]. split; [cbn [length]; lia|].
           split; [constructor; auto; unfold is_dig; lia|].
           replace (9 + 10 * le10 rd + 0 + 1) with (0 + 10 * (le10 rd + 0 + 1)) by lia.
           rewrite mod_split10 by auto. change (0 / 10) with 0. rewrite Z.add_0_r.
           split; [cbn [le10]; rewrite V; reflexivity|]. rewrite R.
           destruct (Z.leb_spec Q (le10 rd + 0 + 1));
             destruct (Z.leb_spec (10 * Q) (0 + 10 * (le10 rd + 0 + 1))); try lia; reflexivity.
Qed.

Lemma sub_loop_spec : forall rd c n, Forall is_dig rd -> 0 <= c <= 1 -> 0 <= n ->
  exists ret rd', display_sub_loop c n (map digit_char rd) = (ret, map digit_char rd') /\
    length rd' = length rd /\ Forall is_dig rd' /\
    le10 rd' = (le10 rd - n - c) mod 10 ^ Z.of_nat (length rd) /\
    ret = (if le10 rd <? n + c then 1 else 0).
Proof.
  induction rd as [|d rd IH]; intros c n HD HC Hn.
  - cbn [map display_sub_loop length le10]. change (10 ^ Z.of_nat 0) with 1. rewrite Z.mod_1_r.
    eexists _, []. split; [reflexivity|]. split; [reflexivity|]. split; [constructor|]. split; [reflexivity|].
    destruct (Z.ltb_spec 0 n); destruct (Z.eqb_spec c 0); destruct (Z.ltb_spec 0 (n + c)); cbn [orb negb]; try lia; reflexivity.
  - inversion HD as [|? ? Hd HD']; subst. cbn [map display_sub_loop length le10].
    unfold is_dig in Hd. pose proof (le10_bound rd HD') as LB.
    rewrite pow10_S. set (Q := 10 ^ Z.of_nat (length rd)) in *.
    assert (HQ : 0 < Q) by apply pow10_pos_nat.
    destruct (Z.ltb_spec 0 n) as [N|N].
    + set (i := d - (n mod 10 + c)).
      assert (UU : u8 (digit_char d - (n mod 10 + c)) = 48 + i).
      { unfold u8, digit_char, i. rewrite Z.mod_small; lia. }
      rewrite UU.
      assert (BR : (if 48 + i <? 48 then (1, u8 (48 + i + 10)) else (0, 48 + i)) = (- (i / 10), 48 + i mod 10)).
      { unfold u8. destruct (Z.ltb_spec (48 + i) 48); f_equal; unfold i in *; lia. }
      rewrite BR. destruct (IH (- (i / 10)) (n / 10) HD' ltac:(unfold i; lia) ltac:(lia))
        as (ret & rd' & E & L & F & V & R).
      rewrite E. exists ret, (i mod 10 :: rd'). split; [reflexivity|]. split; [cbn [length]; lia|].
      split; [constructor; auto; unfold is_dig; lia|].
      assert (T : d + 10 * le10 rd - n - c = i + 10 * (le10 rd - n / 10)) by (unfold i; lia).
      rewrite T. split.
      * cbn [le10]. rewrite V, mod_split10 by auto. f_equal. f_equal. f_equal. lia.
      * rewrite R. destruct (Z.ltb_spec (le10 rd) (n / 10 + - (i / 10)));
          destruct (Z.ltb_spec (d + 10 * le10 rd) (n + c)); try lia; reflexivity.
    + assert (n = 0) by lia. subst n. destruct (Z.eqb_spec c 0) as [->|Hc].
      * exists 0, (d :: rd). split; [reflexivity|]. split; [reflexivity|]. split; [auto|].
        rewrite Z.mod_small by lia. split; [cbn [le10]; lia|].
        destruct (Z.ltb_spec (d + 10 * le10 rd) (0 + 0)); [lia|reflexivity].
      * assert (c = 1) by lia. subst c. unfold digit_char at 1 2, u8.
        rewrite (Z.mod_small (48 + d - 1)) by lia.
        destruct (Z.leb_spec 48 (48 + d - 1)).
        -- exists 0, (d - 1 :: rd). split; [unfold digit_char; cbn [map]; f_equal; f_equal; lia|].
           split; [reflexivity|]. split; [constructor; auto; unfold is_dig; lia|].
           rewrite Z.mod_small by lia. split; [cbn [le10]; lia|].
           destruct (Z.ltb_spec (d + 10 * le10 rd) (0 + 1)); [lia|reflexivity].
        -- assert (d = 0) by lia. subst d.
           destruct (IH 1 0 HD' ltac:(lia) ltac:(lia)) as (ret & rd' & E & L & F & V & R).
           rewrite E. exists ret, (9 :: rd'). split; [reflexivity|]. split; [cbn [length]; lia|].
           split; [constructor; auto; unfold is_dig; lia|].
           replace (0 + 10 * le10 rd - 0 - 1) with (9 + 10 * (le10 rd - 0 - 1)) by lia.
           rewrite mod_split10 by auto. change (9 / 10) with 0. rewrite Z.add_0_r.
           split; [cbn [le10]; rewrite V; reflexivity|]. rewrite R.
           destruct (Z.ltb_spec (le10 rd) (0 + 1));
             destruct (Z.ltb_spec (0 + 10 * le10 rd) (0 + 1)); try lia; reflexivity.
Qed.

Lemma add_int_digits : forall m ds n, Forall is_dig ds -> 0 <= n ->
  exists ret ds', display_add_int m (map digit_char ds) n = (ret, map digit_char ds') /\
    length ds' = length ds /\ Forall is_dig ds' /\
    digits_value ds' = (digits_value ds + n) mod 10 ^ Z.of_nat (length ds) /\
    ret = (if 10 ^ Z.of_nat (length ds) <=? digits_value ds + n then (if c_bintrunc m then 1 else 0) else 0).
Proof.
  intros m ds n HD Hn. unfold display_add_int. rewrite <- map_rev.
  destruct (add_loop_spec (rev ds) (c_bintrunc m) 0 n ltac:(now apply Forall_rev) ltac:(lia) Hn)
    as (ret & rd' & E & L & F & V & R).
  rewrite E. exists ret, (rev rd'). rewrite rev_length in *.
  rewrite <- (le10_rev (rev ds)), rev_involutive, Z.add_0_r in V, R.
  split; [now rewrite map_rev|]. split; [lia|]. split; [now apply Forall_rev|].
  split; [now rewrite le10_rev|exact R].
Qed.

Lemma sub_int_digits : forall ds n, Forall is_dig ds -> 0 <= n ->
  exists ret ds', display_sub_int (map digit_char ds) n = (ret, map digit_char ds') /\
    length ds' = length ds /\ Forall is_dig ds' /\
    digits_value ds' = (digits_value ds - n) mod 10 ^ Z.of_nat (length ds) /\
    ret = (if digits_value ds <? n then 1 else 0).
Proof.
  intros ds n HD Hn. unfold display_sub_int. rewrite <- map_rev.
  destruct (sub_loop_spec (rev ds) 0 n ltac:(now apply Forall_rev) ltac:(lia) Hn)
    as (ret & rd' & E & L & F & V & R).
  rewrite E. exists ret, (rev rd'). rewrite rev_length in *.
  rewrite <- (le10_rev (rev ds)), rev_involutive in V, R. rewrite Z.sub_0_r in V. rewrite Z.add_0_r in R.
  split; [now rewrite map_rev|]. split; [lia|]. split; [now apply Forall_rev|].
  split; [now rewrite le10_rev|exact R].
Qed.

Lemma nines : forall ds, Forall is_dig ds ->
  exists ds', map (fun c => 48 + (9 - (c - 48))) (map digit_char ds) = map digit_char ds' /\
    length ds' = length ds /\ Forall is_dig ds' /\
    digits_value ds' = 10 ^ Z.of_nat (length ds) - 1 - digits_value ds.
Proof.
  induction ds as [|d ds IH]; intros HD.
  - exists []. split; [reflexivity|]. split; [reflexivity|]. split; [constructor|]. reflexivity.
  - inversion HD as [|? ? Hd HD']; subst. destruct (IH HD') as (ds' & E & L & F & V).
    exists (9 - d :: ds'). cbn [map]. rewrite E. unfold is_dig in Hd.
    split; [f_equal; unfold digit_char; lia|]. split; [cbn [length]; lia|].
    split; [constructor; auto; unfold is_dig; lia|].
    rewrite !digits_value_cons, V, L. cbn [length]. rewrite pow10_S. lia.
Qed.

(** The item as the run-time sees it after cob_get_sign. *)
Definition gsign (a : fattr) (neg : bool) : Z := if a_sign a then sgn_of neg else 0.

Lemma get_sign_any : forall m a neg ds,
  a_type a = TDisplay -> attr_ok a -> ds <> [] -> Forall is_dig ds -> (a_sign a = false -> neg = false) ->
  exists f1, get_sign m (mkField a (zoned (c_ebcdic m) a neg ds)) = (gsign a neg, f1) /\
    fa f1 = a /\ length (fd f1) = (length ds + if a_sep a then 1 else 0)%nat /\
    data_digits f1 = map digit_char ds /\
    (forall s, put_sign m f1 s = mkField a (zoned (c_ebcdic m) a (s <? 0) ds)).
Proof.
  intros m a neg ds Ht Ha Hne Hd Hsg. unfold gsign. destruct (a_sign a) eqn:Es.
  - rewrite get_sign_zoned by auto. eexists. split; [reflexivity|]. split; [reflexivity|].
    split; [|split].
    + cbn [fd]. unfold plain. rewrite Es. cbn [andb].
      destruct (a_sep a) eqn:Esep; cbn [negb].
      * rewrite zoned_length by auto. now rewrite Esep.
      * rewrite map_length. lia.
    + apply data_digits_plain. auto.
    + intros. now apply put_sign_plain_gen.
  - unfold get_sign. cbn [fa]. rewrite Es. eexists. split; [reflexivity|]. split; [reflexivity|].
    assert (Sp : a_sep a = false) by (destruct (a_sep a) eqn:E; auto; specialize (Ha E); congruence).
    rewrite Sp, (DispProofs.zoned_unsigned _ a neg) by auto. cbn [fd]. split; [rewrite map_length; lia|]. split.
    + pose proof (data_digits_plain a false ds (or_intror Sp)) as Q. unfold plain in Q. rewrite Es in Q.
      cbn [andb] in Q. exact Q.
    + intros. unfold put_sign. cbn [fa]. rewrite Es. now rewrite DispProofs.zoned_unsigned.
Qed.

Lemma data_size_eq : forall m a neg ds, attr_ok a -> ds <> [] ->
  data_size (mkField a (zoned (c_ebcdic m) a neg ds)) = length ds.
Proof. intros. now apply data_size_zoned. Qed.

Theorem display_add_spec : forall m a neg ds n V,
  a_type a = TDisplay -> attr_ok a -> ds <> [] -> Forall is_dig ds -> (a_sign a = false -> neg = false) ->
  (length ds <= 64)%nat -> scaled_addend (a_scale a) (if neg then - n else n) = Ok (if neg then - V else V) ->
  let f := mkField a (zoned (c_ebcdic m) a neg ds) in
  let P := 10 ^ Z.of_nat (length ds) in
  let t := signed_value neg ds + V in
  (c_bintrunc m = true /\ P <= Z.abs t /\ (if neg then V < 0 else 0 < V) ->
     display_add m f n = Ok (true, f)) /\
  (~ (c_bintrunc m = true /\ P <= Z.abs t /\ (if neg then V < 0 else 0 < V)) ->
     exists neg' ds', display_add m f n = Ok (false, mkField a (zoned (c_ebcdic m) a neg' ds')) /\
       length ds' = length ds /\ Forall is_dig ds' /\ (a_sign a = false -> neg' = false) /\
       signed_value neg' ds' = (if a_sign a then Z.sgn t * (Z.abs t mod P) else Z.abs t mod P)).
Proof.
  intros m a neg ds n V Ht Ha Hne Hd Hsg H64 HV f P t.
  destruct (get_sign_any m a neg ds Ht Ha Hne Hd Hsg) as (f1 & E & A1 & L1 & D1 & PS).
  assert (SG : (gsign a neg <? 0) = neg).
  { unfold gsign. destruct (a_sign a) eqn:Es; [apply sgn_of_neg|]. rewrite Hsg by auto. reflexivity. }
  assert (SGN : (- gsign a neg <? 0) = (a_sign a && negb neg)).
  { unfold gsign. destruct (a_sign a) eqn:Es; [destruct neg; reflexivity|reflexivity]. }
  pose proof (digits_value_bound ds Hd) as DB. fold P in DB. set (X := digits_value ds) in *.
  assert (PP : 0 < P) by apply pow10_pos_nat.
  set (W := if neg then - V else V) in *.
  assert (TT : t = if neg then - (X + W) else X + W).
  { unfold t, signed_value, W. fold X. destruct neg; lia. }
  assert (PD : forall ds' s, Forall is_dig ds' -> length ds' = length ds ->
     put_sign m (put_digits f1 (map digit_char ds')) s = mkField a (zoned (c_ebcdic m) a (s <? 0) ds')).
  { intros ds' s F' L'. rewrite put_sign_put_digits; rewrite ?A1; auto.
    - intro Q. subst ds'. cbn [length] in L'. destruct ds; [congruence|discriminate].
    - now rewrite L'. }
  assert (SD : (if neg then V < 0 else 0 < V) <-> 0 < W) by (unfold W; destruct neg; lia).
  rewrite SD. clear SD.
  assert (DA : display_add m f n =
    if 0 <? W then
      let '(ret, d) := display_add_int m (map digit_char ds) W in
      if ret =? 0 then Ok (false, put_sign m (put_digits f1 d) (gsign a neg))
      else Ok (true, put_sign m (put_digits f1 (map digit_char ds)) (gsign a neg))
    else if W <? 0 then
      let '(ret, d) := display_sub_int (map digit_char ds) (- W) in
      if ret =? 0 then Ok (false, put_sign m (put_digits f1 d) (gsign a neg))
      else
        let '(_, d) := display_add_int m (map (fun c => 48 + (9 - (c - 48))) d) 1 in
        Ok (false, put_sign m (put_digits f1 d) (- gsign a neg))
    else Ok (false, put_sign m f1 (gsign a neg))).
  { unfold display_add, f. rewrite E. rewrite data_size_eq by auto. cbn [fa].
    destruct (Nat.ltb_spec 64 (length ds)); [lia|]. rewrite D1, SG, HV. reflexivity. }
  rewrite DA. clear DA.
  destruct (Z.ltb_spec 0 W) as [HW|HW].
  - (* addition *)
    destruct (add_int_digits m ds W Hd ltac:(lia)) as (ret & ds' & E' & L' & F' & V' & R'). fold P X in V', R'.
    rewrite E'.
    assert (TA : Z.abs t = X + W) by (rewrite TT; destruct neg; lia).
    split.
    + intros (C1 & C2 & _). rewrite C1 in R'. rewrite TA in C2.
      destruct (Z.leb_spec P (X + W)); [|lia]. subst ret. cbn [Z.eqb].
      rewrite PD by auto. now rewrite SG.
    + intros NC. assert (ret = 0).
      { rewrite R'. destruct (Z.leb_spec P (X + W)); [|reflexivity].
        destruct (c_bintrunc m) eqn:Q; [|reflexivity]. exfalso. apply NC. rewrite TA. auto. }
      rewrite H. cbn [Z.eqb]. rewrite PD, SG by auto.
      exists neg, ds'. split; [reflexivity|]. split; [exact L'|]. split; [exact F'|]. split; [exact Hsg|].
      rewrite TA, <- V'. unfold signed_value. rewrite TT.
      destruct neg.
      * destruct (a_sign a); [|discriminate Hsg; auto]. rewrite Z.sgn_neg by lia. lia.
      * rewrite Z.sgn_pos by lia. destruct (a_sign a); lia.
  - split; [intros (_ & _ & Q); lia|]. intros _.
    destruct (Z.ltb_spec W 0) as [HW2|HW2].
    + destruct (sub_int_digits ds (- W) Hd ltac:(lia)) as (ret & ds' & E' & L' & F' & V' & R'). fold P X in V', R'.
      rewrite E'. destruct (Z.ltb_spec X (- W)) as [B|B]; subst ret; cbn [Z.eqb].
      * destruct (nines ds' F') as (d9 & E9 & L9 & F9 & V9). rewrite E9. rewrite L' in V9. fold P in V9.
        destruct (add_int_digits m d9 1 F9 ltac:(lia)) as (ret2 & d10 & E10 & L10 & F10 & V10 & R10).
        rewrite E10. rewrite L9, L' in V10. fold P in V10.
        rewrite PD by (auto; lia). rewrite SGN.
        exists (a_sign a && negb neg), d10. split; [reflexivity|]. split; [lia|]. split; [exact F10|].
        split; [intros ->; reflexivity|].
        assert (TA : Z.abs t = - W - X) by (rewrite TT; destruct neg; lia).
        assert (VV : digits_value d10 = (- W - X) mod P).
        { rewrite V10, V9, V'. replace (P - 1 - (X - - W) mod P + 1) with (P - (X - - W) mod P) by lia.
          rewrite Zminus_mod_idemp_r. replace (P - (X - - W)) with (- W - X + 1 * P) by lia.
          now rewrite Z.mod_add by lia. }
        rewrite TA. unfold signed_value. rewrite VV, TT.
        destruct (a_sign a); cbn [andb].
        -- destruct neg; cbn [negb]; [rewrite Z.sgn_pos by lia|rewrite Z.sgn_neg by lia]; lia.
        -- reflexivity.
      * rewrite PD, SG by auto. exists neg, ds'. split; [reflexivity|]. split; [exact L'|]. split; [exact F'|].
        split; [exact Hsg|].
        assert (TA : Z.abs t = X - - W) by (rewrite TT; destruct neg; lia).
        rewrite TA, <- V'. unfold signed_value. rewrite Z.mod_small in V' by lia.
        rewrite V', TT. destruct neg.
        -- destruct (a_sign a); [|discriminate Hsg; auto]. lia.
        -- destruct (a_sign a); lia.
    + assert (W = 0) by lia. rewrite PS, SG. exists neg, ds.
      split; [reflexivity|]. split; [reflexivity|]. split; [exact Hd|]. split; [exact Hsg|].
      assert (TA : Z.abs t = X) by (rewrite TT; destruct neg; lia).
      rewrite TA. rewrite Z.mod_small by lia. unfold signed_value. fold X. rewrite TT. destruct neg.
      * destruct (a_sign a); [|discriminate Hsg; auto]. lia.
      * destruct (a_sign a); lia.
Qed.

(** ** Comparisons *)

Lemma acc_sint_spec : forall ds w v, Forall is_dig ds -> 0 <= v ->
  digits_value_aux v ds < 2 ^ (w - 1) ->
  acc_sint w v (map digit_char ds) = Ok (digits_value_aux v ds).
Proof.
  induction ds as [|d ds IH]; intros w v HD Hv HB; [reflexivity|].
  inversion HD as [|? ? Hd HD']; subst. unfold is_dig in Hd. cbn [map acc_sint digits_value_aux].
  cbn [digits_value_aux] in HB.
  replace (v * 10 + (digit_char d - 48)) with (10 * v + d) by (unfold digit_char; lia).
  assert (MONO : 10 * v + d <= digits_value_aux (10 * v + d) ds).
  { rewrite digits_value_aux_lin. pose proof (digits_value_bound ds HD').
    assert ((10 * v + d) * 1 <= (10 * v + d) * 10 ^ Z.of_nat (length ds)) by (apply Z.mul_le_mono_nonneg_l; lia).
    lia. }
  destruct (Z.leb_spec (2 ^ (w - 1)) (Z.abs (10 * v + d))); [lia|]. apply IH; auto. lia.
Qed.

Lemma three_way_sgn : forall v n, three_way v n = Z.sgn (v - n).
Proof. intros. unfold three_way. destruct (Z.ltb_spec v n); [|destruct (Z.ltb_spec n v)]; lia. Qed.

Theorem cmp_numdisp_spec : forall w ds n, Forall is_dig ds -> digits_value ds < 2 ^ (w - 1) ->
  cmp_numdisp w (map digit_char ds) n = Ok (Z.sgn (digits_value ds - n)).
Proof.
  intros. unfold cmp_numdisp. rewrite acc_sint_spec; auto; try lia. cbn [obind]. now rewrite three_way_sgn.
Qed.

Lemma ebcdic_digit : forall neg d, is_dig d -> is_digitb (overpunch true neg d) = false /\
  ebcdic_sign_digit (overpunch true neg d) = (neg, d).
Proof.
  intros neg d H. destruct (dig_cases d H) as [|[|[|[|[|[|[|[|[|]]]]]]]]]; subst; destruct neg; split; reflexivity.
Qed.

(** Signed items with a trailing, not separate sign. *)
Theorem cmp_sign_numdisp_spec : forall m w a neg ds n,
  a_sign a = true -> a_sep a = false -> a_lead a = false ->
  ds <> [] -> Forall is_dig ds -> digits_value ds < 2 ^ (w - 1) -> 0 < w ->
  cmp_sign_numdisp m w (zoned (c_ebcdic m) a neg ds) n = Ok (Z.sgn (signed_value neg ds - n)).
Proof.
  intros m w a neg ds n Hs Hsep Hl Hne Hd HB Hw. unfold zoned. rewrite Hs, Hsep, Hl. cbn [negb].
  destruct (nonempty_snoc ds Hne) as (r & d & ->).
  rewrite removelast_snoc, last_snoc. apply Forall_app in Hd. destruct Hd as [Hr Hd].
  inversion Hd as [|? ? Hdd _]; subst. rewrite digits_value_snoc in HB.
  unfold cmp_sign_numdisp. rewrite removelast_snoc, last_snoc.
  pose proof (digits_value_bound r Hr) as RB. pose proof Hdd as Hdd'. unfold is_dig in Hdd'.
  rewrite acc_sint_spec; auto; [|lia|unfold digits_value in *; lia]. cbn [obind].
  fold (digits_value r).
  unfold signed_value. rewrite digits_value_snoc.
  assert (EQ : (if is_digitb (overpunch (c_ebcdic m) neg d) then digits_value r * 10 + (overpunch (c_ebcdic m) neg d - 48)
     else if c_ebcdic m
          then let '(ng, x) := ebcdic_sign_digit (overpunch (c_ebcdic m) neg d) in
               if ng then - (digits_value r * 10 + x) else digits_value r * 10 + x
          else - (digits_value r * 10 + (overpunch (c_ebcdic m) neg d - 112))) =
     if neg then - (10 * digits_value r + d) else 10 * digits_value r + d).
  { destruct (c_ebcdic m).
    - destruct (ebcdic_digit neg d Hdd) as [E1 E2]. rewrite E1, E2. destruct neg; lia.
    - unfold overpunch, is_digitb. destruct neg.
      + destruct (Z.leb_spec 48 (112 + d)); destruct (Z.leb_spec (112 + d) 57); cbn [andb]; lia.
      + destruct (Z.leb_spec 48 (48 + d)); destruct (Z.leb_spec (48 + d) 57); cbn [andb]; lia. }
  cbv zeta. rewrite EQ.
  destruct (Z.leb_spec (2 ^ (w - 1)) (Z.abs (if neg then - (10 * digits_value r + d) else 10 * digits_value r + d))) as [C|C].
  - exfalso. destruct neg; lia.
  - now rewrite three_way_sgn.
Qed.

Theorem get_numdisp_spec : forall ds v, Forall is_dig ds -> 0 <= v ->
  digits_value_aux v ds < 2 ^ 31 -> get_numdisp v (map digit_char ds) = Ok (digits_value_aux v ds).
Proof.
  induction ds as [|d ds IH]; intros v HD Hv HB; [reflexivity|].
  inversion HD as [|? ? Hd HD']; subst. unfold is_dig in Hd. cbn [map get_numdisp digits_value_aux].
  cbn [digits_value_aux] in HB.
  destruct (Z.ltb_spec 57 (digit_char d)); [unfold digit_char in *; lia|].
  replace (v * 10 + (digit_char d - 48)) with (10 * v + d) by (unfold digit_char; lia).
  assert (MONO : 10 * v + d <= digits_value_aux (10 * v + d) ds).
  { rewrite digits_value_aux_lin. pose proof (digits_value_bound ds HD').
    assert ((10 * v + d) * 1 <= (10 * v + d) * 10 ^ Z.of_nat (length ds)) by (apply Z.mul_le_mono_nonneg_l; lia).
    lia. }
  destruct (Z.leb_spec (2 ^ 31) (Z.abs (10 * v + d))); [lia|]. apply IH; auto. lia.
Qed.
