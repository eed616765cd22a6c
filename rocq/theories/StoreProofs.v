(** Fetching and storing any numeric item (proof file). *)
From Coq Require Import QArith Qabs.
From Verif Require Import Base BaseFacts Field Sign Decimal SpecNum Numeric SpecStore NumFacts
  DispProofs DecProofs BinProofs PackedProofs.
Local Open Scope Z_scope.

Theorem fetch_denotes : forall m f v, denotes (c_ebcdic m) f v ->
  set_field m f = Ok (mkDec v (a_scale (fa f)), f).
Proof.
  intros m f v H. destruct H as [a neg ds Ht Hne Hd Hn Ha|a neg ds Ht Hne Hd HL Hn|a l Ht HL Hb];
    unfold set_field; cbn [fa]; rewrite Ht.
  - now apply set_display_zoned.
  - rewrite set_packed_spec by auto. reflexivity.
  - rewrite set_binary_spec; auto.
Qed.


Lemma zoned_unsigned : forall e a neg neg' ds, a_sign a = false -> zoned e a neg ds = zoned e a neg' ds.
Proof. intros. unfold zoned. now rewrite H. Qed.
Lemma packed_unsigned : forall a neg neg' ds, a_sign a = false -> packed a neg ds = packed a neg' ds.
Proof. intros. unfold packed. rewrite H. reflexivity. Qed.


Lemma low_part_fits : forall k v, Z.abs v < 10 ^ Z.of_nat k -> low_part k v = v.
Proof. intros. unfold low_part. rewrite Z.mod_small by lia. destruct v; lia. Qed.

Lemma held_signed : forall f k v,
  held f (low_part k v) = signed_value (a_sign (fa f) && (v <? 0)) (low_digits k (Z.abs v)).
Proof.
  intros. unfold held, signed_value, low_part. rewrite low_digits_value by lia.
  pose proof (Z.mod_pos_bound (Z.abs v) (10 ^ Z.of_nat k) (pow10_pos_nat k)).
  assert (X0 : v = 0 -> Z.abs v mod 10 ^ Z.of_nat k = 0) by (intros ->; apply Zmod_0_l).
  set (X := Z.abs v mod 10 ^ Z.of_nat k) in *.
  assert (ES : Z.sgn v * X = if v <? 0 then - X else X).
  { destruct (Z.ltb_spec v 0); destruct v; cbn [Z.sgn]; try lia. }
  rewrite ES. destruct (a_sign (fa f)), (v <? 0); cbn [andb]; lia.
Qed.

Lemma denotes_zoned_of : forall m f k v, wf_display f k ->
  denotes (c_ebcdic m) (zoned_of m f k v) (held f (low_part k v)).
Proof.
  intros m f k v (Ht & Ha & Hk & HL). rewrite held_signed. unfold zoned_of.
  assert (E : zoned (c_ebcdic m) (fa f) (v <? 0) (low_digits k (Z.abs v)) =
    zoned (c_ebcdic m) (fa f) (a_sign (fa f) && (v <? 0)) (low_digits k (Z.abs v))).
  { destruct (a_sign (fa f)) eqn:E; [reflexivity|]. now apply zoned_unsigned. }
  rewrite E. apply den_display; auto using low_digits_ne, low_digits_dig.
  intros ->. reflexivity.
Qed.

Lemma denotes_packed_of : forall e f k v, wf_packed f k ->
  denotes e (packed_of f k v) (held f (low_part k v)).
Proof.
  intros e f k v (Ht & HD & Hk & HL). rewrite held_signed. unfold packed_of.
  assert (E : packed (fa f) (v <? 0) (low_digits k (Z.abs v)) =
    packed (fa f) (a_sign (fa f) && (v <? 0)) (low_digits k (Z.abs v))).
  { destruct (a_sign (fa f)) eqn:E; [reflexivity|]. now apply packed_unsigned. }
  rewrite E. apply den_packed; auto using low_digits_ne, low_digits_dig.
  - rewrite low_digits_length. auto.
  - intros ->. reflexivity.
Qed.

Lemma zoned_of_size : forall m f k v, wf_display f k -> f_size (zoned_of m f k v) = f_size f.
Proof.
  intros m f k v (Ht & Ha & Hk & HL). unfold zoned_of, f_size. cbn [fd].
  rewrite zoned_length by auto using low_digits_ne. rewrite low_digits_length. auto.
Qed.
Lemma packed_of_size : forall f k v, wf_packed f k -> f_size (packed_of f k v) = f_size f.
Proof.
  intros f k v (Ht & Ha & Hk & HL). unfold packed_of. rewrite HL. unfold f_size. cbn [fd].
  rewrite packed_length, low_digits_length. auto.
Qed.

Lemma wf_display_inj : forall f j k, wf_display f j -> wf_display f k -> j = k.
Proof. intros f j k (A & B & C & D) (A' & B' & C' & D'). lia. Qed.
Lemma wf_packed_inj : forall f j k, wf_packed f j -> wf_packed f k -> j = k.
Proof. intros f j k (A & B & C & D) (A' & B' & C' & D'). lia. Qed.

(** Storing an already scaled integer. *)
Definition store_int (m : cfg) (w : Z) (f : field) (o : opts) : outcome stored :=
  match a_type (fa f) with
  | TBinary => get_binary m w f o
  | TPacked => get_packed w f o
  | TDisplay => get_display m w f o
  | _ => NotModelled
  end.

Theorem store_int_fits : forall m w f o, numeric_item f -> fits m o f w ->
  Z.abs w < NUM_LIMIT ->
  exists f', store_int m w f o = Ok (mkStored false false f') /\
    fa f' = fa f /\ f_size f' = f_size f /\ denotes (c_ebcdic m) f' (held f w).
Proof.
  intros m w f o Hi Hf Hb. unfold store_int. destruct Hf as [k Wf Hk|k Wf Hk|Wf Hk].
  - pose proof Wf as (Ht & _). rewrite Ht. rewrite (get_display_spec m w f o k Wf Hb).
    destruct (Z.ltb_spec (Z.abs w) (10 ^ Z.of_nat k)); [|lia].
    eexists; split; [reflexivity|]. repeat split.
    + now apply zoned_of_size.
    + replace (held f w) with (held f (low_part k w)) by (rewrite low_part_fits by lia; reflexivity). now apply denotes_zoned_of.
  - pose proof Wf as (Ht & _). rewrite Ht. rewrite (get_packed_spec w f o k Wf Hb).
    destruct (Z.ltb_spec (Z.abs w) (10 ^ Z.of_nat k)); [|lia].
    eexists; split; [reflexivity|]. repeat split.
    + now apply packed_of_size.
    + replace (held f w) with (held f (low_part k w)) by (rewrite low_part_fits by lia; reflexivity). now apply denotes_packed_of.
  - pose proof Wf as (Ht & Hs & _). rewrite Ht.
    destruct (get_binary_fits m w f o Wf Hk) as (f' & E & A & S & B & V).
    exists f'. repeat split; auto. unfold held. rewrite <- V. rewrite <- A.
    destruct f' as [a' l']. cbn [fa fd] in *. apply den_binary; auto.
    + now rewrite A.
    + unfold f_size in *. cbn [fd] in *. lia.
Qed.

Theorem store_int_keep : forall m w f o, numeric_item f -> ~ fits m o f w ->
  Z.abs w < NUM_LIMIT -> o_keep o = true ->
  store_int m w f o = Ok (mkStored true true f).
Proof.
  intros m w f o Hi Hf Hb Hk. unfold store_int. destruct Hi as [f k W|f k W|f W].
  - pose proof W as (Ht & _). rewrite Ht, (get_display_spec m w f o k W Hb), Hk.
    destruct (Z.ltb_spec (Z.abs w) (10 ^ Z.of_nat k)); auto. exfalso. apply Hf. eapply fit_display; eauto.
  - pose proof W as (Ht & _). rewrite Ht, (get_packed_spec w f o k W Hb), Hk.
    destruct (Z.ltb_spec (Z.abs w) (10 ^ Z.of_nat k)); auto. exfalso. apply Hf. eapply fit_packed; eauto.
  - pose proof W as (Ht & _). rewrite Ht. apply get_binary_overflow; auto.
    intros B. apply Hf. now apply fit_binary.
Qed.

Theorem store_int_trunc : forall m w f o, numeric_item f -> ~ fits m o f w ->
  Z.abs w < NUM_LIMIT -> o_keep o = false ->
  exists r f', store_int m w f o = Ok (mkStored r true f') /\ fa f' = fa f /\ f_size f' = f_size f /\
    (forall k, wf_display f k -> denotes (c_ebcdic m) f' (held f (low_part k w))) /\
    (forall k, wf_packed f k -> denotes (c_ebcdic m) f' (held f (low_part k w))) /\
    (wf_binary f -> bytes_ok (fd f') /\ bin_unsigned (a_swap (fa f)) (fd f') =
       (if o_trunc o then Z.abs w mod 10 ^ a_digits (fa f) else held f w) mod 2 ^ bits f).
Proof.
  intros m w f o Hi Hf Hb Hk. unfold store_int. destruct Hi as [f k W|f k W|f W].
  - pose proof W as (Ht & _). rewrite Ht, (get_display_spec m w f o k W Hb), Hk.
    destruct (Z.ltb_spec (Z.abs w) (10 ^ Z.of_nat k)).
    { exfalso. apply Hf. eapply fit_display; eauto. }
    do 2 eexists. split; [reflexivity|]. repeat split; try now apply zoned_of_size.
    + intros k' W'. rewrite (wf_display_inj f k' k W' W). now apply denotes_zoned_of.
    + intros k' (X & _). congruence.
    + destruct H0 as (X & _). congruence.
    + destruct H0 as (X & _). congruence.
  - pose proof W as (Ht & _). rewrite Ht, (get_packed_spec w f o k W Hb), Hk.
    destruct (Z.ltb_spec (Z.abs w) (10 ^ Z.of_nat k)).
    { exfalso. apply Hf. eapply fit_packed; eauto. }
    do 2 eexists. split; [reflexivity|]. repeat split; try now apply packed_of_size.
    + intros k' (X & _). congruence.
    + intros k' W'. rewrite (wf_packed_inj f k' k W' W). now apply denotes_packed_of.
    + destruct H0 as (X & _). congruence.
    + destruct H0 as (X & _). congruence.
  - pose proof W as (Ht & _). rewrite Ht.
    destruct (get_binary_overflow m w f o W) as [_ G]. { intros B. apply Hf. now apply fit_binary. }
    destruct (G Hk) as (f' & E & A & S & B & V).
    do 2 eexists. split; [exact E|]. repeat split; auto.
    + intros k' (X & _). congruence.
    + intros k' (X & _). congruence.
Qed.

(** ** Uniqueness of the rounded value *)

Lemma rat_abs_bounds : forall q s w w', trunc_at q s w -> trunc_at q s w' -> Z.abs w = Z.abs w'.
Proof.
  intros q s w w' (A & B & _) (A' & B' & _). rewrite rat_abs in A, A'.
  assert (rat (Z.abs w) s < rat (Z.abs w' + 1) s)%Q by (eapply Qle_lt_trans; eauto).
  assert (rat (Z.abs w') s < rat (Z.abs w + 1) s)%Q by (eapply Qle_lt_trans; eauto).
  rewrite rat_lt in *. lia.
Qed.

Lemma round_abs_bounds : forall q s w w', round_at q s w -> round_at q s w' -> Z.abs w = Z.abs w'.
Proof.
  intros q s w w' (A & B & _) (A' & B' & _).
  assert (rat (2 * Z.abs w - 1) s < rat (2 * Z.abs w' + 1) s)%Q by (eapply Qle_lt_trans; eauto).
  assert (rat (2 * Z.abs w' - 1) s < rat (2 * Z.abs w + 1) s)%Q by (eapply Qle_lt_trans; eauto).
  rewrite rat_lt in *. lia.
Qed.

Lemma rat_sign : forall w s q, (0 <= rat w s * q)%Q -> (0 < Qabs q)%Q ->
  ((0 < q)%Q -> 0 <= w) /\ ((q < 0)%Q -> w <= 0).
Proof.
  intros w s q H Hq. split; intros.
  - destruct (Z_lt_le_dec w 0); auto. exfalso.
    assert (rat w s < 0)%Q. { rewrite <- (rat_zero s). apply rat_lt. lia. }
    assert (rat w s * q < 0)%Q. { setoid_replace 0%Q with (0 * q)%Q by ring. apply Qmult_lt_r; auto. }
    apply (Qlt_not_le _ _ H2 H).
  - destruct (Z_lt_le_dec 0 w); auto. exfalso.
    assert (0 < rat w s)%Q. { rewrite <- (rat_zero s). apply rat_lt. lia. }
    assert (q * rat w s < 0)%Q. { setoid_replace 0%Q with (0 * rat w s)%Q by ring. apply Qmult_lt_r; auto. }
    rewrite Qmult_comm in H2. apply (Qlt_not_le _ _ H2 H).
Qed.

Lemma same_sign : forall w w' s q, (0 <= rat w s * q)%Q -> (0 <= rat w' s * q)%Q ->
  (w <> 0 -> ~ (q == 0)%Q) -> Z.abs w = Z.abs w' -> w = w'.
Proof.
  intros w w' s q H H' Hz E. destruct (Z.eq_dec w 0) as [->|N]; [lia|]. specialize (Hz N).
  assert (P : (0 < Qabs q)%Q).
  { pose proof (Qabs_nonneg q). apply Qle_lteq in H0. destruct H0; auto. exfalso. apply Hz.
    symmetry in H0. revert H0. apply Qabs_case; intros; auto. setoid_replace q with (- - q)%Q by ring. rewrite H1. reflexivity. }
  destruct (rat_sign w s q H P) as [A B]. destruct (rat_sign w' s q H' P) as [A' B'].
  destruct (Q_dec 0 q) as [[L|G]|Z0].
  - specialize (A L). specialize (A' L). lia.
  - specialize (B G). specialize (B' G). lia.
  - exfalso. apply Hz. now symmetry.
Qed.

Theorem rounded_unique : forall o q s w w', rounded o q s w -> rounded o q s w' -> w = w'.
Proof.
  intros o q s w w'. unfold rounded. destruct (o_round o).
  - intros H H'. pose proof (round_abs_bounds _ _ _ _ H H') as E.
    destruct H as (A & _ & C), H' as (A' & _ & C').
    apply (same_sign w w' s q); auto. intros N Z0.
    rewrite Z0 in A. change (Qabs 0) with 0%Q in A. rewrite Qmult_0_r in A.
    rewrite <- (rat_zero s) in A. rewrite rat_le in A. lia.
  - intros H H'. pose proof (rat_abs_bounds _ _ _ _ H H') as E.
    destruct H as (A & _ & C), H' as (A' & _ & C').
    apply (same_sign w w' s q); auto. intros N Z0.
    rewrite Z0 in A. change (Qabs 0) with 0%Q in A. rewrite rat_abs in A.
    rewrite <- (rat_zero s) in A. rewrite rat_le in A. lia.
Qed.

Lemma get_field_store : forall m d f o, not_nan d -> numeric_item f ->
  exists w, rounded o (decQ d) (a_scale (fa f)) w /\ get_field m d f o = store_int m w f o.
Proof.
  intros m d f o Hn Hi. exists (dv (round_align d (a_scale (fa f)) o)).
  destruct (round_align_spec d (a_scale (fa f)) o) as (S & T & R). split.
  - unfold rounded. destruct (o_round o); auto.
  - unfold get_field, not_nan in *. destruct (Z.eqb_spec (dsc d) DECIMAL_NAN); [congruence|]. reflexivity.
Qed.

Lemma rounded_Qeq : forall o q q' s w, (q == q')%Q -> rounded o q s w -> rounded o q' s w.
Proof.
  intros o q q' s w E. unfold rounded, round_at, trunc_at.
  destruct (o_round o); intros (A & B & C); rewrite E in A, B, C; auto.
Qed.

(** The general store theorem. *)
Theorem get_field_spec : forall m d f o q w, not_nan d -> numeric_item f -> (decQ d == q)%Q ->
  rounded o q (a_scale (fa f)) w -> Z.abs w < NUM_LIMIT ->
  (fits m o f w -> exists f', get_field m d f o = Ok (mkStored false false f') /\
     fa f' = fa f /\ f_size f' = f_size f /\ denotes (c_ebcdic m) f' (held f w)) /\
  (~ fits m o f w -> o_keep o = true -> get_field m d f o = Ok (mkStored true true f)) /\
  (~ fits m o f w -> o_keep o = false ->
   exists r f', get_field m d f o = Ok (mkStored r true f') /\ fa f' = fa f /\ f_size f' = f_size f /\
    (forall k, wf_display f k -> denotes (c_ebcdic m) f' (held f (low_part k w))) /\
    (forall k, wf_packed f k -> denotes (c_ebcdic m) f' (held f (low_part k w))) /\
    (wf_binary f -> bytes_ok (fd f') /\ bin_unsigned (a_swap (fa f)) (fd f') =
       (if o_trunc o then Z.abs w mod 10 ^ a_digits (fa f) else held f w) mod 2 ^ bits f)).
Proof.
  intros m d f o q w Hn Hi HE Hr Hb.
  destruct (get_field_store m d f o Hn Hi) as (w' & R & E).
  apply (rounded_Qeq _ _ _ _ _ HE) in R. rewrite (rounded_unique _ _ _ _ _ R Hr) in E.
  rewrite E. split; [|split]; intros.
  - now apply store_int_fits.
  - now apply store_int_keep.
  - now apply store_int_trunc.
Qed.

Lemma rounded_exists : forall d s o, exists w, rounded o (decQ d) s w.
Proof.
  intros. exists (dv (round_align d s o)).
  destruct (round_align_spec d s o) as (S & T & R). unfold rounded. destruct (o_round o); auto.
Qed.

(** ** ADD, SUBTRACT *)

Lemma decQ_mk : forall v s, decQ (mkDec v s) = rat v s.
Proof. reflexivity. Qed.

Lemma cob_add_get : forall m f1 f2 o v1 v2,
  denotes (c_ebcdic m) f1 v1 -> denotes (c_ebcdic m) f2 v2 ->
  cob_add m f1 f2 o = get_field m (dec_add (mkDec v1 (a_scale (fa f1))) (mkDec v2 (a_scale (fa f2)))) f1 o.
Proof.
  intros. unfold cob_add. rewrite (fetch_denotes m f1 v1), (fetch_denotes m f2 v2) by auto. reflexivity.
Qed.
Lemma cob_sub_get : forall m f1 f2 o v1 v2,
  denotes (c_ebcdic m) f1 v1 -> denotes (c_ebcdic m) f2 v2 ->
  cob_sub m f1 f2 o = get_field m (dec_sub (mkDec v1 (a_scale (fa f1))) (mkDec v2 (a_scale (fa f2)))) f1 o.
Proof.
  intros. unfold cob_sub. rewrite (fetch_denotes m f1 v1), (fetch_denotes m f2 v2) by auto. reflexivity.
Qed.


Lemma add_not_nan : forall v1 v2 f1 f2, scale_ok f1 -> scale_ok f2 ->
  not_nan (mkDec v1 (a_scale (fa f1))) /\ not_nan (mkDec v2 (a_scale (fa f2))) /\
  not_nan (dec_add (mkDec v1 (a_scale (fa f1))) (mkDec v2 (a_scale (fa f2)))) /\
  not_nan (dec_sub (mkDec v1 (a_scale (fa f1))) (mkDec v2 (a_scale (fa f2)))).
Proof.
  intros v1 v2 f1 f2 H1 H2. unfold scale_ok in *.
  set (d1 := mkDec v1 (a_scale (fa f1))). set (d2 := mkDec v2 (a_scale (fa f2))).
  assert (N1 : not_nan d1) by (unfold not_nan, d1, DECIMAL_NAN; cbn [dsc]; lia).
  assert (N2 : not_nan d2) by (unfold not_nan, d2, DECIMAL_NAN; cbn [dsc]; lia).
  repeat split; auto; unfold not_nan.
  - destruct (dec_add_exact d1 d2 N1 N2) as [_ ->]. unfold d1, d2, DECIMAL_NAN; cbn [dsc]; lia.
  - destruct (dec_sub_exact d1 d2 N1 N2) as [_ ->]. unfold d1, d2, DECIMAL_NAN; cbn [dsc]; lia.
Qed.

(** ** DIVIDE *)

Lemma rat_sgn_pos : forall w s, 0 < w <-> (0 < rat w s)%Q.
Proof. intros. rewrite <- (rat_zero s). symmetry. apply rat_lt. Qed.
Lemma rat_sgn_neg : forall w s, w < 0 <-> (rat w s < 0)%Q.
Proof. intros. rewrite <- (rat_zero s). symmetry. apply rat_lt. Qed.

Lemma sign_combine : forall r S q w s, (0 <= rat r S * q)%Q -> r <> 0 -> 0 <= w * r ->
  (0 <= rat w s * q)%Q.
Proof.
  intros r S q w s H Hr Hw.
  destruct (Q_dec 0 q) as [[L|G]|Z0].
  - assert (0 <= r).
    { destruct (Z_lt_le_dec r 0); auto. exfalso. apply (rat_sgn_neg r S) in l.
      assert (rat r S * q < 0)%Q. { setoid_replace 0%Q with (0 * q)%Q by ring. now apply Qmult_lt_r. }
      apply (Qlt_not_le _ _ H0 H). }
    apply Qmult_le_0_compat. { apply rat_nonneg. nia. } now apply Qlt_le_weak.
  - assert (r <= 0).
    { destruct (Z_lt_le_dec 0 r); auto. exfalso. apply (rat_sgn_pos r S) in l.
      assert (q * rat r S < 0)%Q. { setoid_replace 0%Q with (0 * rat r S)%Q by ring. now apply Qmult_lt_r. }
      rewrite Qmult_comm in H0. apply (Qlt_not_le _ _ H0 H). }
    setoid_replace (rat w s * q)%Q with ((- rat w s) * (- q))%Q by ring.
    apply Qmult_le_0_compat.
    + rewrite rat_opp. apply rat_nonneg. nia.
    + apply Qlt_le_weak in G. apply Qopp_le_compat in G. setoid_replace (-0)%Q with 0%Q in G by ring. auto.
  - rewrite <- Z0. rewrite Qmult_0_r. apply Qle_refl.
Qed.

Lemma rat_double : forall v s, ((2 # 1) * rat v s == rat (2 * v) s)%Q.
Proof. intros. unfold rat. rewrite inject_Z_mult. change (inject_Z 2) with (2 # 1). ring. Qed.

Lemma even_gap : forall r w k, 0 < k -> 2 * r < (2 * w + 1) * 10 ^ k -> 2 * r + 2 <= (2 * w + 1) * 10 ^ k.
Proof.
  intros r w k Hk H. replace k with (Z.succ (k - 1)) in * by lia. rewrite Z.pow_succ_r in * by lia. lia.
Qed.

Lemma rounded_after_trunc : forall o q S r s w, s < S -> trunc_at q S r ->
  rounded o (rat r S) s w -> rounded o q s w.
Proof.
  intros o q S r s w HS HT HR.
  unfold rounded in *. destruct (o_round o) eqn:Eo.
  - destruct HT as (A & B & C). destruct HR as (D & E & F).
    rewrite rat_abs in A, D, E. rewrite rat_double in D, E.
    rewrite (rat_to (2 * Z.abs w - 1) s S) in D by lia. rewrite (rat_to (2 * Z.abs w + 1) s S) in E by lia. rewrite rat_le in D. rewrite rat_lt in E.
    repeat split.
    + rewrite (rat_to _ s S) by lia. eapply Qle_trans; [apply rat_le, D|].
      rewrite <- rat_double. apply Qmult_le_l; [reflexivity|]. exact A.
    + rewrite (rat_to _ s S) by lia.
      apply Qlt_le_trans with ((2 # 1) * rat (Z.abs r + 1) S)%Q.
      * apply Qmult_lt_l; [reflexivity|]. exact B.
      * rewrite rat_double. apply rat_le. pose proof (even_gap (Z.abs r) (Z.abs w) (S - s) ltac:(lia) E). lia.
    + destruct (Z.eq_dec w 0) as [->|Hw]. { rewrite rat_zero, Qmult_0_l. apply Qle_refl. }
      pose proof (pow10_gt0 (S - s) ltac:(lia)).
      apply (sign_combine r S); auto; [nia|].
      rewrite rat_mul in F. rewrite <- (rat_zero (s + S)) in F. rewrite rat_le in F. exact F.
  - assert (W : w = Z.quot r (10 ^ (S - s))).
    { apply (rounded_unique o (rat r S) s); unfold rounded; rewrite Eo; auto.
      apply trunc_quot_at. lia. }
    subst w. apply trunc_at_twice; auto. lia.
Qed.

Lemma shift_trunc : forall d s, trunc_at (decQ d) s (dv (shift_decimal d (s - dsc d))) /\
  dsc (shift_decimal d (s - dsc d)) = s.
Proof.
  intros. destruct (round_align_spec d s (mkOpts false false false)) as (A & B & _).
  specialize (B eq_refl). unfold round_align in *. cbn [o_round andb] in *. auto.
Qed.

(** The remainder: exact difference, sign of the dividend, smaller than one
    unit of the quotient times the divisor. *)
Lemma remainder_bound : forall A B s w, ~ (B == 0)%Q -> trunc_at (A / B) s w ->
  (Qabs (A - rat w s * B) < Qabs B * rat 1 s)%Q /\ (0 <= (A - rat w s * B) * A)%Q.
Proof.
  intros A B s w HB (X & Y & Z). rewrite rat_abs in X.
  assert (HBp : (0 < Qabs B)%Q).
  { pose proof (Qabs_nonneg B) as P. apply Qle_lteq in P. destruct P as [P|P]; auto. exfalso. apply HB.
    symmetry in P. revert P. apply Qabs_case; intros; auto. setoid_replace B with (- - B)%Q by ring.
    rewrite P. reflexivity. }
  assert (EA : (A == (A / B) * B)%Q) by (field; auto).
  set (q := (A / B)%Q) in *.
  assert (ER : (A - rat w s * B == (q - rat w s) * B)%Q) by (rewrite EA; ring).
  assert (AW : (Qabs (q - rat w s) == Qabs q - rat (Z.abs w) s)%Q /\ (0 <= (q - rat w s) * q)%Q).
  { destruct (Qlt_le_dec q 0) as [L|L].
    - assert (w <= 0).
      { destruct (Z_lt_le_dec 0 w); auto. exfalso. apply (rat_sgn_pos w s) in l.
        assert (q * rat w s < 0)%Q. { setoid_replace 0%Q with (0 * rat w s)%Q by ring. now apply Qmult_lt_r. }
        rewrite Qmult_comm in H. apply (Qlt_not_le _ _ H Z). }
      rewrite Z.abs_neq in * by lia. rewrite (Qabs_neg q) in * by now apply Qlt_le_weak.
      rewrite <- rat_opp in *.
      assert (HH : (q - rat w s <= 0)%Q).
      { apply Qopp_le_compat in X. rewrite !Qopp_involutive in X.
        apply (Qplus_le_l _ _ (rat w s)). setoid_replace (q - rat w s + rat w s)%Q with q by ring.
        setoid_replace (0 + rat w s)%Q with (rat w s) by ring. exact X. }
      split.
      + rewrite Qabs_neg by auto. ring.
      + setoid_replace ((q - rat w s) * q)%Q with ((- (q - rat w s)) * (- q))%Q by ring.
        apply Qmult_le_0_compat.
        * apply Qopp_le_compat in HH. setoid_replace (-0)%Q with 0%Q in HH by ring. auto.
        * apply Qlt_le_weak in L. apply Qopp_le_compat in L. setoid_replace (-0)%Q with 0%Q in L by ring. auto.
    - assert (0 <= w \/ (q == 0)%Q).
      { destruct (Z_lt_le_dec w 0); [|auto]. right. apply (rat_sgn_neg w s) in l.
        apply Qle_lteq in L. destruct L as [L|L]; [|now symmetry]. exfalso.
        assert (rat w s * q < 0)%Q. { setoid_replace 0%Q with (0 * q)%Q by ring. now apply Qmult_lt_r. }
        apply (Qlt_not_le _ _ H Z). }
      assert (Hw : 0 <= w).
      { destruct H as [H|H]; auto. rewrite H in X. change (Qabs 0) with 0%Q in X.
        rewrite <- (rat_zero s) in X. rewrite rat_le in X. lia. }
      rewrite Z.abs_eq in * by lia. rewrite (Qabs_pos q) in * by auto.
      assert (HH : (0 <= q - rat w s)%Q).
      { apply (Qplus_le_l _ _ (rat w s)). setoid_replace (q - rat w s + rat w s)%Q with q by ring.
        setoid_replace (0 + rat w s)%Q with (rat w s) by ring. exact X. }
      split. { rewrite Qabs_pos by auto. reflexivity. }
      apply Qmult_le_0_compat; auto. }
  destruct AW as [AW SG]. split.
  - rewrite ER, Qabs_Qmult, AW. rewrite (Qmult_comm (Qabs B)). apply Qmult_lt_r; auto.
    apply (Qplus_lt_l _ _ (rat (Z.abs w) s)).
    setoid_replace (Qabs q - rat (Z.abs w) s + rat (Z.abs w) s)%Q with (Qabs q) by ring.
    rewrite Z.add_comm in Y. rewrite <- rat_add in Y. exact Y.
  - rewrite ER. setoid_replace ((q - rat w s) * B * A)%Q with ((q - rat w s) * q * (B * B))%Q by (rewrite EA; ring).
    apply Qmult_le_0_compat; auto. destruct (Qlt_le_dec B 0).
    + setoid_replace (B * B)%Q with ((- B) * (- B))%Q by ring.
      apply Qlt_le_weak in q0. apply Qopp_le_compat in q0. setoid_replace (-0)%Q with 0%Q in q0 by ring.
      now apply Qmult_le_0_compat.
    + now apply Qmult_le_0_compat.
Qed.

Theorem div_quotient_spec : forall m a b qf o va vb,
  denotes (c_ebcdic m) a va -> denotes (c_ebcdic m) b vb -> vb <> 0 ->
  scale_ok a -> scale_ok b -> scale_ok qf -> numeric_item qf ->
  let A := rat va (a_scale (fa a)) in let B := rat vb (a_scale (fa b)) in
  exists q d3 w, not_nan q /\ not_nan d3 /\
    div_quotient m a b qf o = (do st <- get_field m q qf o; Ok (st, d3)) /\
    (forall w', rounded o (decQ q) (a_scale (fa qf)) w' -> rounded o (A / B) (a_scale (fa qf)) w') /\
    trunc_at (A / B) (a_scale (fa qf)) w /\
    (decQ d3 == A - rat w (a_scale (fa qf)) * B)%Q.
Proof.
  intros m a b qf o va vb Ha Hb Hz Sa Sb Sq Hq A B.
  unfold div_quotient. rewrite (fetch_denotes m a va), (fetch_denotes m b vb) by auto. cbn [obind fst].
  set (d1 := mkDec va (a_scale (fa a))). set (d2 := mkDec vb (a_scale (fa b))).
  unfold scale_ok in *.
  assert (N1 : not_nan d1) by (unfold not_nan, d1, DECIMAL_NAN; cbn [dsc]; lia).
  assert (N2 : not_nan d2) by (unfold not_nan, d2, DECIMAL_NAN; cbn [dsc]; lia).
  destruct (dec_div_spec d1 d2 N1 N2 Hz) as (E0 & T & S37 & S0).
  destruct (dec_div d1 d2) as [q z]. cbn [fst snd] in *.
  assert (Sq' : 0 <= dsc q).
  { destruct (Z.eq_dec (dv d1) 0) as [E|E]; [destruct (S0 E); lia|specialize (S37 E); lia]. }
  assert (Nq : not_nan q) by (unfold not_nan, DECIMAL_NAN; lia).
  destruct (Z.eqb_spec (dsc q) DECIMAL_NAN); [exfalso; now apply Nq|].
  set (d4 := shift_decimal q (a_scale (fa qf) - dsc q)).
  destruct (shift_trunc q (a_scale (fa qf))) as [T4 S4]. fold d4 in T4, S4.
  assert (N4 : not_nan d4) by (unfold not_nan, DECIMAL_NAN; lia).
  destruct (dec_mul_exact d4 d2 N4 N2) as [M SM].
  assert (NM : not_nan (dec_mul d4 d2)).
  { unfold not_nan, DECIMAL_NAN. rewrite SM, S4. unfold d2; cbn [dsc]. lia. }
  destruct (dec_sub_exact d1 (dec_mul d4 d2) N1 NM) as [D SD].
  assert (ND : not_nan (dec_sub d1 (dec_mul d4 d2))).
  { unfold not_nan, DECIMAL_NAN. rewrite SD, SM, S4. unfold d1, d2; cbn [dsc]. lia. }
  change (decQ d1) with A in *. change (decQ d2) with B in *.
  assert (RR : forall o' w', rounded o' (decQ q) (a_scale (fa qf)) w' -> rounded o' (A / B) (a_scale (fa qf)) w').
  { intros o' w' R. destruct (Z.eq_dec (dv d1) 0) as [E|E].
    - apply (rounded_Qeq o' (decQ q)); auto. unfold decQ. destruct (S0 E) as [-> ->].
      unfold d1 in E. cbn [dv] in E. unfold A. rewrite E, !rat_zero. unfold Qdiv. ring.
    - apply (rounded_after_trunc o' (A / B) (dsc q) (dv q)); auto. specialize (S37 E). lia. }
  exists q, (dec_sub d1 (dec_mul d4 d2)), (dv d4).
  split; [exact Nq|]. split; [exact ND|]. split; [reflexivity|]. split; [apply RR|]. split.
  - apply (RR (mkOpts false false false)). exact T4.
  - rewrite D, M. unfold decQ. rewrite S4. reflexivity.
Qed.

Theorem div_quotient_zero : forall m a b qf o va,
  denotes (c_ebcdic m) a va -> denotes (c_ebcdic m) b 0 -> scale_ok a -> scale_ok b ->
  exists d3, div_quotient m a b qf o = Ok (mkStored true true qf, d3) /\
    forall rf o', div_remainder m d3 rf o' = Ok (mkStored true true rf).
Proof.
  intros m a b qf o va Ha Hb Sa Sb. unfold div_quotient.
  rewrite (fetch_denotes m a va), (fetch_denotes m b 0) by auto. cbn [obind fst].
  unfold dec_div, nan_in, scale_ok in *. cbn [dsc dv].
  destruct (Z.eqb_spec (a_scale (fa a)) DECIMAL_NAN); [unfold DECIMAL_NAN in *; lia|].
  destruct (Z.eqb_spec (a_scale (fa b)) DECIMAL_NAN); [unfold DECIMAL_NAN in *; lia|].
  cbn [orb Z.eqb dec_nan dsc]. rewrite Z.eqb_refl. eexists. split; [reflexivity|]. intros. reflexivity.
Qed.

(** ** Comparison *)
Theorem numeric_cmp_spec : forall m f1 f2 v1 v2,
  denotes (c_ebcdic m) f1 v1 -> denotes (c_ebcdic m) f2 v2 ->
  exists c, numeric_cmp m f1 f2 = Ok c /\
   (c = -1 <-> (rat v1 (a_scale (fa f1)) < rat v2 (a_scale (fa f2)))%Q) /\
   (c = 0 <-> (rat v1 (a_scale (fa f1)) == rat v2 (a_scale (fa f2)))%Q) /\
   (c = 1 <-> (rat v2 (a_scale (fa f2)) < rat v1 (a_scale (fa f1)))%Q).
Proof.
  intros. unfold numeric_cmp. rewrite (fetch_denotes m f1 v1), (fetch_denotes m f2 v2) by auto.
  cbn [obind fst]. eexists; split; [reflexivity|].
  apply (dec_cmp_spec (mkDec v1 (a_scale (fa f1))) (mkDec v2 (a_scale (fa f2)))).
Qed.
Theorem cmp_int_spec : forall m f1 v1 n,
  denotes (c_ebcdic m) f1 v1 ->
  exists c, cmp_int m f1 n = Ok c /\
   (c = -1 <-> (rat v1 (a_scale (fa f1)) < inject_Z n)%Q) /\
   (c = 0 <-> (rat v1 (a_scale (fa f1)) == inject_Z n)%Q) /\
   (c = 1 <-> (inject_Z n < rat v1 (a_scale (fa f1)))%Q).
Proof.
  intros. unfold cmp_int. rewrite (fetch_denotes m f1 v1) by auto.
  cbn [obind fst]. eexists; split; [reflexivity|].
  assert (E : (inject_Z n == decQ (mkDec n 0))%Q). { unfold decQ, rat. cbn [dv dsc]. simpl. ring. }
  setoid_rewrite E. apply (dec_cmp_spec (mkDec v1 (a_scale (fa f1))) (mkDec n 0)).
Qed.

Lemma fits_dec : forall m o f w, fits m o f w \/ ~ fits m o f w.
Proof.
  intros. destruct (a_type (fa f)) eqn:Ht;
    try (right; intros [k (A & _)|k (A & _)|(A & _)]; congruence).
  - (* display *)
    destruct (Z_lt_le_dec (Z.abs w) (10 ^ Z.of_nat (data_size f))) as [L|L].
    + assert (DD : wf_display f (data_size f) \/ ~ wf_display f (data_size f)).
      { unfold wf_display, attr_ok. destruct (a_sep (fa f)) eqn:E1, (a_sign (fa f)) eqn:E2.
        - destruct (Nat.le_gt_cases 1 (data_size f)); [|right; intros (A & B & C & D); lia].
          destruct (Nat.eq_dec (length (fd f)) (data_size f + 1)); [left; auto|right; intros (A & B & C & D); lia].
        - right. intros (A & B & C & D). specialize (B eq_refl). discriminate.
        - destruct (Nat.le_gt_cases 1 (data_size f)); [|right; intros (A & B & C & D); lia].
          destruct (Nat.eq_dec (length (fd f)) (data_size f + 0)); [left; auto|right; intros (A & B & C & D); lia].
        - destruct (Nat.le_gt_cases 1 (data_size f)); [|right; intros (A & B & C & D); lia].
          destruct (Nat.eq_dec (length (fd f)) (data_size f + 0)); [left; repeat split; auto; discriminate|right; intros (A & B & C & D); lia]. }
      destruct DD as [W|W].
      * left. eapply fit_display; eauto.
      * right. intros [k W' _|k (A & _)|(A & _)]; try congruence.
        rewrite <- (wf_display_data_size f k W') in W'. contradiction.
    + right. intros [k W' X|k (A & _)|(A & _)]; try congruence.
      rewrite <- (wf_display_data_size f k W') in X. lia.
  - (* binary *)
    assert (DD : wf_binary f \/ ~ wf_binary f).
    { unfold wf_binary. destruct (Nat.le_gt_cases 1 (f_size f)); [|right; lia].
      destruct (Nat.le_gt_cases (f_size f) 8); [|right; lia].
      destruct (Z_le_gt_dec 0 (a_digits (fa f))); [|right; lia].
      destruct (Z_lt_le_dec (a_digits (fa f)) 36); [|right; lia]. left. repeat split; auto. }
    destruct DD as [W|W]; [|right; intros [k (A & _)|k (A & _)|A]; congruence || contradiction].
    assert (BB : bin_fits m o f w \/ ~ bin_fits m o f w).
    { unfold bin_fits, bin_range. destruct (a_sign (fa f)), (opt_nonzero o && c_bintrunc m).
      - destruct (Z_lt_le_dec (- 2 ^ (bits f - 1)) w), (Z_lt_le_dec w (2 ^ (bits f - 1))),
          (Z_lt_le_dec (Z.abs w) (10 ^ a_digits (fa f))); try (left; split; auto; fail);
          right; intros (P & Q); try lia; specialize (Q eq_refl); lia.
      - destruct (Z_lt_le_dec (- 2 ^ (bits f - 1)) w), (Z_lt_le_dec w (2 ^ (bits f - 1)));
          try (left; split; auto; discriminate); right; intros (P & Q); lia.
      - destruct (Z_lt_le_dec (Z.abs w) (2 ^ bits f)),
          (Z_lt_le_dec (Z.abs w) (10 ^ a_digits (fa f))); try (left; split; auto; fail);
          right; intros (P & Q); try lia; specialize (Q eq_refl); lia.
      - destruct (Z_lt_le_dec (Z.abs w) (2 ^ bits f));
          try (left; split; auto; discriminate); right; intros (P & Q); lia. }
    destruct BB as [B|B]; [left; now apply fit_binary|].
    right. intros [k (A & _)|k (A & _)|A BF]; congruence || contradiction.
  - (* packed *)
    set (D := Z.to_nat (a_digits (fa f))).
    assert (DD : wf_packed f D \/ ~ wf_packed f D).
    { unfold wf_packed. destruct (Z.eq_dec (a_digits (fa f)) (Z.of_nat D)); [|right; intros (A & B & _); congruence].
      destruct (Nat.le_gt_cases 1 D); [|right; lia].
      destruct (Nat.eq_dec (f_size f) (D / 2 + 1)); [left; auto|right; intros (A & B & C & X); congruence]. }
    assert (INJ : forall k, wf_packed f k -> k = D).
    { intros k (A & B & C & X). unfold D. lia. }
    destruct DD as [W|W].
    + destruct (Z_lt_le_dec (Z.abs w) (10 ^ Z.of_nat D)); [left; eapply fit_packed; eauto|].
      right. intros [k (A & _)|k W' X|(A & _)]; try congruence. rewrite (INJ k W') in X. lia.
    + right. intros [k (A & _)|k W' X|(A & _)]; try congruence. rewrite (INJ k W') in W'. contradiction.
Qed.

(** ** Statements used by P_Num *)
Theorem sign_roundtrip : forall m a ds neg,
  a_type a = TDisplay -> a_sign a = true -> ds <> [] -> Forall is_dig ds ->
  exists f1,
    get_sign m (mkField a (zoned (c_ebcdic m) a neg ds)) = ((if neg then -1 else 1), f1) /\
    data_digits f1 = map digit_char ds /\
    (forall s, put_sign m f1 s = mkField a (zoned (c_ebcdic m) a (s <? 0) ds)).
Proof.
  intros m a ds neg Ht Hs Hne Hd. rewrite get_sign_zoned by auto.
  eexists. split; [reflexivity|]. split.
  - apply data_digits_plain. auto.
  - intros. now apply put_sign_plain_gen.
Qed.

Theorem put_sign_any : forall m f ds s,
  a_type (fa f) = TDisplay -> attr_ok (fa f) -> ds <> [] -> Forall is_dig ds ->
  length (fd f) = (length ds + if a_sep (fa f) then 1 else 0)%nat ->
  put_sign m (put_digits f (map digit_char ds)) s =
    mkField (fa f) (zoned (c_ebcdic m) (fa f) (s <? 0) ds).
Proof. exact put_sign_put_digits. Qed.

Theorem add_sub_spec : forall (sub : bool) m f1 f2 o v1 v2 w,
  denotes (c_ebcdic m) f1 v1 -> denotes (c_ebcdic m) f2 v2 ->
  numeric_item f1 -> scale_ok f1 -> scale_ok f2 ->
  let A := rat v1 (a_scale (fa f1)) in let B := rat v2 (a_scale (fa f2)) in
  let run := if sub then cob_sub m f1 f2 o else cob_add m f1 f2 o in
  rounded o (if sub then A - B else A + B) (a_scale (fa f1)) w -> Z.abs w < NUM_LIMIT ->
  (fits m o f1 w -> exists f', run = Ok (mkStored false false f') /\
     fa f' = fa f1 /\ f_size f' = f_size f1 /\ denotes (c_ebcdic m) f' (held f1 w)) /\
  (~ fits m o f1 w -> o_keep o = true -> run = Ok (mkStored true true f1)).
Proof.
  intros sub m f1 f2 o v1 v2 w H1 H2 Hi S1 S2 A B run Hr Hb.
  destruct (add_not_nan v1 v2 f1 f2 S1 S2) as (N1 & N2 & NA & NS).
  subst run. destruct sub.
  - rewrite (cob_sub_get m f1 f2 o v1 v2) by auto.
    destruct (dec_sub_exact _ _ N1 N2) as [E _].
    destruct (get_field_spec m _ f1 o _ w NS Hi E Hr Hb) as (X & Y & _). auto.
  - rewrite (cob_add_get m f1 f2 o v1 v2) by auto.
    destruct (dec_add_exact _ _ N1 N2) as [E _].
    destruct (get_field_spec m _ f1 o _ w NA Hi E Hr Hb) as (X & Y & _). auto.
Qed.

Theorem divide_spec : forall m a b qf o va vb w,
  denotes (c_ebcdic m) a va -> denotes (c_ebcdic m) b vb -> vb <> 0 ->
  scale_ok a -> scale_ok b -> scale_ok qf -> numeric_item qf ->
  let A := rat va (a_scale (fa a)) in let B := rat vb (a_scale (fa b)) in
  rounded o (A / B) (a_scale (fa qf)) w -> Z.abs w < NUM_LIMIT ->
  exists st d3 t, div_quotient m a b qf o = Ok (st, d3) /\
    (fits m o qf w -> st_ret st = false /\ st_exc st = false /\
       fa (st_f st) = fa qf /\ f_size (st_f st) = f_size qf /\ denotes (c_ebcdic m) (st_f st) (held qf w)) /\
    (~ fits m o qf w -> o_keep o = true -> st = mkStored true true qf) /\
    trunc_at (A / B) (a_scale (fa qf)) t /\ not_nan d3 /\
    (decQ d3 == A - rat t (a_scale (fa qf)) * B)%Q /\
    (Qabs (decQ d3) < Qabs B * rat 1 (a_scale (fa qf)))%Q /\
    (0 <= decQ d3 * A)%Q.
Proof.
  intros m a b qf o va vb w Ha Hb Hz Sa Sb Sq Hi A B Hr Hw.
  destruct (div_quotient_spec m a b qf o va vb Ha Hb Hz Sa Sb Sq Hi) as (q & d3 & t & Nq & N3 & E & R & T & D).
  fold A B in R, T, D.
  destruct (rounded_exists q (a_scale (fa qf)) o) as (w' & Hw').
  pose proof (rounded_unique _ _ _ _ _ (R _ Hw') Hr) as ->.
  destruct (get_field_spec m q qf o (decQ q) w Nq Hi ltac:(reflexivity) Hw' Hw) as (X & Y & Z).
  assert (HB : ~ (B == 0)%Q) by (apply rat_nz; auto).
  destruct (remainder_bound A B _ t HB T) as [RB SG].
  rewrite <- D in RB, SG.
  assert (EX : exists st, get_field m q qf o = Ok st /\
     (fits m o qf w -> st_ret st = false /\ st_exc st = false /\
       fa (st_f st) = fa qf /\ f_size (st_f st) = f_size qf /\ denotes (c_ebcdic m) (st_f st) (held qf w)) /\
    (~ fits m o qf w -> o_keep o = true -> st = mkStored true true qf)).
  { assert (DEC : fits m o qf w \/ ~ fits m o qf w) by apply fits_dec.
    destruct DEC as [F|F].
    - destruct (X F) as (f' & G & P). eexists; split; [exact G|]. cbn [st_ret st_exc st_f]. split; [tauto|].
      intros NF. contradiction.
    - destruct (o_keep o) eqn:K.
      + specialize (Y F eq_refl). eexists; split; [exact Y|]. split; [contradiction|auto].
      + destruct (Z F eq_refl) as (r & f' & G & _). eexists; split; [exact G|].
        split; [contradiction|discriminate]. }
  destruct EX as (st & G & P1 & P2).
  exists st, d3, t. rewrite E, G. cbn [obind]. split; [reflexivity|]. tauto.
Qed.

Lemma num_buff_overflow : forall v f o, NUM_LIMIT <= v -> a_type (fa f) = TDisplay -> a_scale (fa f) = 0 ->
  get_field default_cfg (mkDec v 0) f o = UB.
Proof.
  intros v f o Hv Ht Hs. unfold get_field. cbn [dsc]. change (0 =? DECIMAL_NAN) with false. cbv iota.
  rewrite Ht, Hs. unfold round_align. cbn [dsc]. rewrite Z.ltb_irrefl, Bool.andb_false_r. cbn [andb dsc].
  unfold shift_decimal. rewrite Z.sub_diag, Z.eqb_refl. cbn [dv].
  unfold get_display. rewrite num_buff_ub; [reflexivity|]. lia.
Qed.
