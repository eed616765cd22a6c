(** Proofs: numbers compared with text, sort keys, class conditions. *)
From Coq Require Import QArith.
From Verif Require Import Base BaseFacts Field Sign Decimal SpecNum Numeric SpecStore SpecMove NumFacts
  DispProofs DecProofs PackedProofs StoreProofs Move Edited MoveAll MoveProofs MoveNum Compare SpecCmp SpecSort CmpProofs.
Local Open Scope Z_scope.

Lemma digits_of_unsigned : forall e t v n, denotes e t v -> a_type (fa t) = TDisplay -> a_sep (fa t) = false ->
  f_size t = n -> exists neg ds, t = mkField (fa t) (zoned e (fa t) neg ds) /\ length ds = n /\ ds <> [] /\
    Forall is_dig ds /\ (a_sign (fa t) = false -> neg = false) /\ attr_ok (fa t) /\ digits_value ds = Z.abs v.
Proof.
  intros e t v n D T S N.
  destruct (denotes_display_cases _ _ _ T D) as (neg & ds & E & Hne & Hd & Hu & Ha & Hv).
  exists neg, ds. split; [exact E|]. split.
  - subst n. unfold f_size. rewrite E. cbn [fd]. unfold zoned. rewrite S.
    destruct (negb (a_sign (fa t))); [now rewrite map_length|].
    destruct (a_lead (fa t)).
    + destruct ds; [congruence|]. simpl. now rewrite map_length.
    + rewrite app_length, map_length. simpl.
      rewrite (app_removelast_last 0 Hne) at 1. rewrite app_length. reflexivity.
  - repeat (split; [assumption|]). destruct (signed_neg_le neg ds Hd) as (_ & _ & X). rewrite Hv. auto.
Qed.

Lemma plain_nosep : forall a neg ds, a_sep a = false -> plain a neg ds = map digit_char ds.
Proof. intros a neg ds H. unfold plain. rewrite H. destruct (negb (a_sign a)); destruct (a_sign a); reflexivity. Qed.

Lemma move_temp : forall m f1 ta v n, denotes (c_ebcdic m) f1 v -> (1 <= n)%nat ->
  a_type ta = TDisplay -> a_sep ta = false -> a_scale ta = a_scale (fa f1) ->
  (a_type (fa f1) = TPacked -> a_digits (fa f1) <= 64) ->
  exists t', cob_move m f1 (mkField ta (repeat 0 n)) = Ok (f1, t') /\ fa t' = ta /\ f_size t' = n /\
    denotes (c_ebcdic m) t' (if a_sign ta then low_part n v else Z.abs (low_part n v)).
Proof.
  intros m f1 ta v n D Hn T S SC HP. set (t := mkField ta (repeat 0 n)).
  assert (W : wf_display t n).
  { unfold wf_display, attr_ok, t. cbn [fa fd]. rewrite S, repeat_length. repeat split; auto; try discriminate; lia. }
  destruct (cob_move_numeric m f1 t v D (ni_display _ _ W)) as (t' & E & R1 & R2 & R3).
  - intros _ X. cbn in X. congruence.
  - auto.
  - intros X. cbn in X. congruence.
  - exists t'. split; auto. split; [exact R1|]. split; [rewrite R2; unfold t, f_size; cbn [fd]; apply repeat_length|].
    specialize (R3 v). cbn [fa t] in R3. rewrite SC in R3.
    assert (TR := aligns_trunc v (a_scale (fa f1)) (a_scale (fa f1))). rewrite aligns_same in TR.
    specialize (R3 TR). unfold kept_digits, held in R3. cbn [fa t] in R3. rewrite T in R3.
    assert (DS : data_size t = n) by (unfold data_size, t, f_size; cbn [fa fd]; rewrite S, repeat_length; lia).
    rewrite DS in R3. exact R3.
Qed.

Lemma abs_low_part : forall k v, Z.abs (low_part k v) = Z.abs v mod 10 ^ Z.of_nat k.
Proof.
  intros. unfold low_part. assert (0 < 10 ^ Z.of_nat k) by apply pow10_pos_nat.
  pose proof (Z.mod_pos_bound (Z.abs v) (10 ^ Z.of_nat k) H) as B.
  rewrite Z.abs_mul. rewrite (Z.abs_eq (_ mod _)) by lia.
  destruct (Z.sgn_spec v) as [[Q ->] | [[Q ->] | [Q ->]]]; try (rewrite Z.mul_1_l; reflexivity).
  subst v. change (Z.abs 0) with 0. rewrite Z.mod_0_l by lia. reflexivity.
Qed.

Lemma cmp_operand_num : forall m f v, denotes (c_ebcdic m) f v -> 1 <= a_digits (fa f) <= 48 ->
  (a_type (fa f) = TDisplay -> Z.of_nat (data_size f) = a_digits (fa f)) ->
  (a_type (fa f) <> TDisplay -> a_sep (fa f) = false) ->
  exists t o s g ds, cmp_operand m f = Ok (t, o) /\ get_sign m t = (s, g) /\
    fd g = map digit_char ds /\ length ds = Z.to_nat (a_digits (fa f)) /\ Forall is_dig ds /\
    digits_value ds = Z.abs v mod 10 ^ a_digits (fa f) /\
    match o with Some x => x | None => put_sign_np m g s end = f.
Proof.
  intros m f v D HD HS HP. set (n := Z.to_nat (a_digits (fa f))).
  assert (Hn : (1 <= n <= 48)%nat) by lia.
  assert (PN : 10 ^ a_digits (fa f) = 10 ^ Z.of_nat n) by (f_equal; lia).
  assert (TEMP : forall ta, a_type ta = TDisplay -> a_sep ta = false -> a_scale ta = a_scale (fa f) ->
     exists t' s g ds, cob_move m f (mkField ta (repeat 0 n)) = Ok (f, t') /\ get_sign m t' = (s, g) /\
       fd g = map digit_char ds /\ length ds = n /\ Forall is_dig ds /\
       digits_value ds = Z.abs v mod 10 ^ a_digits (fa f)).
  { intros ta T S SC. destruct (move_temp m f ta v n D ltac:(lia) T S SC ltac:(lia)) as (t' & E & A & SZ & DN).
    subst ta. destruct (digits_of_unsigned _ t' _ n DN T S SZ) as (neg & ds & E' & L & Hne & Hd & Hu & Ha & Hv).
    destruct (get_sign_digits m (fa t') neg ds T Hne Hd Ha Hu) as (s & g & G & _ & _ & _ & PL & _).
    exists t', s, g, ds. split; auto. rewrite E' at 1. split; [exact G|]. split; [|split; [auto|split; [auto|]]].
    - rewrite PL. cbn [fd]. now apply plain_nosep.
    - rewrite Hv, PN, <- abs_low_part. destruct (a_sign (fa t')); [auto|]. rewrite (Z.abs_eq (Z.abs _)) by apply Z.abs_nonneg. reflexivity. }
  unfold cmp_operand. fold n. destruct (Nat.ltb_spec 48 n); [lia|].
  destruct (denotes_type _ _ _ D) as [T|[T|T]]; rewrite T.
  - destruct (a_sep (fa f)) eqn:SP.
    + match goal with |- context [mkField ?ta (repeat 0 n)] => destruct (TEMP ta eq_refl eq_refl eq_refl) as (t' & s & g & ds & E & X) end.
      exists t', (Some f), s, g, ds. rewrite E. cbn [obind fst snd]. intuition.
    + destruct (denotes_display_cases _ _ _ T D) as (neg & ds & E & Hne & Hd & Hu & Ha & Hv).
      destruct (get_sign_digits m (fa f) neg ds T Hne Hd Ha Hu) as (s & g & G & _ & AG & DG & PL & PB).
      destruct (digits_of_unsigned _ f v (f_size f) D T SP eq_refl) as (neg' & ds' & E' & L' & _).
      assert (SZ : length ds = n).
      { assert (length ds = f_size f).
        { assert (LL : length (data_digits g) = f_size f).
          { rewrite PL. unfold data_digits, data_size, data_off, f_size. cbn [fa fd]. rewrite SP, plain_nosep by auto.
            cbn [andb skipn]. rewrite firstn_length, map_length.
            assert (Q : length (fd f) = length ds); [|lia].
            rewrite E. cbn [fd]. unfold zoned. rewrite SP.
            destruct (negb (a_sign (fa f))); [now rewrite map_length|].
            destruct (a_lead (fa f)).
            - destruct ds; [congruence|]. simpl. now rewrite map_length.
            - rewrite app_length, map_length. simpl.
              rewrite (app_removelast_last 0 Hne) at 2. rewrite app_length. reflexivity. }
          rewrite DG, map_length in LL. auto. }
        specialize (HS T). unfold data_size in HS. rewrite SP in HS. unfold n. lia. }
      exists f, None, s, g, ds. split; [reflexivity|]. split; [rewrite E at 1; exact G|].
      split; [rewrite PL; cbn [fd]; now apply plain_nosep|]. split; [auto|]. split; [auto|]. split.
      * destruct (signed_neg_le neg ds Hd) as (_ & _ & X). rewrite Hv, X.
        symmetry. apply Z.mod_small. rewrite PN, <- SZ. apply digits_value_bound; auto.
      * unfold put_sign_np. rewrite AG, T, PB. now rewrite E at 3.
  - match goal with |- context [mkField ?ta (repeat 0 n)] => destruct (TEMP ta eq_refl) as (t' & s & g & ds & E & X); [|reflexivity|] end.
    { cbn [a_sep]. apply HP. congruence. }
    exists t', (Some f), s, g, ds. rewrite E. cbn [obind fst snd]. intuition.
  - match goal with |- context [mkField ?ta (repeat 0 n)] => destruct (TEMP ta eq_refl) as (t' & s & g & ds & E & X); [|reflexivity|] end.
    { cbn [a_sep]. apply HP. congruence. }
    exists t', (Some f), s, g, ds. rewrite E. cbn [obind fst snd]. intuition.
Qed.

Definition plain_text (t : ftype) : Prop := t = TAlnum \/ t = TAlnumEdited \/ t = TNumEdited.

Theorem cob_cmp_number_text : forall m col f1 f2 v, denotes (c_ebcdic m) f1 v ->
  plain_text (a_type (fa f2)) -> 1 <= a_digits (fa f1) <= 48 ->
  (a_type (fa f1) = TDisplay -> Z.of_nat (data_size f1) = a_digits (fa f1)) ->
  (a_type (fa f1) <> TDisplay -> a_sep (fa f1) = false) ->
  exists ds, length ds = Z.to_nat (a_digits (fa f1)) /\ Forall is_dig ds /\
    digits_value ds = Z.abs v mod 10 ^ a_digits (fa f1) /\
    (exists c, cob_cmp m col (item f1) (item f2) = Ok (c, f1, f2) /\
               cmp_agrees col (map digit_char ds) (fd f2) c) /\
    (exists c, cob_cmp m col (item f2) (item f1) = Ok (c, f2, f1) /\
               cmp_agrees col (fd f2) (map digit_char ds) c).
Proof.
  intros m col f1 f2 v D T2 HD HS HP.
  destruct (cmp_operand_num m f1 v D HD HS HP) as (t & o & s & g & ds & C & G & FG & L & Fd & V & B).
  exists ds. split; [auto|]. split; [auto|]. split; [auto|].
  assert (TT : text_type (a_type (fa f2))) by (unfold plain_text, text_type in *; tauto).
  assert (G2 := get_sign_text m f2 (or_introl TT)). assert (P2 := put_sign_text m f2 0 (or_introl TT)).
  assert (C2 : cmp_operand m f2 = Ok (f2, None)).
  { unfold cmp_operand. destruct T2 as [H | [H | H]]; rewrite H; reflexivity. }
  assert (N1 : is_national (a_type (fa f1)) = false) by (destruct (denotes_type _ _ _ D) as [-> | [-> | ->]]; reflexivity).
  assert (N2 : is_national (a_type (fa f2)) = false) by (destruct T2 as [-> | [-> | ->]]; reflexivity).
  assert (A1 : is_all f1 = false) by (unfold is_all; destruct (denotes_type _ _ _ D) as [-> | [-> | ->]]; reflexivity).
  assert (A2 : is_all f2 = false) by (unfold is_all; destruct T2 as [-> | [-> | ->]]; reflexivity).
  assert (R1 : is_group f1 = false) by (unfold is_group; destruct (denotes_type _ _ _ D) as [-> | [-> | ->]]; reflexivity).
  assert (R2 : is_group f2 = false) by (unfold is_group; destruct T2 as [-> | [-> | ->]]; reflexivity).
  assert (M2 : is_numeric_type (a_type (fa f2)) = false) by (destruct T2 as [-> | [-> | ->]]; reflexivity).
  unfold cob_cmp, item, cmp_alnum. cbn [o_f o_zero]. rewrite N1, N2, A1, A2, R1, R2, M2. cbn [orb].
  rewrite andb_false_r, andb_false_l, C, C2. cbn [obind fst snd]. rewrite G, G2, FG, P2, B.
  split; eexists; (split; [reflexivity|apply cmp_simple_str_agrees]).
Qed.

(** A group on either side: the bytes are compared as they are. *)
Theorem cob_cmp_group : forall m col f1 f2,
  a_type (fa f1) = TGroup \/ a_type (fa f2) = TGroup ->
  is_national (a_type (fa f1)) = false -> is_national (a_type (fa f2)) = false ->
  is_all f1 = false -> is_all f2 = false ->
  exists c, cob_cmp m col (item f1) (item f2) = Ok (c, f1, f2) /\ cmp_agrees col (fd f1) (fd f2) c.
Proof.
  intros m col f1 f2 G N1 N2 A1 A2. exists (cmp_simple_str col (fd f1) (fd f2)).
  split; [|apply cmp_simple_str_agrees].
  unfold cob_cmp, item. cbn [o_f o_zero]. rewrite N1, N2, A1, A2. cbn [orb].
  assert (R : is_group f1 || is_group f2 = true).
  { unfold is_group. destruct G as [-> | ->]; [reflexivity|apply orb_true_r]. }
  assert (NN : is_numeric_type (a_type (fa f1)) && is_numeric_type (a_type (fa f2)) = false).
  { destruct G as [-> | ->]; [reflexivity|apply andb_false_r]. }
  rewrite R, NN. reflexivity.
Qed.

(** ** Keys of SORT *)

Lemma denotes_unique : forall e f v w, denotes e f v -> denotes e f w -> v = w.
Proof.
  intros e f v w A B. set (m := mkCfg e true 46 44 36).
  pose proof (fetch_denotes m f v A) as E1. pose proof (fetch_denotes m f w B) as E2.
  rewrite E1 in E2. congruence.
Qed.

Lemma numeric_cmp_same : forall m f1 f2 v1 v2,
  denotes (c_ebcdic m) f1 v1 -> denotes (c_ebcdic m) f2 v2 -> a_scale (fa f1) = a_scale (fa f2) ->
  numeric_cmp m f1 f2 = Ok (Z.sgn (v1 - v2)).
Proof.
  intros m f1 f2 v1 v2 D1 D2 S. unfold numeric_cmp.
  rewrite (fetch_denotes m f1 v1), (fetch_denotes m f2 v2) by auto. cbn [obind fst].
  unfold dec_cmp, align_decimal. cbn [dsc dv]. rewrite S, Z.ltb_irrefl. reflexivity.
Qed.

Section Sort.
Variables (m : cfg) (col : option (list Z)).

Lemma key_field_len : forall k r, (k_off k + k_size k <= length r)%nat -> length (fd (key_field k r)) = k_size k.
Proof. intros. unfold key_field. cbn [fd]. rewrite firstn_length, skipn_length. lia. Qed.

Lemma num_not_text : forall t, is_numeric_type t = true -> text_type t -> False.
Proof. intros t H [-> | [-> | [-> | ->]]]; discriminate. Qed.

Definition key_cmp (k : skey) (r1 r2 : list Z) : outcome Z :=
  let f1 := key_field k r1 in let f2 := key_field k r2 in
  if is_numeric_type (a_type (k_attr k)) then numeric_cmp m f1 f2
  else if is_national (a_type (k_attr k)) then national_cmps (fd f1) (fd f2)
  else Ok (alnum_cmps col (fd f1) (fd f2)).

Lemma key_cmp_spec : forall k r1 r2, key_ok m k r1 -> key_ok m k r2 ->
  exists c, key_cmp k r1 r2 = Ok c /\
    (c < 0 <-> key_lt m col k r1 r2) /\ (c = 0 <-> key_eq m col k r1 r2) /\ (0 < c <-> key_lt m col k r2 r1).
Proof.
  intros k r1 r2 (B1 & K1) (B2 & K2). unfold key_cmp, key_lt, key_eq. cbv zeta.
  destruct (is_numeric_type (a_type (k_attr k))) eqn:N.
  - destruct K1 as (v1 & D1). destruct K2 as (v2 & D2).
    exists (Z.sgn (v1 - v2)). split; [apply numeric_cmp_same; auto|].
    assert (U1 : forall w, denotes (c_ebcdic m) (key_field k r1) w -> w = v1) by (intros; eapply denotes_unique; eauto).
    assert (U2 : forall w, denotes (c_ebcdic m) (key_field k r2) w -> w = v2) by (intros; eapply denotes_unique; eauto).
    split; [|split]; split.
    + intros. exists v1, v2. repeat split; auto. lia.
    + intros (x & y & X & Y & L). apply U1 in X. apply U2 in Y. lia.
    + intros. assert (v1 = v2) by lia. subst. eauto.
    + intros (x & X & Y). apply U1 in X. apply U2 in Y. lia.
    + intros. exists v2, v1. repeat split; auto. lia.
    + intros (x & y & X & Y & L). apply U2 in X. apply U1 in Y. lia.
  - assert (NN : is_national (a_type (k_attr k)) = false).
    { destruct K1 as [-> | [-> | [-> | ->]]]; reflexivity. }
    rewrite NN. eexists. split; [reflexivity|]. apply alnum_cmps_agrees.
    rewrite !key_field_len; auto.
Qed.

Lemma sort_compare_step : forall k ks r1 r2, key_ok m k r1 -> key_ok m k r2 ->
  sort_compare m col (k :: ks) r1 r2 =
    do c <- key_cmp k r1 r2;
    if c =? 0 then sort_compare m col ks r1 r2 else Ok (if k_asc k then c else - c).
Proof.
  intros k ks r1 r2 (B1 & _) (B2 & _). cbn [sort_compare].
  destruct (Nat.ltb_spec (length r1) (k_off k + k_size k)); [lia|].
  destruct (Nat.ltb_spec (length r2) (k_off k + k_size k)); [lia|]. reflexivity.
Qed.

Lemma key_eq_sym : forall k r1 r2, key_eq m col k r1 r2 -> key_eq m col k r2 r1.
Proof.
  intros k r1 r2. unfold key_eq. destruct (is_numeric_type _); [|apply text_eq_sym].
  intros (v & A & B). eauto.
Qed.
Lemma key_lt_not_eq : forall k r1 r2, key_lt m col k r1 r2 -> key_eq m col k r1 r2 -> False.
Proof.
  intros k r1 r2. unfold key_lt, key_eq. destruct (is_numeric_type _); [|apply text_lt_neq].
  intros (v & w & A & B & L) (x & C & D). assert (v = x) by (eapply denotes_unique; eauto).
  assert (w = x) by (eapply denotes_unique; eauto). lia.
Qed.
Lemma key_lt_asym : forall k r1 r2, key_lt m col k r1 r2 -> key_lt m col k r2 r1 -> False.
Proof.
  intros k r1 r2. unfold key_lt. destruct (is_numeric_type _); [|apply text_lt_asym].
  intros (v & w & A & B & L) (x & y & C & D & L'). assert (v = y) by (eapply denotes_unique; eauto).
  assert (w = x) by (eapply denotes_unique; eauto). lia.
Qed.
Lemma key_lt_trans : forall k r1 r2 r3, key_lt m col k r1 r2 -> key_lt m col k r2 r3 -> key_lt m col k r1 r3.
Proof.
  intros k r1 r2 r3. unfold key_lt. destruct (is_numeric_type _); [|apply text_lt_trans].
  intros (v & w & A & B & L) (x & y & C & D & L'). assert (w = x) by (eapply denotes_unique; eauto).
  exists v, y. repeat split; auto. lia.
Qed.
Lemma key_eq_lt : forall k r1 r2 r3, key_eq m col k r1 r2 -> key_lt m col k r2 r3 -> key_lt m col k r1 r3.
Proof.
  intros k r1 r2 r3. unfold key_lt, key_eq. destruct (is_numeric_type _); [|apply text_eq_lt].
  intros (v & A & B) (x & y & C & D & L'). assert (v = x) by (eapply denotes_unique; eauto).
  subst. eauto.
Qed.
Lemma key_lt_eq : forall k r1 r2 r3, key_lt m col k r1 r2 -> key_eq m col k r2 r3 -> key_lt m col k r1 r3.
Proof.
  intros k r1 r2 r3. unfold key_lt, key_eq. destruct (is_numeric_type _); [|apply text_lt_eq].
  intros (v & w & A & B & L) (x & C & D). assert (w = x) by (eapply denotes_unique; eauto).
  subst. eauto.
Qed.
Lemma key_eq_trans : forall k r1 r2 r3, key_eq m col k r1 r2 -> key_eq m col k r2 r3 -> key_eq m col k r1 r3.
Proof.
  intros k r1 r2 r3. unfold key_eq. destruct (is_numeric_type _); [|apply text_eq_trans].
  intros (v & A & B) (x & C & D). assert (v = x) by (eapply denotes_unique; eauto). subst. eauto.
Qed.

Theorem sort_compare_spec : forall ks r1 r2,
  Forall (fun k => key_ok m k r1) ks -> Forall (fun k => key_ok m k r2) ks ->
  exists c, sort_compare m col ks r1 r2 = Ok c /\
    (c < 0 <-> rec_lt m col ks r1 r2) /\ (c = 0 <-> rec_eq m col ks r1 r2) /\ (0 < c <-> rec_lt m col ks r2 r1).
Proof.
  induction ks as [|k ks IH]; intros r1 r2 F1 F2.
  - exists 0. split; [reflexivity|]. cbn [rec_lt rec_eq]. lia.
  - apply Forall_cons_iff in F1 as (K1 & F1). apply Forall_cons_iff in F2 as (K2 & F2).
    rewrite sort_compare_step by auto.
    destruct (key_cmp_spec k r1 r2 K1 K2) as (c & E & A & B & C). rewrite E. cbn [obind rec_lt rec_eq].
    destruct (Z.eqb_spec c 0) as [Z0|NZ].
    + destruct (IH r1 r2 F1 F2) as (c' & E' & A' & B' & C'). exists c'. split; auto.
      assert (KE : key_eq m col k r1 r2) by (apply B; auto).
      assert (KE' := key_eq_sym _ _ _ KE).
      assert (NL1 : ~ key_lt m col k r1 r2) by (intro; eapply key_lt_not_eq; eauto).
      assert (NL2 : ~ key_lt m col k r2 r1) by (intro; eapply key_lt_not_eq; eauto).
      rewrite A', B', C'. destruct (k_asc k); tauto.
    + eexists. split; [reflexivity|].
      assert (NE : ~ key_eq m col k r1 r2) by (rewrite <- B; auto).
      assert (NE' : ~ key_eq m col k r2 r1) by (intro X; apply NE, key_eq_sym, X).
      destruct (k_asc k).
      * rewrite A, B, C. tauto.
      * assert (X1 : - c < 0 <-> 0 < c) by lia. assert (X2 : - c = 0 <-> c = 0) by lia.
        assert (X3 : 0 < - c <-> c < 0) by lia. rewrite X1, X2, X3, A, B, C. tauto.
Qed.

Lemma rec_eq_lt : forall ks r1 r2 r3, rec_eq m col ks r1 r2 -> rec_lt m col ks r2 r3 -> rec_lt m col ks r1 r3.
Proof.
  induction ks as [|k ks IH]; cbn [rec_eq rec_lt]; intros r1 r2 r3; [auto|].
  intros (E & R) [L | (E' & L)].
  - left. destruct (k_asc k); [eapply key_eq_lt; eauto|eapply key_lt_eq; eauto using key_eq_sym].
  - right. split; [eapply key_eq_trans; eauto|eauto].
Qed.
Lemma rec_lt_trans : forall ks r1 r2 r3, rec_lt m col ks r1 r2 -> rec_lt m col ks r2 r3 -> rec_lt m col ks r1 r3.
Proof.
  induction ks as [|k ks IH]; cbn [rec_eq rec_lt]; intros r1 r2 r3; [auto|].
  intros [L | (E & L)] [L' | (E' & L')].
  - left. destruct (k_asc k); eapply key_lt_trans; eauto.
  - left. destruct (k_asc k); [eapply key_lt_eq; eauto|eapply key_eq_lt; eauto using key_eq_sym].
  - left. destruct (k_asc k); [eapply key_eq_lt; eauto|eapply key_lt_eq; eauto using key_eq_sym].
  - right. split; [eapply key_eq_trans; eauto|eauto].
Qed.
Lemma rec_eq_trans : forall ks r1 r2 r3, rec_eq m col ks r1 r2 -> rec_eq m col ks r2 r3 -> rec_eq m col ks r1 r3.
Proof.
  induction ks as [|k ks IH]; cbn [rec_eq rec_lt]; intros r1 r2 r3; [auto|].
  intros (E & R) (E' & R'). split; [eapply key_eq_trans; eauto|eauto].
Qed.
Lemma rec_eq_sym : forall ks r1 r2, rec_eq m col ks r1 r2 -> rec_eq m col ks r2 r1.
Proof. induction ks as [|k ks IH]; cbn [rec_eq]; intros; auto. destruct H. split; auto using key_eq_sym. Qed.

Theorem sort_compare_preorder : forall ks r1 r2 r3 c12 c21 c23 c13,
  Forall (fun k => key_ok m k r1) ks -> Forall (fun k => key_ok m k r2) ks -> Forall (fun k => key_ok m k r3) ks ->
  sort_compare m col ks r1 r2 = Ok c12 -> sort_compare m col ks r2 r1 = Ok c21 ->
  sort_compare m col ks r2 r3 = Ok c23 -> sort_compare m col ks r1 r3 = Ok c13 ->
  Z.sgn c21 = - Z.sgn c12 /\ (c12 <= 0 -> c23 <= 0 -> c13 <= 0) /\
  (c12 <= 0 -> c23 < 0 -> c13 < 0) /\ (c12 < 0 -> c23 <= 0 -> c13 < 0) /\ (c12 = 0 -> c23 = 0 -> c13 = 0).
Proof.
  intros ks r1 r2 r3 c12 c21 c23 c13 F1 F2 F3 E12 E21 E23 E13.
  destruct (sort_compare_spec ks r1 r2 F1 F2) as (c & E & A12 & B12 & C12). rewrite E12 in E. injection E as <-.
  destruct (sort_compare_spec ks r2 r1 F2 F1) as (c & E & A21 & B21 & C21). rewrite E21 in E. injection E as <-.
  destruct (sort_compare_spec ks r2 r3 F2 F3) as (c & E & A23 & B23 & C23). rewrite E23 in E. injection E as <-.
  destruct (sort_compare_spec ks r1 r3 F1 F3) as (c & E & A13 & B13 & C13). rewrite E13 in E. injection E as <-.
  assert (LT : c12 < 0 -> c23 < 0 -> c13 < 0).
  { intros. apply A13. eapply rec_lt_trans; [now apply A12|now apply A23]. }
  assert (EL : c12 = 0 -> c23 < 0 -> c13 < 0).
  { intros. apply A13. eapply rec_eq_lt; [now apply B12|now apply A23]. }
  assert (LE : c12 < 0 -> c23 = 0 -> c13 < 0).
  { intros X Y. destruct (Z.lt_trichotomy c13 0) as [G | [G | G]]; auto; exfalso.
    - apply B13 in G. apply B23 in Y. assert (rec_eq m col ks r1 r2) by (eapply rec_eq_trans; eauto using rec_eq_sym).
      apply B12 in H. lia.
    - apply C13 in G. apply B23 in Y.
      assert (L : rec_lt m col ks r2 r1) by (eapply rec_eq_lt; eauto). apply C12 in L. lia. }
  assert (EE : c12 = 0 -> c23 = 0 -> c13 = 0).
  { intros X Y. apply B13. eapply rec_eq_trans; [now apply B12|now apply B23]. }
  split; [|split; [|split; [|split]]]; try (intros; lia).
  destruct (Z.lt_trichotomy c12 0) as [G | [G | G]].
  - assert (0 < c21) by (apply C21, A12, G). lia.
  - assert (c21 = 0) by (apply B21, rec_eq_sym, B12, G). lia.
  - assert (c21 < 0) by (apply A21, C12, G). lia.
Qed.
End Sort.

(** ** Class conditions *)

Definition letterb (c : Z) : bool := ((65 <=? c) && (c <=? 90)) || ((97 <=? c) && (c <=? 122)).

Lemma is_numeric_unsigned : forall m nc f, a_type (fa f) = TDisplay -> a_sign (fa f) = false -> a_sep (fa f) = false ->
  is_numeric m nc f = (forallb is_digitb (fd f), f).
Proof.
  intros m nc f T S P. unfold is_numeric, get_sign, put_sign. rewrite T, S.
  assert (DD : data_digits f = fd f).
  { unfold data_digits, data_size, data_off, f_size. rewrite P. cbn [andb skipn].
    apply firstn_all2. lia. }
  rewrite DD, S. reflexivity.
Qed.

Lemma digits_b : forall ds, Forall is_dig ds -> forallb is_digitb (map digit_char ds) = true.
Proof.
  intros ds H. apply forallb_forall. intros x X. apply in_map_iff in X as (d & <- & I).
  rewrite Forall_forall in H. specialize (H d I). unfold is_dig in H. unfold is_digitb, digit_char. lia.
Qed.

Lemma is_numeric_zoned : forall m nc a neg ds, a_type a = TDisplay -> ds <> [] -> Forall is_dig ds -> attr_ok a ->
  (a_sign a = false -> neg = false) ->
  is_numeric m nc (mkField a (zoned (c_ebcdic m) a neg ds)) = (true, mkField a (zoned (c_ebcdic m) a neg ds)).
Proof.
  intros m nc a neg ds T Hne Hd Ha Hu.
  destruct (get_sign_digits m a neg ds T Hne Hd Ha Hu) as (s & g & G & _ & _ & DG & _ & PB).
  unfold is_numeric. cbn [fa]. rewrite T, G, DG, PB. rewrite digits_b by auto. reflexivity.
Qed.

Lemma forallb_upd : forall (p : Z -> bool) l i v, (i < length l)%nat ->
  (forallb p (upd i v l) = true <-> p v = true /\ forall j, (j < length l)%nat -> j <> i -> p (nth j l 0) = true).
Proof.
  intros p l i v Hi. rewrite forallb_forall. split.
  - intros H. split.
    + apply H. pose proof (upd_nth_same l i v 0 Hi) as X.
      assert (Y : In (nth i (upd i v l) 0) (upd i v l)) by (apply nth_In; now rewrite upd_length).
      now rewrite X in Y.
    + intros j Hj N. rewrite <- (upd_nth_other l i j v 0) by auto. apply H, nth_In. now rewrite upd_length.
  - intros (A & B) x X. apply (In_nth _ _ 0) in X as (j & Hj & <-). rewrite upd_length in Hj.
    destruct (Nat.eq_dec j i); [subst; now rewrite upd_nth_same|rewrite upd_nth_other; auto].
Qed.

(** Signed DISPLAY with an ASCII overpunch: exactly the valid contents, and
    those with a space in the sign position. *)
Lemma is_numeric_overpunch : forall m nc f, a_type (fa f) = TDisplay -> a_sign (fa f) = true -> a_sep (fa f) = false ->
  c_ebcdic m = false -> bytes_ok (fd f) -> (1 <= f_size f)%nat ->
  let i := sign_pos f in let c := nth i (fd f) 0 in
  exists b f', is_numeric m nc f = (b, f') /\ (c <> 32 -> f' = f) /\
    (b = true <-> (is_digit c \/ 112 <= c <= 121 \/ c = 32) /\
                  forall j, (j < f_size f)%nat -> j <> i -> is_digit (nth j (fd f) 0)).
Proof.
  intros m nc f T S P E B N i c.
  assert (Hi : (i < length (fd f))%nat) by (unfold i, sign_pos, f_size in *; destruct (a_lead (fa f)); lia).
  assert (Bc : is_byte c) by (apply Forall_nth_Z; auto).
  assert (DD : forall d, length d = length (fd f) -> data_digits (set_fd f d) = d).
  { intros d L. unfold data_digits, data_size, data_off, f_size. cbn [set_fd fa fd]. rewrite P. cbn [andb skipn].
    apply firstn_all2. lia. }
  assert (SELF : set_fd f (fd f) = f) by (destruct f; reflexivity).
  assert (Q : forall j, is_digitb (nth j (fd f) 0) = true <-> is_digit (nth j (fd f) 0)) by (intros; apply is_digitb_spec).
  assert (PS : forall d s, put_sign m (set_fd f d) s =
            if s <? 0 then set_fd f (upd (sign_pos (set_fd f d)) (u8 (nth (sign_pos (set_fd f d)) d 0 + 64)) d) else set_fd f d).
  { intros. unfold put_sign, real_put_sign. cbn [set_fd fa fd]. rewrite S, T, P, E. reflexivity. }
  assert (SP : forall d, length d = length (fd f) -> sign_pos (set_fd f d) = i).
  { intros d L. unfold i, sign_pos, f_size. cbn [set_fd fa fd]. now rewrite L. }
  unfold is_numeric, get_sign. rewrite T, S. unfold real_get_sign. rewrite T, P, E. fold i. fold c.
  destruct (is_digitb c) eqn:DC.
  - exists (forallb is_digitb (fd f)), f. rewrite <- SELF at 1 2. rewrite DD by auto. rewrite PS. cbn [Z.ltb Z.compare].
    rewrite SELF. split; [reflexivity|]. split; [auto|].
    rewrite <- (upd_id (fd f) i 0) at 1. fold c. rewrite forallb_upd by auto.
    rewrite DC. unfold f_size. setoid_rewrite Q. apply is_digitb_spec in DC. tauto.
  - assert (ND : ~ is_digit c) by (rewrite <- is_digitb_spec; congruence).
    destruct (Z.eqb_spec c c_sp) as [EC|NC].
    + eexists _, _. rewrite DD by (now rewrite upd_length). split; [reflexivity|].
      unfold c_sp in EC. split; [intros; congruence|]. rewrite forallb_upd by auto.
      unfold f_size. setoid_rewrite Q. change (is_digitb c_0) with true. tauto.
    + eexists _, _. rewrite DD by (now rewrite upd_length). split; [reflexivity|].
      split.
      * intros _. rewrite PS. change (-1 <? 0) with true. cbv iota. rewrite SP by (now rewrite upd_length).
        rewrite upd_nth_same by auto. rewrite upd_upd.
        assert (U : u8 (u8 (c - 64) + 64) = c).
        { unfold u8. rewrite Zplus_mod_idemp_l. replace (c - 64 + 64) with c by lia.
          apply Z.mod_small. unfold is_byte in Bc. lia. }
        rewrite U. unfold c. rewrite upd_id. auto.
      * rewrite forallb_upd by auto. unfold f_size. setoid_rewrite Q.
        assert (X : is_digitb (u8 (c - 64)) = true <-> 112 <= c <= 121).
        { rewrite is_digitb_spec. unfold is_digit, u8. unfold is_byte in Bc. clear - Bc. lia. }
        rewrite X. unfold c_sp in NC. tauto.
Qed.

(** COMP-3: every nibble but the last a decimal digit, the last one a sign. *)
Lemma land_240 : forall b, is_byte b -> Z.land b 240 = 16 * (b / 16).
Proof.
  intros b H. change 240 with (Z.shiftl 15 4). replace (b / 16) with (Z.shiftr b 4) by (rewrite Z.shiftr_div_pow2 by lia; reflexivity).
  replace (16 * Z.shiftr b 4) with (Z.shiftl (Z.shiftr b 4) 4) by (rewrite Z.shiftl_mul_pow2; lia).
  apply Z.bits_inj'. intros n Hn. rewrite Z.land_spec.
  destruct (Z_lt_dec n 4).
  - rewrite !Z.shiftl_spec_low by lia. apply andb_false_r.
  - rewrite !Z.shiftl_spec by lia. rewrite Z.shiftr_spec by lia. replace (n - 4 + 4) with n by lia.
    destruct (Z_lt_dec n 8).
    + assert (n = 4 \/ n = 5 \/ n = 6 \/ n = 7) as [-> | [-> | [-> | ->]]] by lia; apply andb_true_r.
    + assert (Z.testbit b n = false).
      { destruct (Z.eq_dec b 0); [subst; apply Z.bits_0|]. apply Z.bits_above_log2; [unfold is_byte in H; lia|].
        assert (Z.log2 b < 8); [|lia]. apply Z.log2_lt_pow2; unfold is_byte in H; lia. }
      rewrite H0. reflexivity.
Qed.
Lemma land_15 : forall b, Z.land b 15 = b mod 16.
Proof. intros. change 15 with (Z.ones 4). rewrite Z.land_ones by lia. reflexivity. Qed.

Lemma is_numeric_packed : forall m nc f, a_type (fa f) = TPacked -> bytes_ok (fd f) -> fd f <> [] ->
  exists b, is_numeric m nc f = (b, f) /\
    (b = true <->
      (forall j, (j < f_size f - 1)%nat -> nth j (fd f) 0 / 16 <= 9 /\ nth j (fd f) 0 mod 16 <= 9) /\
      last (fd f) 0 / 16 <= 9 /\
      (last (fd f) 0 mod 16 = 15 \/
       (a_sign (fa f) = true /\ (last (fd f) 0 mod 16 = 12 \/ last (fd f) 0 mod 16 = 13)) \/
       (a_sign (fa f) = false /\ nc = true /\ last (fd f) 0 mod 16 = 12))).
Proof.
  intros m nc f T B NE. unfold is_numeric. rewrite T. eexists. split; [reflexivity|].
  assert (BL : is_byte (last (fd f) 0)).
  { rewrite (app_removelast_last 0 NE) in B. apply Forall_app in B as (_ & B). now inversion B. }
  rewrite !land_15, !land_240 by auto. rewrite !andb_true_iff.
  assert (R : forallb (fun b => (Z.land b 240 <=? 144) && (Z.land b 15 <=? 9)) (removelast (fd f)) = true <->
     (forall j, (j < f_size f - 1)%nat -> nth j (fd f) 0 / 16 <= 9 /\ nth j (fd f) 0 mod 16 <= 9)).
  { assert (BR : Forall is_byte (removelast (fd f))).
    { rewrite (app_removelast_last 0 NE) in B. now apply Forall_app in B as (B & _). }
    assert (LR : length (removelast (fd f)) = (f_size f - 1)%nat).
    { unfold f_size. rewrite (app_removelast_last 0 NE) at 2. rewrite app_length. simpl. lia. }
    rewrite forallb_forall. split.
    - intros H j Hj. rewrite (app_removelast_last 0 NE). rewrite app_nth1 by lia.
      assert (I : In (nth j (removelast (fd f)) 0) (removelast (fd f))) by (apply nth_In; lia).
      specialize (H _ I). rewrite land_15, land_240 in H by (rewrite Forall_forall in BR; auto).
      apply andb_true_iff in H as (H1 & H2). apply Z.leb_le in H1, H2. lia.
    - intros H x X. rewrite land_15, land_240 by (rewrite Forall_forall in BR; auto).
      apply (In_nth _ _ 0) in X as (j & Hj & EX). specialize (H j ltac:(lia)).
      rewrite (app_removelast_last 0 NE) in H. rewrite app_nth1 in H by lia. rewrite EX in H.
      apply andb_true_iff. rewrite !Z.leb_le. lia. }
  rewrite R, Z.leb_le, orb_true_iff, Z.eqb_eq.
  assert (X : 16 * (last (fd f) 0 / 16) <= 144 <-> last (fd f) 0 / 16 <= 9) by lia. rewrite X.
  destruct (a_sign (fa f)); rewrite ?orb_true_iff, ?andb_true_iff, ?Z.eqb_eq; intuition congruence.
Qed.

Lemma is_alpha_spec : forall f, is_alpha f = true <->
  Forall (fun c => white c \/ 65 <= c <= 90 \/ 97 <= c <= 122) (fd f).
Proof.
  intros. unfold is_alpha. rewrite forallb_forall, Forall_forall. unfold is_space, is_upperb, is_lowerb, white.
  split; intros H c I; specialize (H c I); lia.
Qed.
Lemma is_upper_spec : forall f, is_upper f = true <-> Forall (fun c => white c \/ 65 <= c <= 90) (fd f).
Proof.
  intros. unfold is_upper. rewrite forallb_forall, Forall_forall. unfold is_space, is_upperb, white.
  split; intros H c I; specialize (H c I); lia.
Qed.
Lemma is_lower_spec : forall f, is_lower f = true <-> Forall (fun c => white c \/ 97 <= c <= 122) (fd f).
Proof.
  intros. unfold is_lower. rewrite forallb_forall, Forall_forall. unfold is_space, is_lowerb, white.
  split; intros H c I; specialize (H c I); lia.
Qed.

(** ** National comparison *)
Fixpoint dbytes (l : list Z) : list Z :=
  match l with a :: b :: r => 256 * a + b :: dbytes r | _ => [] end.

Lemma national_cmps_spec : forall n s1 s2, length s1 = (2 * n)%nat -> length s2 = (2 * n)%nat ->
  exists c, national_cmps s1 s2 = Ok c /\ (c = 0 \/ c = 1) /\
    (c = 1 <-> exists i, (i < n)%nat /\ nth i (dbytes s2) 0 < nth i (dbytes s1) 0).
Proof.
  induction n as [|n IH]; intros s1 s2 L1 L2.
  - destruct s1, s2; simpl in *; try lia. exists 0. repeat split; auto; [lia|]. intros (i & X & _). lia.
  - destruct s1 as [|a [|b r1]]; simpl in L1; try lia. destruct s2 as [|c [|d r2]]; simpl in L2; try lia.
    destruct (IH r1 r2 ltac:(lia) ltac:(lia)) as (x & E & R & S). cbn [national_cmps dbytes].
    destruct (Z.ltb_spec (256 * c + d) (256 * a + b)).
    + exists 1. repeat split; auto. intros _. exists 0%nat. split; [lia|]. exact H.
    + exists x. split; auto. split; auto. rewrite S. split.
      * intros (i & I & J). exists (Datatypes.S i). split; [lia|]. exact J.
      * intros (i & I & J). destruct i as [|i]; cbn [nth] in J; [lia|]. exists i. split; [lia|auto].
Qed.
