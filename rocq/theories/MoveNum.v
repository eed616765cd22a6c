(** Numeric MOVE between all usages (proof file). *)
From Coq Require Import QArith Qabs.
From Verif Require Import Base BaseFacts Field Sign Decimal SpecNum Numeric SpecStore NumFacts.
From Verif Require Import DispProofs DecProofs BinProofs PackedProofs StoreProofs.
From Verif Require Import Move Edited MoveAll MoveProofs MovePacked MoveBin SpecMove.
Local Open Scope Z_scope.

Lemma denotes_size : forall e f v, denotes e f v -> (1 <= f_size f)%nat.
Proof.
  intros e f v H. inversion H as [a neg ds T NE D U S|a neg ds T NE D L U|a l T L B]; subst; unfold f_size; cbn [fd].
  - rewrite zoned_length by auto. destruct ds; [congruence|]. cbn [length]. lia.
  - rewrite packed_length. lia.
  - lia.
Qed.

Lemma numeric_size : forall f, numeric_item f -> (1 <= f_size f)%nat.
Proof.
  intros f H. inversion H as [? k (A & B & C & D)|? D (A & B & C & E)|? (A & B & C)]; subst; unfold f_size in *; try lia.
Qed.

Lemma denotes_type : forall e f v, denotes e f v ->
  a_type (fa f) = TDisplay \/ a_type (fa f) = TPacked \/ a_type (fa f) = TBinary.
Proof. intros e f v H. inversion H; subst; cbn [fa]; auto. Qed.

Lemma received_display : forall m f2 f2' k v s1, wf_display f2 k ->
  fa f2' = fa f2 -> f_size f2' = f_size f2 ->
  denotes (c_ebcdic m) f2' (held f2 (low_part k (aligns v s1 (a_scale (fa f2))))) ->
  received m f2 f2' (rat v s1).
Proof.
  intros m f2 f2' k v s1 W A B D. split; [auto|]. split; [auto|]. intros w Hw.
  rewrite (aligns_unique _ _ _ _ Hw). unfold kept_digits.
  rewrite (wf_display_data_size _ _ W). destruct W as (-> & _). exact D.
Qed.

Lemma received_packed : forall m f2 f2' k v s1, wf_packed f2 k ->
  fa f2' = fa f2 -> f_size f2' = f_size f2 ->
  denotes (c_ebcdic m) f2' (held f2 (low_part k (aligns v s1 (a_scale (fa f2))))) ->
  received m f2 f2' (rat v s1).
Proof.
  intros m f2 f2' k v s1 (T & HD & H1 & HS) A B D. split; [auto|]. split; [auto|]. intros w Hw.
  rewrite (aligns_unique _ _ _ _ Hw). unfold kept_digits. rewrite T, HD, Nat2Z.id. exact D.
Qed.

(** From a DISPLAY sender. *)
Theorem move_from_display_spec : forall m f1 f2 v,
  denotes (c_ebcdic m) f1 v -> a_type (fa f1) = TDisplay -> numeric_item f2 ->
  (a_type (fa f2) = TPacked -> Z.of_nat (data_size f1) = a_digits (fa f1)) ->
  (a_type (fa f2) = TBinary -> binary_receivable m f1 f2 v) ->
  exists f2', move_from_display m f1 f2 = Ok (f1, f2') /\ received m f2 f2' (rat v (a_scale (fa f1))).
Proof.
  intros m f1 f2 v D1 T1 N2 HP HB. unfold move_from_display.
  inversion N2 as [? k W|? D W|? W]; subst.
  - pose proof W as (T2 & _). rewrite T2.
    destruct (display_to_display_spec m f1 f2 v k D1 T1 W) as (f2' & E & X1 & X2 & X3).
    exists f2'. split; [now rewrite E|]. eapply received_display; eauto.
  - pose proof W as (T2 & _). rewrite T2.
    destruct (display_to_packed_spec m f1 f2 v D D1 T1 (HP T2) W) as (f2' & E & X1 & X2 & X3).
    exists f2'. split; [exact E|]. eapply received_packed; eauto.
  - pose proof W as (T2 & _). rewrite T2.
    destruct (HB T2) as (B1 & B2 & B3). unfold digit_positions in B1. rewrite T1 in B1.
    destruct (B3 _ (aligns_trunc v (a_scale (fa f1)) (a_scale (fa f2)))) as (B4 & B5).
    destruct (display_to_binary_spec m f1 f2 v D1 T1 W B1) as (f2' & E & X1 & X2 & X3 & X4); auto.
    { unfold LL_MAX. change (2 ^ 63) with 9223372036854775808 in B4. clear - B4. lia. }
    exists f2'. split; [exact E|]. split; [auto|]. split; [auto|]. intros w Hw.
    rewrite (aligns_unique _ _ _ _ Hw). apply X4. auto.
Qed.

(** The temporary of indirect_move. *)
Lemma temp_wf : forall size scale, 1 <= size -> wf_display (temp_field size scale) (Z.to_nat size).
Proof.
  intros. unfold wf_display, temp_field, temp_attr, attr_ok. cbn [fa fd a_type a_sep].
  split; [auto|]. split; [discriminate|]. split; [lia|]. rewrite repeat_length. lia.
Qed.

Lemma aligns_same : forall v s, aligns v s s = v.
Proof.
  intros. unfold aligns, alignz. rewrite Z.leb_refl, Z.sub_diag. change (10 ^ 0) with 1. destruct v; lia.
Qed.

Lemma data_size_attr : forall f g, fa f = fa g -> f_size f = f_size g -> data_size f = data_size g.
Proof. intros f g A B. unfold data_size. now rewrite A, B. Qed.

Lemma indirect_spec : forall m func f1 f2 v size,
  1 <= size <= 64 -> Z.abs v < 10 ^ size ->
  (forall t k, wf_display t k -> exists t', func f1 t = Ok (f1, t') /\
     denotes (c_ebcdic m) t' (held t (low_part k (aligns v (a_scale (fa f1)) (a_scale (fa t))))) /\
     fa t' = fa t /\ f_size t' = f_size t) ->
  numeric_item f2 -> digit_positions f1 = size ->
  (a_type (fa f2) = TBinary -> binary_receivable m f1 f2 v) ->
  exists f2', indirect_move m func f1 f2 size (a_scale (fa f1)) = Ok (f1, f2') /\
    received m f2 f2' (rat v (a_scale (fa f1))).
Proof.
  intros m func f1 f2 v size HS HV HF N2 DP HB. unfold indirect_move.
  destruct (Z.ltb_spec 64 size); [lia|]. destruct (Z.leb_spec size 0); [lia|].
  set (sc := a_scale (fa f1)) in *. set (t := temp_field size sc).
  assert (W : wf_display t (Z.to_nat size)) by (apply temp_wf; lia).
  destruct (HF t _ W) as (t' & E & D & A & S).
  rewrite E. cbn [obind snd fst].
  assert (SC : a_scale (fa t) = sc) by reflexivity. rewrite SC, aligns_same in D.
  rewrite low_part_fits in D by (rewrite Z2Nat.id by lia; auto).
  change (held t v) with v in D.
  assert (DS : Z.of_nat (data_size t') = size).
  { rewrite (data_size_attr t' t A S), (wf_display_data_size _ _ W). lia. }
  assert (T' : a_type (fa t') = TDisplay) by (rewrite A; reflexivity).
  assert (S' : a_scale (fa t') = sc) by (rewrite A; reflexivity).
  destruct (move_from_display_spec m t' f2 v D T' N2) as (f2' & E2 & R2).
  - intros _. rewrite DS, A. reflexivity.
  - intros T2. destruct (HB T2) as (B1 & B2 & B3). fold sc in B1, B3.
    split; [|split; auto].
    + unfold digit_positions. rewrite T', S', DS. rewrite <- DP. exact B1.
    + rewrite S'. exact B3.
  - exists f2'. rewrite E2. cbn [obind snd]. split; [reflexivity|]. rewrite S' in R2. exact R2.
Qed.

Theorem cob_move_numeric : forall m f1 f2 v,
  denotes (c_ebcdic m) f1 v -> numeric_item f2 ->
  (a_type (fa f1) = TDisplay -> a_type (fa f2) = TPacked -> Z.of_nat (data_size f1) = a_digits (fa f1)) ->
  (a_type (fa f1) = TPacked -> a_digits (fa f1) <= 64) ->
  (a_type (fa f2) = TBinary -> binary_receivable m f1 f2 v) ->
  exists f2', cob_move m f1 f2 = Ok (f1, f2') /\ received m f2 f2' (rat v (a_scale (fa f1))).
Proof.
  intros m f1 f2 v D1 N2 HDP HP HB.
  pose proof (denotes_size _ _ _ D1) as SZ1. pose proof (numeric_size _ N2) as SZ2.
  assert (T2 : a_type (fa f2) = TDisplay \/ a_type (fa f2) = TPacked \/ a_type (fa f2) = TBinary).
  { inversion N2 as [? k (A & _)|? D (A & _)|? (A & _)]; auto. }
  assert (EQ : exists f2', move_elementary m f1 f2 = Ok (f1, f2') /\ received m f2 f2' (rat v (a_scale (fa f1)))).
  2:{ destruct EQ as (f2' & E & R). exists f2'. split; auto. unfold cob_move.
      assert (NA : move_not_all m f1 f2 = Ok (f1, f2')).
      { unfold move_not_all. destruct (Nat.eqb_spec (f_size f2) 0); [lia|].
        destruct (Nat.eqb_spec (f_size f1) 0); [lia|].
        assert (NN : is_national (a_type (fa f2)) || is_national (a_type (fa f1)) = false).
        { destruct T2 as [-> | [-> | ->]]; destruct (denotes_type _ _ _ D1) as [-> | [-> | ->]]; reflexivity. }
        rewrite NN.
        destruct (denotes_type _ _ _ D1) as [T1|[T1|T1]]; destruct T2 as [T2|[T2|T2]]; rewrite T1, T2; rewrite E; reflexivity. }
      destruct (denotes_type _ _ _ D1) as [T1|[T1|T1]]; rewrite T1; exact NA. }
  unfold move_elementary. destruct (denotes_type _ _ _ D1) as [T1|[T1|T1]]; rewrite T1.
  - apply move_from_display_spec; auto.
  - specialize (HP T1).
    destruct (denotes_packed_cases _ _ _ T1 D1) as (neg & ds & E1 & Hne & Hd & HL & Hu & Hv).
    assert (LN : 1 <= a_digits (fa f1)) by (rewrite <- HL; destruct ds; [congruence|cbn [length]; lia]).
    assert (IND : exists f2', indirect_move m (packed_to_display m) f1 f2 (a_digits (fa f1)) (a_scale (fa f1)) = Ok (f1, f2') /\
      received m f2 f2' (rat v (a_scale (fa f1)))).
    { apply (indirect_spec m (packed_to_display m) f1 f2 v (a_digits (fa f1))); auto.
      - destruct (signed_neg_le neg ds Hd) as (_ & _ & S3). rewrite Hv, S3, <- HL.
        apply digits_value_bound. auto.
      - intros t k W. now apply packed_to_display_spec.
      - unfold digit_positions. now rewrite T1. }
    destruct T2 as [T2|[T2|T2]]; rewrite T2; auto.
    clear Hv. inversion N2 as [? k W|? D (A & _)|? (A & _)]; subst; try congruence.
    destruct (packed_to_display_spec m f1 f2 v k D1 T1 HP W) as (f2' & E & X1 & X2 & X3).
    exists f2'. split; auto. eapply received_display; eauto.
  - destruct (denotes_binary_cases _ _ _ T1 D1) as (Hs & Hb & Hv).
    destruct (bin_value_bound f1 v Hs Hb Hv) as (BV & _).
    assert (IND : exists f2', indirect_move m (fun a b => Ok (binary_to_display m a b)) f1 f2 20 (a_scale (fa f1)) = Ok (f1, f2') /\
      received m f2 f2' (rat v (a_scale (fa f1)))).
    { apply (indirect_spec m _ f1 f2 v 20); auto.
      - lia.
      - change (10 ^ 20) with 100000000000000000000. change (2 ^ 63) with 9223372036854775808 in BV.
        change (2 ^ 64) with 18446744073709551616 in BV. clear - BV. destruct (a_sign (fa f1)); lia.
      - intros t k W. destruct (binary_to_display_spec m f1 t v k D1 T1 W) as (t' & E & X).
        exists t'. rewrite E. auto.
      - unfold digit_positions. now rewrite T1. }
    destruct T2 as [T2|[T2|T2]]; rewrite T2; auto.
    clear Hv. inversion N2 as [? k W|? D (A & _)|? (A & _)]; subst; try congruence.
    destruct (binary_to_display_spec m f1 f2 v k D1 T1 W) as (f2' & E & X1 & X2 & X3).
    exists f2'. split; [now rewrite E|]. eapply received_display; eauto.
Qed.
