(** De-editing at the level of MOVE, and round trips (proof file). *)
From Coq Require Import QArith Qabs.
From Verif Require Import Base BaseFacts Field Sign Decimal SpecNum Numeric SpecStore NumFacts SpecMove.
From Verif Require Import DispProofs DecProofs BinProofs PackedProofs StoreProofs MoveProofs Move Edited MoveAll.
From Verif Require Import MovePacked MoveBin MoveNum MoveText MoveMore SpecEdit EditProofs EditFinish EditMove EditBack.
Local Open Scope Z_scope.

Lemma edited_shape : forall m p f1 f2, edited_item m p f1 -> numeric_item f2 ->
  cob_move m f1 f2 =
  match a_type (fa f2) with
  | TDisplay => edited_to_display m f1 f2
  | _ => indirect_move m (edited_to_display m) f1 f2 36 18
  end.
Proof.
  intros m p f1 f2 (T1 & _ & SZ1 & _) N2. pose proof (numeric_size _ N2) as SZ2.
  assert (T2 : a_type (fa f2) = TDisplay \/ a_type (fa f2) = TPacked \/ a_type (fa f2) = TBinary).
  { inversion N2 as [? k (A & _)|? D (A & _)|? (A & _)]; auto. }
  rewrite cob_move_elementary; [|lia|lia|..].
  - unfold move_elementary. rewrite T1. destruct T2 as [-> | [-> | ->]]; reflexivity.
  - rewrite T1. exact I.
  - destruct T2 as [-> | [-> | ->]]; exact I.
Qed.

Lemma temp36 : forall m p f N neg,
  edit_cfg m -> editable p -> readable p -> edited_item m p f ->
  0 <= N < 10 ^ places (p_body p) ->
  (has is_float (p_body p) = true -> N < 10 ^ (places (p_body p) - 1)) ->
  fd f = edited_text m p N neg (a_bzero (fa f)) ->
  decimals (p_body p) <= 18 -> N < 10 ^ (18 + decimals (p_body p)) ->
  exists t' w, edited_to_display m f (temp_field 36 18) = Ok (f, t') /\ denotes (c_ebcdic m) t' w /\
    fa t' = fa (temp_field 36 18) /\ f_size t' = f_size (temp_field 36 18) /\
    (rat w 18 == read_back p N neg)%Q /\ Z.abs w < 10 ^ 36.
Proof.
  intros m p f N neg CF ED RD IT HN FIT FD D18 B18.
  assert (W : wf_display (temp_field 36 18) 36) by (apply (temp_wf 36 18); lia).
  destruct (edited_to_display_spec m p f _ N neg 36 CF ED RD IT HN FIT FD W) as (t' & E & D & A & S).
  change (a_scale (fa (temp_field 36 18))) with 18 in D.
  unfold read_back. set (v := if neg && carries_sign p then - N else N) in *.
  set (F := decimals (p_body p)) in *.
  assert (F0 : 0 <= F) by (pose proof (decimals_bound (p_body p)) as X; fold F in X; lia).
  assert (AV : Z.abs v = N) by (unfold v; destruct (neg && carries_sign p); lia).
  assert (EW : aligns v F 18 = v * 10 ^ (18 - F)).
  { unfold aligns, alignz. destruct (Z.leb_spec F 18); [|lia]. rewrite Z.mul_assoc. f_equal. destruct v; lia. }
  assert (P1 : 0 < 10 ^ (18 - F)) by (apply Z.pow_pos_nonneg; lia).
  assert (BW : Z.abs (aligns v F 18) < 10 ^ Z.of_nat 36).
  { rewrite EW, Z.abs_mul, (Z.abs_eq (10 ^ (18 - F))), AV by lia.
    replace (10 ^ Z.of_nat 36) with (10 ^ (18 + F) * 10 ^ (18 - F)).
    - apply Z.mul_lt_mono_pos_r; auto.
    - rewrite <- Z.pow_add_r by lia. f_equal. lia. }
  rewrite low_part_fits in D by auto. exists t', (aligns v F 18). split; auto. split; [exact D|]. split; auto. split; auto.
  split; [|exact BW]. rewrite EW. symmetry. apply rat_to. lia.
Qed.

Theorem edited_to_numeric : forall m p f1 f2 N neg,
  edit_cfg m -> editable p -> readable p -> edited_item m p f1 -> numeric_item f2 ->
  0 <= N < 10 ^ places (p_body p) ->
  (has is_float (p_body p) = true -> N < 10 ^ (places (p_body p) - 1)) ->
  fd f1 = edited_text m p N neg (a_bzero (fa f1)) ->
  (a_type (fa f2) <> TDisplay -> decimals (p_body p) <= 18 /\ N < 10 ^ (18 + decimals (p_body p))) ->
  (a_type (fa f2) = TBinary -> (c_bintrunc m && negb (a_realbin (fa f2)) = true -> a_digits (fa f2) <= 18) /\
     -18 <= a_scale (fa f2) /\
     forall w, trunc_at (read_back p N neg) (a_scale (fa f2)) w -> Z.abs w < 2 ^ 63 /\ bin_range f2 (kept_digits m f2 w)) ->
  exists f2', cob_move m f1 f2 = Ok (f1, f2') /\ received m f2 f2' (read_back p N neg).
Proof.
  intros m p f1 f2 N neg CF ED RD IT N2 HN FIT FD H36 HB.
  rewrite (edited_shape m p) by auto.
  assert (CD : a_type (fa f2) = TDisplay \/ a_type (fa f2) <> TDisplay) by (destruct (a_type (fa f2)); auto; right; discriminate).
  destruct CD as [T2|ND].
  - rewrite T2. inversion N2 as [? k W|? D (A & _)|? (A & _)]; subst; try congruence.
    destruct (edited_to_display_spec m p f1 f2 N neg k CF ED RD IT HN FIT FD W) as (f2' & E & D & A & S).
    exists f2'. split; [exact E|]. unfold read_back. eapply received_display; eauto.
  - assert (SH : match a_type (fa f2) with
      | TDisplay => edited_to_display m f1 f2
      | _ => indirect_move m (edited_to_display m) f1 f2 36 18
      end = indirect_move m (edited_to_display m) f1 f2 36 18) by (destruct (a_type (fa f2)); congruence).
    rewrite SH. unfold indirect_move. change (64 <? 36) with false. change (36 <=? 0) with false. cbv iota.
    destruct (H36 ND) as (D18 & B18).
    destruct (temp36 m p f1 N neg CF ED RD IT HN FIT FD D18 B18) as (t' & w & E & D & A & S & QE & _).
    rewrite E. cbn [obind snd fst].
    assert (W : wf_display (temp_field 36 18) 36) by (apply (temp_wf 36 18); lia).
    assert (T' : a_type (fa t') = TDisplay) by (rewrite A; reflexivity).
    assert (S' : a_scale (fa t') = 18) by (rewrite A; reflexivity).
    assert (DS : Z.of_nat (data_size t') = 36).
    { rewrite (data_size_attr t' _ A S), (wf_display_data_size _ _ W). reflexivity. }
    destruct (move_from_display_spec m t' f2 w D T' N2) as (f2' & E2 & R2).
    + intros _. rewrite DS, A. reflexivity.
    + intros T2. destruct (HB T2) as (B1 & B2 & B3). split; [|split; auto].
      * unfold digit_positions. rewrite T', S', DS. lia.
      * rewrite S'. intros x Hx. apply B3. apply (trunc_at_eq (rat w 18)); auto.
    + exists f2'. rewrite E2. cbn [obind snd]. split; [reflexivity|]. rewrite S' in R2. eapply received_eq; eauto.
Qed.

(** One edited item to another. *)
Theorem edited_to_edited : forall m p1 p2 f1 f2 N neg N2,
  edit_cfg m -> editable p1 -> readable p1 -> edited_item m p1 f1 -> editable p2 -> edited_item m p2 f2 ->
  0 <= N < 10 ^ places (p_body p1) ->
  (has is_float (p_body p1) = true -> N < 10 ^ (places (p_body p1) - 1)) ->
  fd f1 = edited_text m p1 N neg (a_bzero (fa f1)) ->
  decimals (p_body p1) <= 18 -> N < 10 ^ (18 + decimals (p_body p1)) ->
  editable_number p2 (read_back p1 N neg) (a_bzero (fa f2)) N2 ->
  exists neg2, sign_of (read_back p1 N neg) neg2 /\
    cob_move m f1 f2 = Ok (f1, set_fd f2 (edited_text m p2 N2 neg2 (a_bzero (fa f2)))).
Proof.
  intros m p1 p2 f1 f2 N neg N2 CF ED RD IT ED2 IT2 HN FIT FD D18 B18 EN.
  pose proof IT as (T1 & _ & SZ1 & _). pose proof IT2 as (T2 & _ & SZ2 & _).
  rewrite cob_move_elementary; [|lia|lia|rewrite T1; exact I|rewrite T2; exact I].
  unfold move_elementary. rewrite T1, T2.
  destruct (temp36 m p1 f1 N neg CF ED RD IT HN FIT FD D18 B18) as (t' & w & E & D & A & S & QE & BW).
  apply (indirect_edited m (edited_to_display m) f1 f2 p2 w _ N2 36 18); auto; [lia|].
  exists t'. split; auto. split; auto. change (Z.to_nat 36) with 36%nat. rewrite low_part_fits by exact BW. exact D.
Qed.

(** ** There and back *)
Lemma text_length : forall m p N neg bz, length (edited_text m p N neg bz) = pic_size p.
Proof.
  intros. unfold edited_text. destruct (blanked p N bz).
  - unfold blank_text. destruct (bz || negb (has is_supp (p_body p)) || negb (p_star p)); [apply repeat_length|].
    rewrite app_length, repeat_length. unfold pic_size. f_equal.
    induction (p_body p) as [|s l IH]; [reflexivity|]. cbn [flat_map filter]. rewrite app_length, IH.
    destruct s; reflexivity.
  - rewrite app_length, cells_gcells, gcells_length.
    + unfold pic_size, widthl. f_equal. unfold trail_text. destruct (p_trail p), neg; reflexivity.
    + intros x s y. destruct s; reflexivity.
Qed.

Lemma sign_of_spec : forall v s w F neg, trunc_at (rat v s) F w -> sign_of (rat v s) neg ->
  w <> 0 -> (if neg then - Z.abs w else Z.abs w) = w.
Proof.
  intros v s w F neg TW (S1 & S2) NZ.
  assert (AW : w = aligns v s F) by (now apply aligns_unique).
  assert (SG : Z.sgn w = Z.sgn v).
  { rewrite AW in NZ |- *. unfold aligns in *. rewrite Z.sgn_mul, Z.sgn_sgn.
    assert (A0 : 0 <= alignz (Z.abs v) s F) by (apply alignz_nonneg; lia).
    assert (A1 : alignz (Z.abs v) s F <> 0) by (intros X; rewrite X, Z.mul_0_r in NZ; congruence).
    rewrite (Z.sgn_pos (alignz _ _ _)) by lia. lia. }
  assert (CV : v < 0 \/ v = 0 \/ 0 < v) by lia.
  destruct CV as [CV|[CV|CV]].
  - rewrite S1; [lia|]. rewrite <- (rat_zero s). now apply rat_lt.
  - lia.
  - rewrite S2; [lia|]. rewrite <- (rat_zero s). now apply rat_lt.
Qed.

Theorem there_and_back : forall m p f1 f2 f3 v w,
  edit_cfg m -> editable p -> readable p ->
  denotes (c_ebcdic m) f1 v -> (a_type (fa f1) = TPacked -> a_digits (fa f1) <= 64) ->
  edited_item m p f2 -> numeric_item f3 ->
  trunc_at (rat v (a_scale (fa f1))) (decimals (p_body p)) w ->
  Z.abs w < 10 ^ (if has is_float (p_body p) then places (p_body p) - 1 else places (p_body p)) ->
  (carries_sign p = true \/ 0 <= v) ->
  (p_trail p = TPlus \/ p_trail p = TMinus -> next_zero p (rat v (a_scale (fa f1))) \/ blanked p (Z.abs w) (a_bzero (fa f2)) = false) ->
  (a_type (fa f3) <> TDisplay -> decimals (p_body p) <= 18 /\ Z.abs w < 10 ^ (18 + decimals (p_body p))) ->
  (a_type (fa f3) = TBinary -> (c_bintrunc m && negb (a_realbin (fa f3)) = true -> a_digits (fa f3) <= 18) /\
     -18 <= a_scale (fa f3) /\
     forall x, trunc_at (rat w (decimals (p_body p))) (a_scale (fa f3)) x -> Z.abs x < 2 ^ 63 /\ bin_range f3 (kept_digits m f3 x)) ->
  exists f2' f3', cob_move m f1 f2 = Ok (f1, f2') /\ cob_move m f2' f3 = Ok (f2', f3') /\
    received m f3 f3' (rat w (decimals (p_body p))).
Proof.
  intros m p f1 f2 f3 v w CF ED RD D1 HP IT N3 TW BW CS TZ H36 HB.
  pose proof (places_nonneg (p_body p)) as PN.
  assert (B1 : Z.abs w < 10 ^ places (p_body p)).
  { destruct (has is_float (p_body p)); auto. apply (Z.lt_le_trans _ _ _ BW). apply Z.pow_le_mono_r; lia. }
  assert (EN : editable_number p (rat v (a_scale (fa f1))) (a_bzero (fa f2)) (Z.abs w)).
  { split; [|split].
    - exists w. split; auto. symmetry. apply Z.mod_small. lia.
    - intros HF. rewrite HF in BW. exact BW.
    - exact TZ. }
  destruct (move_to_edited m f1 f2 p v (Z.abs w) CF ED D1 IT HP EN) as (neg & SG & E).
  set (f2' := set_fd f2 (edited_text m p (Z.abs w) neg (a_bzero (fa f2)))) in *.
  assert (A2 : fa f2' = fa f2) by reflexivity.
  assert (IT2 : edited_item m p f2').
  { destruct IT as (T2 & SZ & S1 & PE & PR). unfold edited_item. rewrite A2.
    assert (SE : f_size f2' = pic_size p).
    { unfold f2', f_size. cbn [fd set_fd]. apply text_length. }
    rewrite SE. split; auto. split; auto. split; [rewrite <- SZ; exact S1|]. auto. }
  assert (RB : (if neg && carries_sign p then - Z.abs w else Z.abs w) = w).
  { destruct (Z.eq_dec w 0) as [->|NZ]; [destruct (neg && carries_sign p); reflexivity|].
    pose proof (sign_of_spec _ _ _ _ _ TW SG NZ) as K.
    destruct CS as [->|PV]; [now rewrite andb_true_r|].
    destruct neg; [|exact K].
    assert (0 <= w).
    { rewrite (aligns_unique _ _ _ _ TW). unfold aligns.
      apply Z.mul_nonneg_nonneg; [lia|].
      apply alignz_nonneg; lia. }
    lia. }
  assert (RQ : read_back p (Z.abs w) neg = rat w (decimals (p_body p))) by (unfold read_back; now rewrite RB).
  destruct (edited_to_numeric m p f2' f3 (Z.abs w) neg CF ED RD IT2 N3) as (f3' & E3 & R3); auto.
  - lia.
  - intros HF. rewrite HF in BW. exact BW.
  - intros T3. rewrite RQ. now apply HB.
  - exists f2', f3'. rewrite RQ in R3. auto.
Qed.
