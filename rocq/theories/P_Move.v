(** Theorems C15-C19, C51 (MOVE ALL), C52: MOVE and integer access. *)
From Coq Require Import QArith Qabs.
From Verif Require Import Base BaseFacts Field Sign Decimal SpecNum Numeric SpecStore NumFacts.
From Verif Require Import DispProofs StoreProofs P_Num.
From Verif Require Import Move Edited MoveAll SpecMove MoveProofs MoveNum MoveText MoveMore IntAccess.
Local Open Scope Z_scope.

Definition alnum : fattr := mkAttr TAlnum 0 0 false false false false false false false [].
Definition alnum_just : fattr := mkAttr TAlnum 0 0 false false false false true false false [].
Definition group : fattr := mkAttr TGroup 0 0 false false false false false false false [].
Definition all_lit : fattr := mkAttr TAlnumAll 0 0 false false false false false false false [].

(** C15.  MOVE of a DISPLAY item to a DISPLAY item. *)
Theorem C15_display_move : forall m f1 f2 v k,
  denotes (c_ebcdic m) f1 v -> a_type (fa f1) = TDisplay -> wf_display f2 k ->
  exists f2', cob_move m f1 f2 = Ok (f1, f2') /\ received m f2 f2' (rat v (a_scale (fa f1))).
Proof.
  intros m f1 f2 v k D T W. pose proof W as (T2 & _). apply cob_move_numeric; auto.
  - eapply ni_display; eauto.
  - congruence.
  - congruence.
  - congruence.
Qed.
Print Assumptions C15_display_move.
(** -123.45 (S9(3)V99) to 9(4)V9: 0123.4, unsigned. *)
Example C15_ex : exists f2', cob_move default_cfg
    (mkField (disp 5 2 true false false) [49;50;51;52;117]) (mkField (disp 5 1 false false false) [32;32;32;32;32])
    = Ok (mkField (disp 5 2 true false false) [49;50;51;52;117], f2') /\ fd f2' = [48;49;50;51;52].
Proof. eexists. split; reflexivity. Qed.
Example C15_hyp : denotes false (mkField (disp 5 2 true false false) [49;50;51;52;117]) (-12345)
  /\ wf_display (mkField (disp 5 1 false false false) [32;32;32;32;32]) 5.
Proof.
  split.
  - apply (den_display false (disp 5 2 true false false) true [1;2;3;4;5]); try reflexivity; try discriminate.
    repeat constructor; discriminate.
  - repeat split; auto. discriminate.
Qed.

(** C15: the digit of the receiver at each decimal position, spelled out. *)
Theorem C15_positions : forall m f1 f2 v k f2',
  denotes (c_ebcdic m) f1 v -> a_type (fa f1) = TDisplay -> wf_display f2 k ->
  cob_move m f1 f2 = Ok (f1, f2') ->
  exists u, denotes (c_ebcdic m) f2' u /\
    (forall e, 0 <= e < Z.of_nat k ->
       (Z.abs u / 10 ^ e) mod 10 =
       if e - a_scale (fa f2) + a_scale (fa f1) <? 0 then 0
       else (Z.abs v / 10 ^ (e - a_scale (fa f2) + a_scale (fa f1))) mod 10) /\
    Z.abs u < 10 ^ Z.of_nat k /\
    (a_sign (fa f2) = true -> 0 <= u * v) /\ (a_sign (fa f2) = false -> 0 <= u).
Proof.
  intros m f1 f2 v k f2' D T W E.
  destruct (C15_display_move m f1 f2 v k D T W) as (g & E1 & R1 & R2 & R3).
  assert (g = f2') by congruence. subst g.
  specialize (R3 _ (aligns_trunc v (a_scale (fa f1)) (a_scale (fa f2)))).
  eexists. split; [exact R3|]. clear E E1 R3.
  set (s1 := a_scale (fa f1)). set (s2 := a_scale (fa f2)).
  assert (KD : kept_digits m f2 (aligns v s1 s2) = low_part k (aligns v s1 s2)).
  { unfold kept_digits. rewrite (wf_display_data_size _ _ W). destruct W as (-> & _). reflexivity. }
  rewrite KD.
  assert (P : 0 < 10 ^ Z.of_nat k) by (apply pow10_pos_nat).
  assert (AB : Z.abs (held f2 (low_part k (aligns v s1 s2))) = alignz (Z.abs v) s1 s2 mod 10 ^ Z.of_nat k).
  { rewrite <- aligns_abs. unfold held, low_part. set (x := aligns v s1 s2).
    pose proof (Z.mod_pos_bound (Z.abs x) (10 ^ Z.of_nat k) P).
    destruct (a_sign (fa f2)); destruct x; cbn [Z.sgn Z.abs] in *; try lia. rewrite Z.mod_0_l by lia. lia.
    rewrite Z.mod_0_l by lia. lia. }
  pose proof (alignz_nonneg (Z.abs v) s1 s2 ltac:(lia)) as NN.
  pose proof (Z.mod_pos_bound (alignz (Z.abs v) s1 s2) (10 ^ Z.of_nat k) P) as MB.
  split; [|split; [lia|split]].
  - intros e He. rewrite AB.
    pose proof (dig_align (Z.abs v) s1 s2 e ltac:(lia) ltac:(lia)) as DA. unfold dig in DA.
    destruct (Z.ltb_spec e 0); [lia|].
    replace (e - (s2 - s1)) with (e - s2 + s1) in DA by lia. rewrite <- DA.
    set (X := alignz (Z.abs v) s1 s2) in *.
    assert (PE : 0 < 10 ^ e) by (apply Z.pow_pos_nonneg; lia).
    assert (SP : 10 ^ Z.of_nat k = 10 ^ e * (10 * 10 ^ (Z.of_nat k - e - 1))).
    { rewrite <- (Z.pow_1_r 10) at 3. rewrite <- !Z.pow_add_r by lia. f_equal. lia. }
    assert (PR : 0 < 10 ^ (Z.of_nat k - e - 1)) by (apply Z.pow_pos_nonneg; lia).
    rewrite SP. set (B := 10 ^ (Z.of_nat k - e - 1)) in *. set (A := 10 ^ e) in *.
    rewrite (Z.rem_mul_r X A (10 * B)) by lia.
    replace (X mod A + A * ((X / A) mod (10 * B))) with ((X / A) mod (10 * B) * A + X mod A) by lia.
    rewrite Z.div_add_l by lia. rewrite (Z.div_small (X mod A) A) by (apply Z.mod_pos_bound; lia).
    rewrite Z.add_0_r. rewrite (Z.rem_mul_r (X / A) 10 B) by lia.
    rewrite Z.mul_comm, Z.mod_add by lia. apply Z.mod_mod. lia.
  - intros SG. unfold held. rewrite SG. unfold low_part.
    assert (NS : 0 <= Z.sgn (aligns v s1 s2) * v).
    { unfold aligns. rewrite Z.sgn_mul.
      assert (0 <= Z.sgn (alignz (Z.abs v) s1 s2)) by lia.
      replace (Z.sgn (Z.sgn v) * Z.sgn (alignz (Z.abs v) s1 s2) * v) with (Z.sgn (alignz (Z.abs v) s1 s2) * (Z.sgn v * v)).
      2:{ rewrite Z.sgn_sgn. ring. }
      apply Z.mul_nonneg_nonneg; auto. rewrite Z.mul_comm, Z.sgn_abs || idtac. destruct v; cbn [Z.sgn]; lia. }
    set (x := aligns v s1 s2) in *. pose proof (Z.mod_pos_bound (Z.abs x) (10 ^ Z.of_nat k) P) as Q.
    replace (Z.sgn x * (Z.abs x mod 10 ^ Z.of_nat k) * v) with ((Z.abs x mod 10 ^ Z.of_nat k) * (Z.sgn x * v)) by ring.
    apply Z.mul_nonneg_nonneg; lia.
  - intros SG. unfold held. rewrite SG. lia.
Qed.
Print Assumptions C15_positions.

(** C16.  MOVE between DISPLAY and COMP-3 items (up to 64 digits). *)
Theorem C16_display_to_packed : forall m f1 f2 v D,
  denotes (c_ebcdic m) f1 v -> a_type (fa f1) = TDisplay ->
  Z.of_nat (data_size f1) = a_digits (fa f1) -> wf_packed f2 D ->
  exists f2', cob_move m f1 f2 = Ok (f1, f2') /\ received m f2 f2' (rat v (a_scale (fa f1))).
Proof.
  intros m f1 f2 v D H T HS W. pose proof W as (T2 & _). apply cob_move_numeric; auto; try congruence.
  eapply ni_packed; eauto.
Qed.
Print Assumptions C16_display_to_packed.
Theorem C16_packed_to_display : forall m f1 f2 v k,
  denotes (c_ebcdic m) f1 v -> a_type (fa f1) = TPacked -> a_digits (fa f1) <= 64 -> wf_display f2 k ->
  exists f2', cob_move m f1 f2 = Ok (f1, f2') /\ received m f2 f2' (rat v (a_scale (fa f1))).
Proof.
  intros m f1 f2 v k H T HS W. pose proof W as (T2 & _). apply cob_move_numeric; auto; try congruence.
  eapply ni_display; eauto.
Qed.
Print Assumptions C16_packed_to_display.
Theorem C16_packed_to_packed : forall m f1 f2 v D,
  denotes (c_ebcdic m) f1 v -> a_type (fa f1) = TPacked -> a_digits (fa f1) <= 64 -> wf_packed f2 D ->
  exists f2', cob_move m f1 f2 = Ok (f1, f2') /\ received m f2 f2' (rat v (a_scale (fa f1))).
Proof.
  intros m f1 f2 v k H T HS W. pose proof W as (T2 & _). apply cob_move_numeric; auto; try congruence.
  eapply ni_packed; eauto.
Qed.
Print Assumptions C16_packed_to_packed.

(** C16/C17: a number that the second item can hold exactly survives the
    round trip through it, whatever the usages. *)
Theorem C16_roundtrip : forall m f1 f2 g v w,
  denotes (c_ebcdic m) f1 v -> numeric_item f2 -> numeric_item g ->
  fa g = fa f1 -> f_size g = f_size f1 -> a_type (fa f1) <> TBinary ->
  (a_type (fa f1) = TDisplay -> Z.of_nat (data_size f1) = a_digits (fa f1)) ->
  (a_type (fa f2) = TDisplay -> Z.of_nat (data_size f2) = a_digits (fa f2)) ->
  (a_type (fa f1) = TPacked -> a_digits (fa f1) <= 64) ->
  (a_type (fa f2) = TPacked -> a_digits (fa f2) <= 64) ->
  (a_type (fa f2) = TBinary -> binary_receivable m f1 f2 v) ->
  (rat v (a_scale (fa f1)) == rat w (a_scale (fa f2)))%Q ->
  held f2 (kept_digits m f2 w) = w ->
  exists f2' g', cob_move m f1 f2 = Ok (f1, f2') /\ denotes (c_ebcdic m) f2' w /\
    cob_move m f2' g = Ok (f2', g') /\ denotes (c_ebcdic m) g' v.
Proof. exact move_roundtrip. Qed.
Print Assumptions C16_roundtrip.
(** -12.3 (S99V9 DISPLAY) to S9(3)V99 COMP-3 and back. *)
Example C16_ex : exists f2' g',
  cob_move default_cfg (mkField (disp 3 1 true false false) [49;50;115]) (mkField (pack 5 2 true) [0;0;0])
    = Ok (mkField (disp 3 1 true false false) [49;50;115], f2') /\ fd f2' = [1;35;13] /\
  cob_move default_cfg f2' (mkField (disp 3 1 true false false) [0;0;0]) = Ok (f2', g') /\ fd g' = [49;50;115].
Proof.
  exists (mkField (pack 5 2 true) [1;35;13]), (mkField (disp 3 1 true false false) [49;50;115]).
  repeat split.
Qed.
Example C16_hyp : denotes false (mkField (disp 3 1 true false false) [49;50;115]) (-123) /\
  wf_packed (mkField (pack 5 2 true) [0;0;0]) 5 /\ (rat (-123) 1 == rat (-1230) 2)%Q /\
  held (mkField (pack 5 2 true) [0;0;0]) (kept_digits default_cfg (mkField (pack 5 2 true) [0;0;0]) (-1230)) = -1230.
Proof.
  split; [|repeat split; auto].
  apply (den_display false (disp 3 1 true false false) true [1;2;3]); try reflexivity; try discriminate.
  repeat constructor; discriminate.
Qed.

(** Finding: a sender PIC 99PP (two bytes, four digits) to COMP-3 reads beyond
    the sender: the number of digits, not the size, bounds the copy. *)
Theorem C16_scaled_sender_refuted :
  denotes false (mkField (disp 4 (-2) false false false) [49;50]) 12 /\
  wf_packed (mkField (pack 5 0 true) [0;0;0]) 5 /\
  cob_move default_cfg (mkField (disp 4 (-2) false false false) [49;50]) (mkField (pack 5 0 true) [0;0;0]) = UB.
Proof.
  split; [|repeat split; auto].
  apply (den_display false (disp 4 (-2) false false false) false [1;2]); try reflexivity; try discriminate.
  repeat constructor; discriminate.
Qed.
Print Assumptions C16_scaled_sender_refuted.

(** C17.  MOVE between DISPLAY (or COMP-3) and binary items. *)
Theorem C17_to_binary : forall m f1 f2 v,
  denotes (c_ebcdic m) f1 v -> a_type (fa f1) <> TBinary -> (a_type (fa f1) = TPacked -> a_digits (fa f1) <= 64) ->
  wf_binary f2 -> binary_receivable m f1 f2 v ->
  exists f2', cob_move m f1 f2 = Ok (f1, f2') /\ received m f2 f2' (rat v (a_scale (fa f1))).
Proof.
  intros m f1 f2 v H T HP W HB. pose proof W as (T2 & _). apply cob_move_numeric; auto; try congruence.
  now apply ni_binary.
Qed.
Print Assumptions C17_to_binary.
Theorem C17_from_binary : forall m f1 f2 v,
  denotes (c_ebcdic m) f1 v -> a_type (fa f1) = TBinary -> numeric_item f2 ->
  (a_type (fa f2) = TBinary -> binary_receivable m f1 f2 v) ->
  exists f2', cob_move m f1 f2 = Ok (f1, f2') /\ received m f2 f2' (rat v (a_scale (fa f1))).
Proof.
  intros m f1 f2 v H T N HB. apply cob_move_numeric; auto; try congruence.
Qed.
Print Assumptions C17_from_binary.
(** -123.45 to S9(4) COMP (big-endian): -123. *)
Example C17_ex : exists f2', cob_move default_cfg
    (mkField (disp 5 2 true false false) [49;50;51;52;117]) (mkField (bina 4 0 true true) [0;0])
    = Ok (mkField (disp 5 2 true false false) [49;50;51;52;117], f2') /\ fd f2' = [255;133].
Proof. eexists. split; reflexivity. Qed.
Example C17_hyp : binary_receivable default_cfg
    (mkField (disp 5 2 true false false) [49;50;51;52;117]) (mkField (bina 4 0 true true) [0;0]) (-12345).
Proof.
  split; [cbv; discriminate|]. split; [cbv; discriminate|]. intros w H. apply aligns_unique in H. subst w.
  split; [reflexivity|]. cbv. split; reflexivity.
Qed.

(** Finding: more decimals than digits (V(4)9(2), i.e. VPPPP99 to COMP): the
    count of digits to take becomes negative and wraps. *)
Theorem C17_small_fraction_refuted :
  denotes false (mkField (disp 2 6 false false false) [49;50]) 12 /\
  wf_binary (mkField (bina 4 0 true true) [0;0]) /\
  cob_move default_cfg (mkField (disp 2 6 false false false) [49;50]) (mkField (bina 4 0 true true) [0;0]) = UB.
Proof.
  split; [|split; [|reflexivity]].
  - apply (den_display false (disp 2 6 false false false) false [1;2]); try reflexivity; try discriminate.
    repeat constructor; discriminate.
  - split; [reflexivity|]. cbv. repeat split; try lia; discriminate.
Qed.
Print Assumptions C17_small_fraction_refuted.

(** C18.  Alphanumeric moves: justification, padding, truncation.  Applies to
    text items and to every move in which one side is a group. *)
Definition text_sender (t : ftype) : Prop := t = TAlnum \/ t = TAlnumEdited \/ t = TNumEdited \/ t = TGroup.
Definition plain_type (t : ftype) : Prop :=
  match t with TNational | TNatEdited | TNatAll | TAlnumAll => False | _ => True end.
Theorem C18_text_move : forall m f1 f2,
  plain_type (a_type (fa f1)) -> plain_type (a_type (fa f2)) ->
  (a_type (fa f1) = TGroup /\ fd f1 <> [] \/ a_type (fa f2) = TGroup \/
   text_sender (a_type (fa f1)) /\ a_type (fa f2) = TAlnum) ->
  cob_move m f1 f2 =
  Ok (f1, set_fd f2 (if a_just (fa f2) then right_justified (f_size f2) (fd f1)
                     else left_justified (f_size f2) (fd f1))).
Proof.
  intros m f1 f2 P1 P2 H. unfold cob_move.
  assert (NA : forall x : outcome (field * field), match a_type (fa f1) with TAlnumAll => move_all m f1 f2 | TNatAll => NotModelled | _ => x end = x).
  { intros x. destruct (a_type (fa f1)); try reflexivity; contradiction. }
  rewrite NA. unfold move_not_all.
  assert (NN : is_national (a_type (fa f2)) || is_national (a_type (fa f1)) = false).
  { destruct (a_type (fa f1)), (a_type (fa f2)); try reflexivity; contradiction. }
  rewrite NN.
  destruct (Nat.eqb_spec (f_size f2) 0) as [Z2|Z2].
  { do 2 f_equal. unfold right_justified, left_justified. rewrite Z2. cbn [firstn rev].
    unfold f_size in Z2. destruct (fd f2) eqn:E; [|discriminate]. destruct f2 as [a d]. cbn [fd] in E. subst d.
    unfold set_fd. cbn [fa fd]. destruct (a_just a); reflexivity. }
  destruct (Nat.eqb_spec (f_size f1) 0) as [Z1|Z1].
  - assert (E1 : fd f1 = []) by (unfold f_size in Z1; destruct (fd f1); [auto|discriminate]).
    assert (SP : alphanum_to_alphanum (mkField space_attr [32]) f2 =
       (mkField space_attr [32], set_fd f2 (if a_just (fa f2) then right_justified (f_size f2) (fd f1)
                     else left_justified (f_size f2) (fd f1)))).
    { rewrite justified_eq. f_equal. f_equal. rewrite E1. cbn [fd].
      assert (LE : left_justified (f_size f2) [32] = left_justified (f_size f2) []).
      { unfold left_justified, padded. destruct (f_size f2) as [|n]; [congruence|].
        cbn [length app]. rewrite Nat.sub_0_r. cbn [repeat]. replace (S n - 1)%nat with n by lia. reflexivity. }
      unfold right_justified. cbn [rev app]. rewrite LE. reflexivity. }
    cbn [fa space_attr a_type move_elementary]. 
    destruct H as [[_ H]|[H|[_ H]]].
    + congruence.
    + rewrite H. rewrite SP. reflexivity.
    + rewrite H. rewrite SP. reflexivity.
  - assert (SP := justified_eq f1 f2).
    destruct H as [[H _]|[H|[H1 H2]]].
    + rewrite H, SP. reflexivity.
    + rewrite H. destruct (a_type (fa f1)); rewrite SP; reflexivity.
    + assert (ME : move_elementary m f1 f2 = Ok (alphanum_to_alphanum f1 f2) \/ a_type (fa f1) = TGroup).
      { unfold move_elementary. rewrite H2. destruct H1 as [H1|[H1|[H1|H1]]]; rewrite H1; auto. }
      revert ME. generalize (move_elementary m f1 f2). intros x ME. rewrite H2.
      destruct H1 as [H1|[H1|[H1|H1]]]; rewrite H1 in *.
      * destruct ME as [-> | ME]; [|discriminate]. rewrite SP. reflexivity.
      * destruct ME as [-> | ME]; [|discriminate]. rewrite SP. reflexivity.
      * destruct ME as [-> | ME]; [|discriminate]. rewrite SP. reflexivity.
      * rewrite SP. reflexivity.
Qed.
Print Assumptions C18_text_move.
Example C18_ex1 : forall m, cob_move m (mkField alnum [65;66;67]) (mkField alnum [0;0;0;0;0])
  = Ok (mkField alnum [65;66;67], mkField alnum [65;66;67;32;32]).
Proof. intros. rewrite C18_text_move; [reflexivity|exact I|exact I|]. right; right. split; [left|]; reflexivity. Qed.
Example C18_ex2 : forall m, cob_move m (mkField group [65;66;67]) (mkField alnum_just [0;0])
  = Ok (mkField group [65;66;67], mkField alnum_just [66;67]).
Proof. intros. rewrite C18_text_move; [reflexivity|exact I|exact I|]. left. split; [reflexivity|discriminate]. Qed.

(** C18: the justified text, spelled out position by position. *)
Theorem C18_positions : forall n s,
  length (left_justified n s) = n /\ length (right_justified n s) = n /\
  (forall i, (i < n)%nat -> nth i (left_justified n s) 0 = if (i <? length s)%nat then nth i s 0 else 32) /\
  (forall i, (i < n)%nat -> nth (n - 1 - i) (right_justified n s) 0 =
     if (i <? length s)%nat then nth (length s - 1 - i) s 0 else 32).
Proof.
  assert (L : forall n s, length (left_justified n s) = n).
  { intros. unfold left_justified, padded. rewrite firstn_length_le; auto. rewrite app_length, repeat_length. lia. }
  assert (P : forall n s i, (i < n)%nat -> nth i (left_justified n s) 0 = if (i <? length s)%nat then nth i s 0 else 32).
  { intros n s i H. unfold left_justified, padded. rewrite nth_firstn_Z by auto.
    destruct (Nat.ltb_spec i (length s)).
    - now apply app_nth1.
    - rewrite app_nth2 by auto. apply nth_repeat_Z. lia. }
  intros n s. split; [apply L|]. split; [unfold right_justified; rewrite rev_length; apply L|]. split; [apply P|].
  intros i H. unfold right_justified. rewrite rev_nth by (rewrite L; lia). rewrite L.
  replace (n - S (n - 1 - i))%nat with i by lia. rewrite P by auto. rewrite rev_length.
  destruct (Nat.ltb_spec i (length s)); auto. rewrite rev_nth by auto. f_equal. lia.
Qed.
Print Assumptions C18_positions.

(** C18: a numeric DISPLAY item is moved to an alphanumeric item as its digits
    (with the zeros of P positions), without sign and decimal point. *)
Theorem C18_number_to_text : forall m f1 f2 a neg ds,
  f1 = mkField a (zoned (c_ebcdic m) a neg ds) -> a_type a = TDisplay -> attr_ok a -> ds <> [] -> Forall is_dig ds ->
  (a_sign a = false -> neg = false) -> a_type (fa f2) = TAlnum -> f_size f2 <> 0%nat ->
  cob_move m f1 f2 =
  Ok (f1, set_fd f2 (left_justified (f_size f2) (map digit_char ds ++ repeat 48 (Z.to_nat (- a_scale a))))).
Proof.
  intros m f1 f2 a neg ds E T Ha Hne Hd Hu T2 S2.
  assert (FA : fa f1 = a) by (rewrite E; reflexivity).
  rewrite cob_move_elementary; auto.
  - unfold move_elementary, move_from_display. rewrite FA, T, T2.
    now rewrite (display_to_alphanum_spec m f1 f2 a neg ds).
  - unfold f_size. rewrite E. cbn [fd]. rewrite zoned_length by auto. destruct ds; [congruence|cbn [length]; lia].
  - rewrite FA, T. exact I.
  - rewrite T2. exact I.
Qed.
Print Assumptions C18_number_to_text.
Example C18_num_ex : forall m, cob_move m (mkField (disp 3 1 false false false) [49;50;51]) (mkField alnum [0;0;0;0;0])
  = Ok (mkField (disp 3 1 false false false) [49;50;51], mkField alnum [49;50;51;32;32]).
Proof.
  intros. rewrite (C18_number_to_text m _ _ (disp 3 1 false false false) false [1;2;3]); try reflexivity; try discriminate.
  repeat constructor; discriminate.
Qed.

(** Finding: JUSTIFIED RIGHT of the receiver is ignored when the sender is numeric. *)
Theorem C18_number_justified_refuted : exists f1 f2 f2',
  a_type (fa f1) = TDisplay /\ denotes false f1 12 /\ a_just (fa f2) = true /\
  cob_move default_cfg f1 f2 = Ok (f1, f2') /\ fd f2' = left_justified 4 [49;50] /\
  fd f2' <> right_justified 4 [49;50].
Proof.
  exists (mkField (disp 2 0 false false false) [49;50]), (mkField alnum_just [0;0;0;0]), (mkField alnum_just [49;50;32;32]).
  split; [reflexivity|]. split.
  { apply (den_display false (disp 2 0 false false false) false [1;2]); try reflexivity; try discriminate.
    repeat constructor; discriminate. }
  split; [reflexivity|]. split; [reflexivity|]. split; [reflexivity|discriminate].
Qed.
Print Assumptions C18_number_justified_refuted.

(** C19.  Text to a DISPLAY item. *)
Theorem C19_text_to_display : forall m f1 f2 k v F,
  point_cfg m -> text_type (a_type (fa f1)) -> fd f1 <> [] -> number_text m (fd f1) v F ->
  wf_display f2 k -> a_scale (fa f2) - Z.of_nat k <= F ->
  exists f2', cob_move m f1 f2 = Ok (f1, f2') /\ received m f2 f2' (rat v F).
Proof. exact text_to_display. Qed.
Print Assumptions C19_text_to_display.
(** " -12.5 " to S9(3)V99. *)
Example C19_ex_hyp : number_text default_cfg [32;45;49;50;46;53;32] (-125) 1.
Proof.
  apply (nt_frac default_cfg [32] [45] [49;50] [53;32] true); unfold white, digit_text.
  - repeat constructor.
  - auto.
  - repeat (apply Forall_cons; [left; cbv; split; discriminate|]). apply Forall_nil.
  - apply Forall_cons; [left; cbv; split; discriminate|]. apply Forall_cons; [right; left; left; reflexivity|]. apply Forall_nil.
Qed.
Example C19_ex : exists f2', cob_move default_cfg (mkField alnum [32;45;49;50;46;53;32]) (mkField (disp 5 2 true false false) [0;0;0;0;0])
  = Ok (mkField alnum [32;45;49;50;46;53;32], f2') /\ fd f2' = [48;49;50;53;112].
Proof. eexists. split; reflexivity. Qed.

(** C19.  Text to COMP-3 and binary items: numbers of at most 18 integer and
    18 decimal digits (the size of the run-time's temporary). *)
Theorem C19_text_to_numeric : forall m f1 f2 v F,
  point_cfg m -> text_type (a_type (fa f1)) -> fd f1 <> [] -> number_text m (fd f1) v F ->
  numeric_item f2 -> a_type (fa f2) <> TDisplay -> F <= 18 -> Z.abs v < 10 ^ (18 + F) ->
  (a_type (fa f2) = TBinary -> (c_bintrunc m && negb (a_realbin (fa f2)) = true -> a_digits (fa f2) <= 18) /\
     -18 <= a_scale (fa f2) /\
     forall w, trunc_at (rat v F) (a_scale (fa f2)) w -> Z.abs w < 2 ^ 63 /\ bin_range f2 (kept_digits m f2 w)) ->
  exists f2', cob_move m f1 f2 = Ok (f1, f2') /\ received m f2 f2' (rat v F).
Proof. exact text_to_numeric. Qed.
Print Assumptions C19_text_to_numeric.
Example C19_packed_ex : exists f2', cob_move default_cfg (mkField alnum [32;45;49;50;46;53;32]) (mkField (pack 5 2 true) [0;0;0])
  = Ok (mkField alnum [32;45;49;50;46;53;32], f2') /\ fd f2' = [1;37;13].
Proof. eexists. split; reflexivity. Qed.

(** C19.  A foreign character among those that supply the receiver's digits
    makes the result zero.  [d] digits precede it; of the [c] digits before the
    decimal point the last (k - scale) are taken, then [scale] decimals. *)
Theorem C19_garbage_is_zero : forall m f1 f2 k ws sg p x r,
  point_cfg m -> text_type (a_type (fa f1)) ->
  fd f1 = ws ++ sg ++ p ++ x :: r -> Forall white ws -> (sg = [] \/ sg = [43] \/ sg = [45]) ->
  (digit_text m p \/ exists ip fp, p = ip ++ c_decpoint m :: fp /\ digit_text m ip /\ digit_text m fp) ->
  foreign m sg p x ->
  wf_display f2 k -> a_scale (fa f2) <= Z.of_nat k ->
  let c := Z.of_nat (length (text_digits (before_point m (p ++ x :: r)))) in
  let d := Z.of_nat (length (text_digits p)) in
  c - (Z.of_nat k - a_scale (fa f2)) <= d < c + a_scale (fa f2) ->
  exists f2', cob_move m f1 f2 = Ok (f1, f2') /\ denotes (c_ebcdic m) f2' 0.
Proof.
  intros m f1 f2 k ws sg p x r HM T1 E H1 H2 H3 H4 W HS c d HD.
  destruct (alphanum_to_display_garbage m HM f1 f2 k ws sg p x r E H1 H2 H3 H4 W HS HD) as (f2' & A & B & _).
  exists f2'. split; auto. rewrite text_move_shape; auto.
  - pose proof W as (-> & _). exact A.
  - eapply ni_display; eauto.
  - rewrite E. intros Q. apply app_eq_nil in Q. destruct Q as (_ & Q). apply app_eq_nil in Q. destruct Q as (_ & Q).
    apply app_eq_nil in Q. destruct Q as (_ & Q). discriminate.
Qed.
Print Assumptions C19_garbage_is_zero.
(** "1X2" to 9(5). *)
Example C19_garbage_ex : forall m, point_cfg m -> exists f2',
  cob_move m (mkField alnum [49;88;50]) (mkField (disp 5 0 false false false) [49;49;49;49;49])
  = Ok (mkField alnum [49;88;50], f2') /\ denotes (c_ebcdic m) f2' 0.
Proof.
  intros m HM. apply (C19_garbage_is_zero m _ _ 5 [] [] [49] 88 [50]); auto.
  - left; reflexivity.
  - left. apply Forall_cons; [left; cbv; split; discriminate|apply Forall_nil].
  - assert (X1 : c_decpoint m <> 88 /\ c_numsep m <> 88) by (destruct HM as [[-> ->]|[-> ->]]; split; discriminate).
    split; [|split; [intros Q; symmetry in Q; tauto|intros [Q|Q]; discriminate]].
    unfold is_digit, white. intros [Q|[Q|Q]]; [lia|lia|symmetry in Q; tauto].
  - repeat split; auto. discriminate.
  - discriminate.
  - assert (Q : text_digits (before_point m [49; 88; 50]) = [1; 2]).
    { destruct HM as [[E _]|[E _]]; cbn [before_point]; rewrite E; reflexivity. }
    cbn [app]. rewrite Q. cbn [fa disp a_scale]. change (text_digits [49]) with [1]. cbn [length]. lia.
Qed.

(** Finding: a foreign character after the last integer digit is not noticed:
    "12X" moved to 9(5) stores 12. *)
Theorem C19_trailing_garbage_refuted : exists f2',
  cob_move default_cfg (mkField alnum [49;50;88]) (mkField (disp 5 0 false false false) [0;0;0;0;0])
  = Ok (mkField alnum [49;50;88], f2') /\ denotes false f2' 12.
Proof.
  exists (mkField (disp 5 0 false false false) [48;48;48;49;50]). split; [reflexivity|].
  apply (den_display false (disp 5 0 false false false) false [0;0;0;1;2]); try reflexivity; try discriminate.
  repeat constructor; discriminate.
Qed.
Print Assumptions C19_trailing_garbage_refuted.

(** Finding: receivers with more decimals than digits (VP(3)9) read past the text. *)
Theorem C19_small_receiver_refuted :
  number_text default_cfg [49] 1 0 /\
  wf_display (mkField (disp 1 4 false false false) [48]) 1 /\
  cob_move default_cfg (mkField alnum [49]) (mkField (disp 1 4 false false false) [48]) = UB.
Proof.
  split; [|split; [repeat split; auto; discriminate|reflexivity]].
  apply (nt_int default_cfg [] [] [49] false); auto.
  apply Forall_cons; [left; cbv; split; discriminate|apply Forall_nil].
Qed.
Print Assumptions C19_small_receiver_refuted.

(** C51.  MOVE ALL literal / figurative constants: byte i of the receiver is
    character (i mod length) of the literal.  (For single-byte characters: the
    run-time replaces a cut double-byte character at the end by a space.) *)
Theorem C51_move_all : forall m f1 f2, a_type (fa f1) = TAlnumAll -> fd f1 <> [] -> no_lead (fd f1) ->
  (a_type (fa f2) = TAlnum \/ a_type (fa f2) = TGroup) -> f_size f2 <> 0%nat ->
  exists f2', cob_move m f1 f2 = Ok (f1, f2') /\ fa f2' = fa f2 /\ f_size f2' = f_size f2 /\
    forall i, (i < f_size f2)%nat -> nth i (fd f2') 0 = nth (i mod length (fd f1)) (fd f1) 0.
Proof.
  intros m f1 f2 T1 NE NL T2 S2. exists (set_fd f2 (fill_all (fd f1) (f_size f2))).
  split; [now apply move_all_text|]. split; [reflexivity|].
  split; [unfold f_size at 1; cbn [set_fd fd]; apply fill_all_length|].
  intros i Hi. cbn [set_fd fd]. now apply fill_all_nth.
Qed.
Print Assumptions C51_move_all.
Example C51_ex : forall m, exists f2', cob_move m (mkField all_lit [65;66]) (mkField alnum [0;0;0;0;0])
  = Ok (mkField all_lit [65;66], f2') /\ fd f2' = [65;66;65;66;65].
Proof.
  intros. eexists. split; [apply move_all_text; try reflexivity; try discriminate|reflexivity].
  - repeat constructor.
  - left; reflexivity.
Qed.

(** C51.  ALL of a numeric literal (ZERO: the digit 0) to a numeric item: the
    number written by 18 digits of the repeated literal. *)
Theorem C51_move_all_numeric : forall m f1 f2 ds, a_type (fa f1) = TAlnumAll -> fd f1 = map digit_char ds ->
  ds <> [] -> Forall is_dig ds -> numeric_item f2 ->
  (a_type (fa f2) = TBinary -> -18 <= a_scale (fa f2) /\
    (c_bintrunc m && negb (a_realbin (fa f2)) = true -> a_digits (fa f2) <= 18) /\
    forall w, trunc_at (rat (digits_value (fill_all ds 18)) 0) (a_scale (fa f2)) w ->
      Z.abs w < 2 ^ 63 /\ bin_range f2 (kept_digits m f2 w)) ->
  exists f2', cob_move m f1 f2 = Ok (f1, f2') /\ received m f2 f2' (rat (digits_value (fill_all ds 18)) 0).
Proof. exact move_all_numeric. Qed.
Print Assumptions C51_move_all_numeric.
Theorem C51_move_zero : forall m f1 f2, a_type (fa f1) = TAlnumAll -> fd f1 = [48] -> numeric_item f2 ->
  (a_type (fa f2) = TBinary -> -18 <= a_scale (fa f2) /\
    (c_bintrunc m && negb (a_realbin (fa f2)) = true -> a_digits (fa f2) <= 18)) ->
  exists f2', cob_move m f1 f2 = Ok (f1, f2') /\ denotes (c_ebcdic m) f2' 0.
Proof.
  intros m f1 f2 T1 E N HB.
  assert (V : digits_value (fill_all [0] 18) = 0) by reflexivity.
  assert (Z0 : forall w, trunc_at (rat 0 0) (a_scale (fa f2)) w -> w = 0).
  { intros w H. rewrite (aligns_unique _ _ _ _ H). reflexivity. }
  assert (K0 : kept_digits m f2 0 = 0).
  { unfold kept_digits. destruct (a_type (fa f2)); try reflexivity. destruct (_ && _); reflexivity. }
  destruct (C51_move_all_numeric m f1 f2 [0] T1 E) as (f2' & A & B); try discriminate; auto.
  - repeat constructor; discriminate.
  - rewrite V. intros T2. destruct (HB T2) as (B1 & B2). split; auto. split; auto.
    intros w H. rewrite (Z0 w H), K0. split; [reflexivity|].
    unfold bin_range, bits. destruct N as [f2 k W|f2 D W|f2 W].
    + destruct W as (W & _). congruence.
    + destruct W as (W & _). congruence.
    + destruct W as (_ & W & _).
      assert (P1 : 0 < 2 ^ (8 * Z.of_nat (f_size f2) - 1)) by (apply Z.pow_pos_nonneg; lia).
      assert (P2 : 0 < 2 ^ (8 * Z.of_nat (f_size f2))) by (apply Z.pow_pos_nonneg; lia).
      destruct (a_sign (fa f2)); cbn [Z.abs]; lia.
  - exists f2'. split; auto. destruct B as (_ & _ & B).
    specialize (B 0). rewrite V, K0 in B. unfold held in B. cbn [Z.abs] in B.
    replace (if a_sign (fa f2) then 0 else 0) with 0 in B by (destruct (a_sign (fa f2)); reflexivity).
    apply B. pose proof (aligns_trunc 0 0 (a_scale (fa f2))) as Q. exact Q.
Qed.
Print Assumptions C51_move_zero.
Example C51_num_ex : exists f2', cob_move default_cfg (mkField all_lit [49;50]) (mkField (pack 3 0 true) [0;0])
  = Ok (mkField all_lit [49;50], f2') /\ fd f2' = [33;44].
Proof. eexists. split; reflexivity. Qed.

(** C52.  Reading a numeric item as a machine integer. *)
Theorem C52_get_int : forall m f v w, denotes (c_ebcdic m) f v ->
  (a_type (fa f) = TDisplay -> -10 < a_scale (fa f) <= Z.of_nat (data_size f)) ->
  (a_type (fa f) = TPacked -> 0 <= a_scale (fa f) <= a_digits (fa f)) ->
  (a_type (fa f) = TBinary -> a_scale (fa f) = 0) ->
  trunc_at (rat v (a_scale (fa f))) 0 w -> Z.abs w <= INT_MAX ->
  get_int m f = Ok (w, f).
Proof. exact get_int_spec. Qed.
Print Assumptions C52_get_int.
Theorem C52_get_long_long : forall m f v w, denotes (c_ebcdic m) f v ->
  (a_type (fa f) = TDisplay -> -19 < a_scale (fa f) <= Z.of_nat (data_size f)) ->
  (a_type (fa f) = TPacked -> 0 <= a_scale (fa f) <= a_digits (fa f)) ->
  (a_type (fa f) = TBinary -> a_scale (fa f) = 0) ->
  trunc_at (rat v (a_scale (fa f))) 0 w -> Z.abs w <= LL_MAX ->
  get_long_long m f = Ok (w, f).
Proof. exact get_long_long_spec. Qed.
Print Assumptions C52_get_long_long.
Theorem C52_set_int : forall m f n, is_int n -> numeric_item f ->
  (a_type (fa f) = TBinary -> (c_bintrunc m && negb (a_realbin (fa f)) = true -> a_digits (fa f) <= 18) /\
     -20 <= a_scale (fa f) /\
     forall w, trunc_at (rat n 0) (a_scale (fa f)) w -> Z.abs w < 2 ^ 63 /\ bin_range f (kept_digits m f w)) ->
  exists f', set_int m f n = Ok f' /\ received m f f' (rat n 0).
Proof. exact set_int_spec. Qed.
Print Assumptions C52_set_int.

(** C52.  Setting an integer item and reading it back. *)
Theorem C52_set_get : forall m f n, - INT_MAX <= n <= INT_MAX -> numeric_item f -> a_scale (fa f) = 0 ->
  held f (kept_digits m f n) = n ->
  (a_type (fa f) = TBinary -> (c_bintrunc m && negb (a_realbin (fa f)) = true -> a_digits (fa f) <= 18) /\ bin_range f n) ->
  exists f', set_int m f n = Ok f' /\ get_int m f' = Ok (n, f').
Proof.
  intros m f n HN NI SC HF HB.
  assert (I : is_int n) by (unfold is_int, INT_MIN, INT_MAX in *; lia).
  destruct (C52_set_int m f n I NI) as (f' & E & RA & RS & R).
  { intros T. destruct (HB T) as (B1 & B2). split; auto. rewrite SC. split; [lia|].
    intros w Hw. apply trunc_zero in Hw. subst w. split.
    - unfold INT_MAX in HN. assert (2147483648 < 2 ^ 63) by reflexivity. lia.
    - unfold held in HF. destruct (a_sign (fa f)) eqn:SG.
      + now rewrite HF.
      + unfold bin_range in *. rewrite SG in *. rewrite HF. lia. }
  exists f'. split; auto.
  assert (D : denotes (c_ebcdic m) f' n).
  { rewrite <- HF. apply R. rewrite SC. apply trunc_at_exact. reflexivity. }
  apply (C52_get_int m f' n n D).
  - rewrite RA, SC. intros _. pose proof (Nat2Z.is_nonneg (data_size f')). lia.
  - rewrite RA, SC. intros T. split; [lia|].
    inversion NI as [? k W|? k W|? W]; subst; destruct W as (W1 & W2 & _); try congruence. lia.
  - rewrite RA. auto.
  - rewrite RA, SC. apply trunc_at_exact. reflexivity.
  - lia.
Qed.
Print Assumptions C52_set_get.
Example C52_ex : exists f', set_int default_cfg (mkField (pack 5 0 true) [0;0;0]) (-123) = Ok f' /\
  fd f' = [0;18;61] /\ get_int default_cfg f' = Ok (-123, f').
Proof. exists (mkField (pack 5 0 true) [0;18;61]). split; [vm_compute; reflexivity|]. split; [reflexivity|vm_compute; reflexivity]. Qed.

(** Finding: the decimal point of a binary item is ignored: 1.23 is read as 123. *)
Theorem C52_scaled_binary_refuted :
  denotes false (mkField (bina 4 2 true true) [0;123]) 123 /\ trunc_at (rat 123 2) 0 1 /\
  get_int default_cfg (mkField (bina 4 2 true true) [0;123]) = Ok (123, mkField (bina 4 2 true true) [0;123]).
Proof.
  split; [|split; [|reflexivity]].
  - apply (den_binary false (bina 4 2 true true) [0;123]); [reflexivity|cbn [length]; lia|].
    repeat constructor; discriminate.
  - pose proof (aligns_trunc 123 2 0) as H. exact H.
Qed.
Print Assumptions C52_scaled_binary_refuted.
