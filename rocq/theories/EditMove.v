(** MOVE to numeric-edited items (proof file). *)
From Coq Require Import QArith Qabs.
From Verif Require Import Base BaseFacts Field Sign Decimal SpecNum Numeric SpecStore NumFacts SpecMove.
From Verif Require Import DispProofs DecProofs BinProofs PackedProofs StoreProofs MoveProofs Move Edited MoveAll.
From Verif Require Import MovePacked MoveBin MoveNum MoveText MoveMore SpecEdit EditProofs EditFinish.
Local Open Scope Z_scope.

(** ** Counting the places in front of the point *)

Fixpoint count_chars (m : cfg) (l : list Z) (count : Z) (csign ccurr : bool) : Z * bool :=
  match l with
  | [] => (count, false)
  | c :: r =>
    if (c =? 57) || (c =? 90) || (c =? 42) then count_chars m r (count + 1) false false
    else if ccurr && (c =? c_currency m) then count_chars m r (count + 1) csign ccurr
    else if csign && ((c =? 43) || (c =? 45)) then count_chars m r (count + 1) csign ccurr
    else if c =? 80 then
      if count =? 0 then (count, true) else count_chars m r (count + 1) false false
    else if (c =? 86) || (c =? c_decpoint m) then (count, false)
    else count_chars m r count csign ccurr
  end.

Lemma count_run : forall m c n r count csign ccurr, 0 <= count ->
  count_chars m (repeat c (S n) ++ r) count csign ccurr =
  (if (c =? 57) || (c =? 90) || (c =? 42) then count_chars m r (count + Z.of_nat (S n)) false false
    else if ccurr && (c =? c_currency m) then count_chars m r (count + Z.of_nat (S n)) csign ccurr
    else if csign && ((c =? 43) || (c =? 45)) then count_chars m r (count + Z.of_nat (S n)) csign ccurr
    else if c =? 80 then
      if count =? 0 then (count, true) else count_chars m r (count + Z.of_nat (S n)) false false
    else if (c =? 86) || (c =? c_decpoint m) then (count, false)
    else count_chars m r count csign ccurr).
Proof.
  intros m c n r. induction n; intros count csign ccurr H.
  - cbn [repeat app count_chars]. reflexivity.
  - change (repeat c (S (S n)) ++ r) with (c :: repeat c (S n) ++ r). cbn [count_chars].
    assert (CE : forall k, k + 1 + Z.of_nat (S n) = k + Z.of_nat (S (S n))) by (intros; lia).
    destruct ((c =? 57) || (c =? 90) || (c =? 42)) eqn:E1.
    { rewrite IHn by lia. now rewrite ?E1, CE. }
    destruct (ccurr && (c =? c_currency m)) eqn:E2.
    { rewrite IHn by lia. now rewrite ?E1, ?E2, CE. }
    destruct (csign && ((c =? 43) || (c =? 45))) eqn:E3.
    { rewrite IHn by lia. now rewrite ?E1, ?E2, ?E3, CE. }
    destruct (c =? 80) eqn:E4.
    { destruct (Z.eqb_spec count 0) as [E0|E0]; auto.
      rewrite IHn by lia. rewrite ?E1, ?E4. cbn [andb]. rewrite (proj2 (Z.eqb_neq (count + 1) 0)) by lia. now rewrite CE. }
    destruct ((c =? 86) || (c =? c_decpoint m)) eqn:E5; auto.
    rewrite IHn by lia. now rewrite ?E1, ?E2, ?E3, ?E4, ?E5.
Qed.

Lemma count_places_chars : forall m pic count csign ccurr, 0 <= count ->
  Forall (fun cn => 1 <= snd cn) pic ->
  count_places m pic count csign ccurr = count_chars m (expand_pic pic) count csign ccurr.
Proof.
  intros m. induction pic as [|[c rep] r IH]; intros count csign ccurr H F; [reflexivity|].
  apply Forall_cons_iff in F as [F1 F2]. cbn [snd] in F1.
  unfold expand_pic. cbn [flat_map fst snd]. fold (expand_pic r).
  destruct (Z.to_nat rep) as [|n] eqn:EN; [lia|]. rewrite count_run by auto.
  assert (RN : Z.of_nat (S n) = rep) by lia. rewrite RN. cbn [count_places].
  rewrite !IH by (auto; lia). reflexivity.
Qed.

Lemma decimals_app : forall a b, has is_point a = false -> decimals (a ++ b) = decimals b.
Proof.
  induction a as [|x a IH]; intros b H; auto. unfold has in H. cbn [existsb] in H.
  apply orb_false_iff in H as [H1 H2]. cbn [app decimals]. rewrite H1. now apply IH.
Qed.

Lemma count_body : forall m p, edit_cfg m -> editable p -> forall b a,
  p_body p = a ++ b -> has is_point a = false ->
  count_chars m (map (sym_code m p) b ++ trail_code (p_trail p)) (places a) (negb (sigs a)) (negb (sigs a))
  = (places (p_body p) - decimals (p_body p), false).
Proof.
  intros m p CF ED. induction b as [|s b IH]; intros a E NP.
  - rewrite app_nil_r in E. rewrite E. replace (decimals a) with 0.
    2:{ rewrite <- (app_nil_r a), decimals_app by auto. reflexivity. }
    rewrite Z.sub_0_r. cbn [map app].
    assert (CD : forall x, x = 43 \/ x = 45 \/ x = 67 \/ x = 68 -> (x =? c_currency m) = false /\ (x =? c_decpoint m) = false).
    { intros x HX. split.
      - rewrite Z.eqb_sym. apply cur_ne; auto. cbn [In]. destruct HX as [-> | [-> | [-> | ->]]]; tauto.
      - apply Z.eqb_neq. destruct CF as [[-> | ->] _]; destruct HX as [-> | [-> | [-> | ->]]]; discriminate. }
    destruct (p_trail p) eqn:TR; cbn [trail_code count_chars]; auto.
    + destruct (CD 43 ltac:(auto)) as (-> & ->). destruct (ed_trail p ED (or_introl TR)) as (SG & _).
      rewrite E in SG. unfold sigs. rewrite SG. reflexivity.
    + destruct (CD 45 ltac:(auto)) as (-> & ->). destruct (ed_trail p ED (or_intror TR)) as (SG & _).
      rewrite E in SG. unfold sigs. rewrite SG. reflexivity.
    + destruct (CD 67 ltac:(auto)) as (-> & ->). rewrite andb_false_r. destruct (sigs a); reflexivity.
    + destruct (CD 68 ltac:(auto)) as (-> & ->). rewrite andb_false_r. destruct (sigs a); reflexivity.
  - assert (E2 : p_body p = (a ++ [s]) ++ b) by (rewrite <- app_assoc; exact E).
    assert (NX : is_point s = false -> has is_point (a ++ [s]) = false) by (intros; now rewrite keep_has).
    cbn [map app count_chars].
    destruct s; cbn [sym_code].
    + cbn [Z.eqb Pos.eqb orb]. rewrite <- (IH (a ++ [Digit])) by auto. f_equal.
      * rewrite places_snoc. reflexivity.
      * unfold sigs. rewrite has_app, has_one. cbn [is_nine]. now rewrite orb_true_r.
      * unfold sigs. rewrite has_app, has_one. cbn [is_nine]. now rewrite orb_true_r.
    + replace (((if p_star p then 42 else 90) =? 57) || ((if p_star p then 42 else 90) =? 90) || ((if p_star p then 42 else 90) =? 42))
        with true by (destruct (p_star p); reflexivity).
      rewrite <- (IH (a ++ [Supp])) by auto. f_equal.
      * rewrite places_snoc. reflexivity.
      * unfold sigs. rewrite !has_app, !has_one. cbn [is_nine is_supp]. now rewrite !orb_true_r.
      * unfold sigs. rewrite !has_app, !has_one. cbn [is_nine is_supp]. now rewrite !orb_true_r.
    + pose proof (float_before p ED a b E) as SG.
      assert (IH2 : count_chars m (map (sym_code m p) b ++ trail_code (p_trail p)) (places a + 1) true true =
                    (places (p_body p) - decimals (p_body p), false)).
      { rewrite <- (IH (a ++ [Float])) by auto. rewrite places_snoc. cbn [place].
        assert (SG2 : sigs (a ++ [Float]) = false) by (unfold sigs in *; now rewrite !keep_has).
        now rewrite SG2. }
      rewrite SG. cbn [negb andb]. destruct (p_lead p); cbn [lead_code].
      * rewrite (Z.eqb_sym 43 (c_currency m)), (cur_ne m CF 43) by (cbn [In]; tauto). exact IH2.
      * rewrite (Z.eqb_sym 45 (c_currency m)), (cur_ne m CF 45) by (cbn [In]; tauto). exact IH2.
      * rewrite (cur_ne m CF 57), (cur_ne m CF 90), (cur_ne m CF 42) by (cbn [In]; tauto). cbn [orb].
        rewrite Z.eqb_refl. exact IH2.
    + assert (SP : separator m = 44 \/ separator m = 46) by (destruct (dp_cases m CF) as [[_ ->]|[_ ->]]; auto).
      assert (C1 : (separator m =? 57) || (separator m =? 90) || (separator m =? 42) = false) by (destruct SP as [-> | ->]; reflexivity).
      assert (C2 : (separator m =? c_currency m) = false).
      { rewrite Z.eqb_sym. apply cur_ne; auto. destruct SP as [-> | ->]; cbn [In]; tauto. }
      assert (C3 : (separator m =? 43) || (separator m =? 45) = false) by (destruct SP as [-> | ->]; reflexivity).
      assert (C4 : (separator m =? 80) = false) by (destruct SP as [-> | ->]; reflexivity).
      assert (C5 : (separator m =? 86) || (separator m =? c_decpoint m) = false).
      { destruct (dp_cases m CF) as [[-> ->]|[-> ->]]; reflexivity. }
      rewrite C1, C2, C3, C4, C5, !andb_false_r. rewrite <- (IH (a ++ [Comma])) by auto.
      rewrite places_snoc, Z.add_0_r. unfold sigs. now rewrite !keep_has.
    + change ((66 =? 57) || (66 =? 90) || (66 =? 42)) with false.
      rewrite (Z.eqb_sym 66 (c_currency m)), (cur_ne m CF 66) by (cbn [In]; tauto).
      change ((66 =? 43) || (66 =? 45)) with false. change (66 =? 80) with false.
      replace ((66 =? 86) || (66 =? c_decpoint m)) with false by (destruct (dp_cases m CF) as [[-> _]|[-> _]]; reflexivity).
      rewrite !andb_false_r. rewrite <- (IH (a ++ [Blank])) by auto.
      rewrite places_snoc, Z.add_0_r. unfold sigs. now rewrite !keep_has.
    + assert (IC : c = 48 \/ c = 47).
      { apply (ed_insert p ED). rewrite E. apply in_or_app. right. left. reflexivity. }
      assert (C1 : (c =? 57) || (c =? 90) || (c =? 42) = false) by (destruct IC as [-> | ->]; reflexivity).
      assert (C2 : (c =? c_currency m) = false).
      { rewrite Z.eqb_sym. apply cur_ne; auto. destruct IC as [-> | ->]; cbn [In]; tauto. }
      assert (C3 : (c =? 43) || (c =? 45) = false) by (destruct IC as [-> | ->]; reflexivity).
      assert (C4 : (c =? 80) = false) by (destruct IC as [-> | ->]; reflexivity).
      assert (C5 : (c =? 86) || (c =? c_decpoint m) = false).
      { destruct (dp_cases m CF) as [[-> _]|[-> _]]; destruct IC as [-> | ->]; reflexivity. }
      rewrite C1, C2, C3, C4, C5, !andb_false_r. rewrite <- (IH (a ++ [Insert c])) by auto.
      rewrite places_snoc, Z.add_0_r. unfold sigs. now rewrite !keep_has.
    + assert (SP : c_decpoint m = 44 \/ c_decpoint m = 46) by (destruct (dp_cases m CF) as [[-> _]|[-> _]]; auto).
      assert (C1 : (c_decpoint m =? 57) || (c_decpoint m =? 90) || (c_decpoint m =? 42) = false) by (destruct SP as [-> | ->]; reflexivity).
      assert (C2 : (c_decpoint m =? c_currency m) = false).
      { rewrite Z.eqb_sym. apply cur_ne; auto. destruct SP as [-> | ->]; cbn [In]; tauto. }
      assert (C3 : (c_decpoint m =? 43) || (c_decpoint m =? 45) = false) by (destruct SP as [-> | ->]; reflexivity).
      assert (C4 : (c_decpoint m =? 80) = false) by (destruct SP as [-> | ->]; reflexivity).
      rewrite C1, C2, C3, C4, Z.eqb_refl, !andb_false_r, orb_true_r.
      rewrite E, decimals_app by auto. cbn [decimals is_point]. rewrite places_app, places_cons. cbn [place]. f_equal. lia.
    + change ((86 =? 57) || (86 =? 90) || (86 =? 42)) with false.
      rewrite (Z.eqb_sym 86 (c_currency m)), (cur_ne m CF 86) by (cbn [In]; tauto).
      change ((86 =? 43) || (86 =? 45)) with false. change (86 =? 80) with false. change (86 =? 86) with true.
      rewrite !andb_false_r. cbn [orb].
      rewrite E, decimals_app by auto. cbn [decimals is_point]. rewrite places_app, places_cons. cbn [place]. f_equal. lia.
Qed.

(** ** The sender's digits *)

Lemma dig_range : forall v e, 0 <= dig v e <= 9.
Proof. intros. unfold dig. destruct (e <? 0); [lia|]. pose proof (Z.mod_pos_bound (v / 10 ^ e) 10 ltac:(lia)). lia. Qed.

Lemma fetch_dig : forall ds i, Forall is_dig ds ->
  fetch_src (map digit_char ds) i = 48 + dig (digits_value ds) (Z.of_nat (length ds) - 1 - i).
Proof.
  intros ds i H. unfold fetch_src. rewrite map_length.
  destruct (Z.leb_spec 0 i); cbn [andb].
  - destruct (Z.ltb_spec i (Z.of_nat (length ds))).
    + rewrite (nth_indep _ 0 (digit_char 0)) by (rewrite map_length; lia).
      rewrite map_nth. rewrite nth_digits by (auto; lia). rewrite Z2Nat.id by lia. reflexivity.
    + unfold dig. rewrite (proj2 (Z.ltb_lt (Z.of_nat (length ds) - 1 - i) 0)) by lia. reflexivity.
  - rewrite (dig_high _ _ (Z.of_nat (length ds))); [reflexivity| |lia]. now apply digits_value_bound.
Qed.

Lemma dig_mod : forall W T e, 0 <= W -> 0 <= e < T -> dig W e = (W mod 10 ^ T / 10 ^ e) mod 10.
Proof.
  intros W T e HW He. unfold dig. rewrite (proj2 (Z.ltb_ge e 0)) by lia.
  assert (P : 0 < 10 ^ e) by (apply Z.pow_pos_nonneg; lia).
  replace T with (e + (1 + (T - e - 1))) by lia. rewrite Z.pow_add_r by lia.
  rewrite Z.rem_mul_r by (try lia; apply Z.pow_nonzero; lia).
  replace (W mod 10 ^ e + 10 ^ e * ((W / 10 ^ e) mod 10 ^ (1 + (T - e - 1))))
    with (((W / 10 ^ e) mod 10 ^ (1 + (T - e - 1))) * 10 ^ e + W mod 10 ^ e) by ring.
  rewrite Z.div_add_l by lia. rewrite (Z.div_small (W mod 10 ^ e)) by (apply Z.mod_pos_bound; lia).
  rewrite Z.add_0_r. rewrite Z.pow_add_r by lia. change (10 ^ 1) with 10.
  rewrite Z.rem_mul_r by (try lia; apply Z.pow_nonzero; lia).
  rewrite (Z.mul_comm 10), Z.mod_add by lia. rewrite Z.mod_mod by lia. reflexivity.
Qed.

Lemma decimals_bound : forall l, 0 <= decimals l <= places l.
Proof.
  induction l as [|s l IH]; [cbn; lia|]. cbn [decimals]. rewrite places_cons.
  destruct (is_point s), (place s); pose proof (places_nonneg l); lia.
Qed.

Lemma sign_of_rat : forall v s neg, (v < 0 -> neg = true) -> (0 < v -> neg = false) -> sign_of (rat v s) neg.
Proof.
  intros v s neg H1 H2. unfold sign_of. split; intros H.
  - apply H1. apply (rat_lt v 0 s). now rewrite rat_zero.
  - apply H2. apply (rat_lt 0 v s). now rewrite rat_zero.
Qed.

Theorem display_to_edited_spec : forall m f1 f2 p v N,
  edit_cfg m -> editable p -> denotes (c_ebcdic m) f1 v -> a_type (fa f1) = TDisplay ->
  edited_item m p f2 -> editable_number p (rat v (a_scale (fa f1))) (a_bzero (fa f2)) N ->
  exists neg, sign_of (rat v (a_scale (fa f1))) neg /\
    display_to_edited m f1 f2 = Ok (f1, set_fd f2 (edited_text m p N neg (a_bzero (fa f2)))).
Proof.
  intros m f1 f2 p v N CF ED D1 T1 (T2 & SZ & _ & PE & PR) ((w & TW & EN) & FIT & TS).
  destruct (denotes_display_cases _ _ _ T1 D1) as (neg & ds & E1 & Hne & Hd & Hu & Ha & Hv).
  destruct (get_sign_digits m (fa f1) neg ds T1 Hne Hd Ha Hu) as (s & g & G & SG & AG & DG & _ & PB).
  rewrite <- E1 in G, PB.
  set (s1 := a_scale (fa f1)) in *. set (T := places (p_body p)) in *. set (F := decimals (p_body p)) in *.
  destruct (signed_neg_le neg ds Hd) as (S1 & S2 & S3). rewrite <- Hv in S1, S2, S3.
  exists neg. split.
  { apply sign_of_rat; intros HV; destruct neg; auto; [specialize (S2 eq_refl)|specialize (S1 eq_refl)]; lia. }
  assert (WA : Z.abs w = alignz (digits_value ds) s1 F).
  { rewrite (aligns_unique _ _ _ _ TW), aligns_abs, S3. reflexivity. }
  pose proof (digits_value_bound ds Hd) as DB.
  pose proof (decimals_bound (p_body p)) as FB. fold F T in FB.
  assert (HT : 0 < 10 ^ T) by (apply Z.pow_pos_nonneg; lia).
  assert (HN : 0 <= N < 10 ^ T) by (rewrite EN; apply Z.mod_pos_bound; lia).
  unfold display_to_edited. rewrite G, SG.
  rewrite count_places_chars by (auto; lia). change (expand_pic (a_pic (fa f2))) with
    (flat_map (fun cn => repeat (fst cn) (Z.to_nat (snd cn))) (a_pic (fa f2))). rewrite PE. unfold pic_string.
  pose proof (count_body m p CF ED (p_body p) [] eq_refl eq_refl) as CB.
  change (places []) with 0 in CB. change (negb (sigs [])) with true in CB. rewrite CB. fold T F.
  cbv zeta. rewrite DG. fold s1. rewrite map_length.
  set (base := Z.of_nat (length ds) - s1 - (T - F)).
  assert (SRC : forall k, 0 <= k < T ->
    fetch_src (map digit_char ds) (base + k) = 48 + (N / 10 ^ (T - 1 - k)) mod 10).
  { intros k HK. rewrite fetch_dig by auto.
    replace (Z.of_nat (length ds) - 1 - (base + k)) with ((T - 1 - k) - (F - s1)) by (unfold base; lia).
    rewrite <- dig_align by lia. rewrite <- WA, EN. f_equal. apply dig_mod; lia. }
  set (old := fd f2) in *.
  assert (OL : length old = pic_size p) by exact SZ.
  set (s0 := mkEst 0 old base true true false false 32 None (Z.of_nat (f_size f2)) false 0 0).
  assert (ST0 : St m p N neg old base [] (p_body p) s0).
  { constructor; unfold s0; cbn [e_dst e_data e_src e_zero e_supp e_tsign e_tcurr e_pad e_dp e_end e_ssym e_csym]; try reflexivity.
    - change (places []) with 0. lia.
    - symmetry. apply Z.ltb_lt. fold T. lia.
    - symmetry. unfold lz. change (has is_nine []) with false. cbn [negb andb]. apply Z.ltb_lt. fold T. lia. }
  destruct (loop_spec m p N neg (map digit_char ds) old base CF ED HN FIT SRC OL (p_body p) [] s0
              (trail_code (p_trail p)) eq_refl ST0) as (st & L1 & L2).
  rewrite L1.
  destruct (trail_spec m p N neg (a_bzero (fa f2)) (map digit_char ds) old base ED HN OL st L2) as (st' & L3 & L4).
  { intros HT1 HB. destruct (TS HT1) as [(w' & TW' & RW)|SC]; [|congruence].
    rewrite fetch_dig by auto. fold T F in TW' |- *.
    replace (Z.of_nat (length ds) - 1 - (base + T)) with (0 - (F + 1 - s1)) by (unfold base; lia).
    rewrite <- dig_align by lia.
    assert (WA' : Z.abs w' = alignz (digits_value ds) s1 (F + 1)).
    { rewrite (aligns_unique _ _ _ _ TW'), aligns_abs, S3. reflexivity. }
    rewrite <- WA'. unfold dig. change (0 <? 0) with false. change (10 ^ 0) with 1. rewrite Z.div_1_r.
    assert (MW : Z.abs w' mod 10 = 0).
    { rewrite <- Z.rem_mod_nonneg by lia. rewrite Z.rem_abs_l by lia. rewrite RW. reflexivity. }
    now rewrite MW. }
  rewrite L3. cbn [obind]. unfold edited_text.
  destruct (blanked p N (a_bzero (fa f2))) eqn:BL.
  - rewrite (fin_blank m p N neg (a_bzero (fa f2)) old CF ED OL st' L4 BL). cbn [obind]. now rewrite PB.
  - rewrite (fin_text m p N neg (a_bzero (fa f2)) old base CF ED HN FIT OL st' L4 BL). cbn [obind]. now rewrite PB.
Qed.

(** ** Senders of every usage *)

Lemma trunc_at_comp : forall q q' s w, (q == q')%Q -> trunc_at q s w -> trunc_at q' s w.
Proof. intros q q' s w E (A & B & C). unfold trunc_at. rewrite <- E. auto. Qed.
Lemma editable_comp : forall p q q' bz N, (q == q')%Q -> editable_number p q bz N -> editable_number p q' bz N.
Proof.
  intros p q q' bz N E ((w & A & B) & C & D). split; [|split; auto].
  - exists w. split; auto. eapply trunc_at_comp; eauto.
  - intros H. destruct (D H) as [(x & X1 & X2)|X]; auto. left. exists x. split; auto. eapply trunc_at_comp; eauto.
Qed.
Lemma sign_comp : forall q q' neg, (q == q')%Q -> sign_of q neg -> sign_of q' neg.
Proof. intros q q' neg E (A & B). split; rewrite <- E; auto. Qed.

Lemma indirect_edited : forall m func f1 f2 p v q N size scale,
  edit_cfg m -> editable p -> edited_item m p f2 -> 1 <= size <= 64 -> Z.abs v < 10 ^ size ->
  (exists t', func f1 (temp_field size scale) = Ok (f1, t') /\
     denotes (c_ebcdic m) t' (low_part (Z.to_nat size) v) /\ fa t' = fa (temp_field size scale)) ->
  (rat v scale == q)%Q -> editable_number p q (a_bzero (fa f2)) N ->
  exists neg, sign_of q neg /\
    indirect_move m func f1 f2 size scale = Ok (f1, set_fd f2 (edited_text m p N neg (a_bzero (fa f2)))).
Proof.
  intros m func f1 f2 p v q N size scale CF ED IT HS HV (t' & E & D & A) QE EN.
  unfold indirect_move. destruct (Z.ltb_spec 64 size); [lia|]. destruct (Z.leb_spec size 0); [lia|].
  rewrite E. cbn [obind snd fst]. rewrite low_part_fits in D by (rewrite Z2Nat.id by lia; auto).
  assert (T' : a_type (fa t') = TDisplay) by (rewrite A; reflexivity).
  assert (S' : a_scale (fa t') = scale) by (rewrite A; reflexivity).
  pose proof IT as (T2 & _). unfold move_from_display. rewrite T2.
  destruct (display_to_edited_spec m t' f2 p v N CF ED D T' IT) as (neg & SG & R).
  - rewrite S'. eapply editable_comp; [|exact EN]. symmetry. exact QE.
  - exists neg. rewrite R. cbn [obind snd]. split; auto. eapply sign_comp; [|exact SG]. now rewrite S'.
Qed.

Theorem move_to_edited : forall m f1 f2 p v N,
  edit_cfg m -> editable p -> denotes (c_ebcdic m) f1 v -> edited_item m p f2 ->
  (a_type (fa f1) = TPacked -> a_digits (fa f1) <= 64) ->
  editable_number p (rat v (a_scale (fa f1))) (a_bzero (fa f2)) N ->
  exists neg, sign_of (rat v (a_scale (fa f1))) neg /\
    cob_move m f1 f2 = Ok (f1, set_fd f2 (edited_text m p N neg (a_bzero (fa f2)))).
Proof.
  intros m f1 f2 p v N CF ED D1 IT HP EN.
  pose proof (denotes_size _ _ _ D1) as SZ1. pose proof IT as (T2 & _ & SZ2 & _).
  pose proof (denotes_type _ _ _ D1) as T1.
  rewrite cob_move_elementary; [|lia|lia| |rewrite T2; exact I].
  2:{ destruct T1 as [-> | [-> | ->]]; exact I. }
  unfold move_elementary. destruct T1 as [T1|[T1|T1]]; rewrite T1.
  - unfold move_from_display. rewrite T2. now apply display_to_edited_spec with (v := v).
  - rewrite T2. specialize (HP T1).
    destruct (denotes_packed_cases _ _ _ T1 D1) as (neg & ds & E1 & Hne & Hd & HL & Hu & Hv).
    assert (LN : 1 <= a_digits (fa f1)) by (rewrite <- HL; destruct ds; [congruence|cbn [length]; lia]).
    assert (W : wf_display (temp_field (a_digits (fa f1)) (a_scale (fa f1))) (Z.to_nat (a_digits (fa f1)))) by (apply temp_wf; lia).
    apply (indirect_edited m (packed_to_display m) f1 f2 p v _ N (a_digits (fa f1)) (a_scale (fa f1))); auto; [| |reflexivity].
    + destruct (signed_neg_le neg ds Hd) as (_ & _ & S3). rewrite Hv, S3, <- HL. apply digits_value_bound. auto.
    + destruct (packed_to_display_spec m f1 _ v _ D1 T1 HP W) as (t' & X1 & X2 & X3 & X4).
      exists t'. split; auto. split; auto.
      change (a_scale (fa (temp_field (a_digits (fa f1)) (a_scale (fa f1))))) with (a_scale (fa f1)) in X2.
      rewrite aligns_same in X2. exact X2.
  - rewrite T2.
    assert (W : wf_display (temp_field 20 (a_scale (fa f1))) (Z.to_nat 20)) by (apply temp_wf; lia).
    destruct (denotes_binary_cases _ _ _ T1 D1) as (Hs & Hb & Hv).
    destruct (bin_value_bound f1 v Hs Hb Hv) as (BV & BG).
    apply (indirect_edited m (fun a b => Ok (binary_to_display m a b)) f1 f2 p v _ N 20 (a_scale (fa f1))); auto; [lia| | |reflexivity].
    + assert (2 ^ 64 < 10 ^ 20) by reflexivity. assert (2 ^ 63 < 2 ^ 64) by reflexivity.
      destruct (a_sign (fa f1)); lia.
    + destruct (binary_to_display_spec m f1 _ v _ D1 T1 W) as (t' & X1 & X2 & X3 & X4).
      exists t'. split; [now rewrite X1|]. split; auto.
      change (a_scale (fa (temp_field 20 (a_scale (fa f1))))) with (a_scale (fa f1)) in X2.
      rewrite aligns_same in X2. exact X2.
Qed.

(** Numbers written in alphanumeric items. *)
Theorem text_to_edited : forall m f1 f2 p v F N,
  edit_cfg m -> editable p -> point_cfg m -> text_type (a_type (fa f1)) -> fd f1 <> [] ->
  number_text m (fd f1) v F -> F <= 18 -> Z.abs v < 10 ^ (18 + F) -> edited_item m p f2 ->
  editable_number p (rat v F) (a_bzero (fa f2)) N ->
  exists neg, sign_of (rat v F) neg /\
    cob_move m f1 f2 = Ok (f1, set_fd f2 (edited_text m p N neg (a_bzero (fa f2)))).
Proof.
  intros m f1 f2 p v F N CF ED HM T1 NE HT HF HV IT EN. pose proof IT as (T2 & _ & SZ2 & _).
  assert (F0 : 0 <= F) by (destruct HT; lia).
  rewrite cob_move_elementary; [| |lia| |rewrite T2; exact I].
  2:{ unfold f_size. destruct (fd f1); [congruence|discriminate]. }
  2:{ destruct T1 as [-> | ->]; exact I. }
  replace (move_elementary m f1 f2) with (indirect_move m (alphanum_to_display m) f1 f2 36 18).
  2:{ unfold move_elementary. rewrite T2. destruct T1 as [-> | ->]; reflexivity. }
  assert (P1 : 0 < 10 ^ (18 - F)) by (apply Z.pow_pos_nonneg; lia).
  apply (indirect_edited m (alphanum_to_display m) f1 f2 p (v * 10 ^ (18 - F)) _ N 36 18); auto; [lia| | |].
  - rewrite Z.abs_mul, (Z.abs_eq (10 ^ (18 - F))) by lia.
    replace (10 ^ 36) with (10 ^ (18 + F) * 10 ^ (18 - F)).
    + apply Z.mul_lt_mono_pos_r; auto.
    + rewrite <- Z.pow_add_r by lia. f_equal. lia.
  - assert (W : wf_display (temp_field 36 18) 36) by (apply (temp_wf 36 18); lia).
    destruct (alphanum_to_display_spec m f1 _ 36 v F HM HT W) as (t' & E & D & A & S).
    { change (a_scale (fa (temp_field 36 18))) with 18. lia. }
    exists t'. split; auto. split; auto. change (a_scale (fa (temp_field 36 18))) with 18 in D.
    assert (EW : aligns v F 18 = v * 10 ^ (18 - F)).
    { unfold aligns, alignz. destruct (Z.leb_spec F 18); [|lia]. rewrite Z.mul_assoc. f_equal. destruct v; lia. }
    rewrite EW in D. exact D.
  - symmetry. apply rat_to. lia.
Qed.
