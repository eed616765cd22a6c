(** DISPLAY of numeric items (proof file). *)
From Coq Require Import QArith Qabs.
From Verif Require Import Base BaseFacts Field Sign Decimal SpecNum Numeric SpecStore NumFacts SpecMove.
From Verif Require Import DispProofs DecProofs BinProofs PackedProofs StoreProofs MoveProofs Move Edited MoveAll.
From Verif Require Import MovePacked MoveBin MoveNum MoveText MoveMore SpecEdit EditProofs EditFinish EditMove.
From Verif Require Import IntrProofs IntrProofs2 Display SpecDisplay.
Local Open Scope Z_scope.

(** ** Figures *)
Lemma figures_front : forall k N, 0 <= N ->
  figures (S k) N = (48 + (N / 10 ^ Z.of_nat k) mod 10) :: figures k N.
Proof.
  induction k; intros N HN.
  - cbn [figures app]. change (10 ^ Z.of_nat 0) with 1. now rewrite Z.div_1_r.
  - change (figures (S (S k)) N) with (figures (S k) (N / 10) ++ [48 + N mod 10]).
    rewrite IHk by (apply Z.div_pos; lia). cbn [app]. f_equal.
    rewrite Z.div_div by (auto; try lia; apply Z.pow_pos_nonneg; lia).
    rewrite <- Z.pow_succ_r by lia. now rewrite <- Nat2Z.inj_succ.
Qed.

Lemma places_app : forall a b, places (a ++ b) = places a + places b.
Proof. intros a b. unfold places. rewrite filter_app, app_length. lia. Qed.
Lemma places_digits : forall k, places (repeat Digit k) = Z.of_nat k.
Proof. intros k. unfold places. f_equal. induction k; cbn; auto. Qed.

Lemma cells_digits : forall m p N neg k b a, 0 <= N ->
  cells m p N neg a (repeat Digit k ++ b) =
  figures k (N / 10 ^ places b) ++ cells m p N neg (a ++ repeat Digit k) b.
Proof.
  intros m p N neg. induction k; intros b a HN.
  - cbn [repeat app figures]. now rewrite app_nil_r.
  - assert (HP : 0 <= places b) by (unfold places; lia).
    rewrite figures_front by (apply Z.div_pos; [auto|apply Z.pow_pos_nonneg; lia]).
    change (repeat Digit (S k) ++ b) with (Digit :: repeat Digit k ++ b). cbn [cells cell app].
    rewrite IHk by auto. rewrite <- app_assoc. cbn [app]. change (Digit :: repeat Digit k) with (repeat Digit (S k)).
    unfold digit_at. rewrite places_app, places_digits.
    rewrite Z.div_div by (try (apply Z.pow_pos_nonneg; lia); pose proof (Z.pow_pos_nonneg 10 (places b)); lia).
    rewrite <- Z.pow_add_r by lia. now rewrite (Z.add_comm (places b)).
Qed.

Definition body_of (a : fattr) : list sym :=
  if 0 <? a_scale a
  then repeat Digit (Z.to_nat (a_digits a - a_scale a)) ++ Point :: repeat Digit (Z.to_nat (a_scale a))
  else repeat Digit (Z.to_nat (a_digits a)).
Definition pic_of (a : fattr) : picture :=
  mkPic false LPlus ((if a_sign a then [Float] else []) ++ body_of a) NoTrail.

Lemma digits_only : forall (q : sym -> bool) k, q Digit = false -> has q (repeat Digit k) = false.
Proof. intros q k H. unfold has. induction k; cbn [repeat existsb]; auto. now rewrite H. Qed.
Lemma has_app : forall q a b, has q (a ++ b) = has q a || has q b.
Proof. intros. unfold has. apply existsb_app. Qed.

Lemma body_in : forall a s, In s (body_of a) -> s = Digit \/ s = Point.
Proof.
  intros a s. unfold body_of. destruct (0 <? a_scale a).
  - rewrite in_app_iff. intros [H|[H|H]]; [apply repeat_spec in H| |apply repeat_spec in H]; auto.
  - intros H. apply repeat_spec in H. auto.
Qed.
Lemma body_has : forall q a, q Digit = false -> q Point = false -> has q (body_of a) = false.
Proof.
  intros q a H1 H2. unfold has. destruct (existsb q (body_of a)) eqn:E; auto.
  apply existsb_exists in E as (s & I & E). apply body_in in I as [-> | ->]; congruence.
Qed.

Lemma body_point : forall a x s b, body_of a = x ++ s :: b -> is_point s = true -> b = repeat Digit (Z.to_nat (a_scale a)).
Proof.
  intros a. unfold body_of. destruct (0 <? a_scale a).
  - generalize (Z.to_nat (a_digits a - a_scale a)) as k. induction k; intros x s b E P.
    + cbn [repeat app] in E. destruct x as [|y x]; cbn [app] in E; [now injection E|].
      injection E as <- E. assert (I : In s (repeat Digit (Z.to_nat (a_scale a)))) by (rewrite E; apply in_elt).
      apply repeat_spec in I. subst s. discriminate P.
    + cbn [repeat app] in E. destruct x as [|y x]; cbn [app] in E.
      * injection E as <- _. discriminate P.
      * injection E as <- E. eauto.
  - intros x s b E P. assert (I : In s (repeat Digit (Z.to_nat (a_digits a)))) by (rewrite E; apply in_elt).
    apply repeat_spec in I. subst s. discriminate P.
Qed.

Lemma forall_digits : forall k, forallb place (repeat Digit k) = true.
Proof. induction k; cbn; auto. Qed.

Lemma pic_editable : forall a, editable (pic_of a).
Proof.
  intros a. unfold pic_of. constructor; cbn [p_body p_trail p_star p_lead].
  - intros c I. apply in_app_iff in I as [I|I].
    + destruct (a_sign a); cbn [In] in I; intuition discriminate.
    + apply body_in in I as [I|I]; discriminate.
  - intros x s b E P. destruct (a_sign a); cbn [app] in E.
    + destruct x as [|y x]; cbn [app] in E; injection E; intros; subst; [discriminate P|].
      erewrite (body_point a x s b) by eauto. apply forall_digits.
    + erewrite (body_point a x s b) by eauto. apply forall_digits.
  - intros H. destruct (a_sign a) eqn:S; cbn [app] in *.
    2:{ rewrite body_has in H by reflexivity. discriminate. }
    exists (body_of a). split; auto. left. split; [|split].
    + change (Float :: body_of a) with ([Float] ++ body_of a). rewrite has_app, body_has by reflexivity. reflexivity.
    + intros x b E. destruct x as [|y x]; [reflexivity|]. cbn [app] in E. injection E as _ E.
      assert (I : In Float (body_of a)) by (rewrite E; apply in_elt). apply body_in in I as [I|I]; discriminate.
    + intros x c b E. destruct x as [|y x]; cbn [app] in E; [discriminate|]. injection E as _ E.
      assert (I : In (Insert c) (body_of a)) by (rewrite E; apply in_elt). apply body_in in I as [I|I]; discriminate.
  - intros [H|H]; discriminate.
Qed.

Section Text.
Variables (m : cfg) (a : fattr).
Hypothesis NN : 1 <= a_digits a.
Hypothesis SS : a_scale a <= a_digits a.

Lemma body_places : places (body_of a) = a_digits a.
Proof.
  unfold body_of. destruct (Z.ltb_spec 0 (a_scale a)).
  - rewrite places_app. change (Point :: repeat Digit (Z.to_nat (a_scale a))) with ([Point] ++ repeat Digit (Z.to_nat (a_scale a))).
    rewrite places_app, !places_digits. change (places [Point]) with 0. lia.
  - rewrite places_digits. lia.
Qed.
Lemma body_decimals : decimals (body_of a) = Z.max 0 (a_scale a).
Proof.
  unfold body_of. destruct (Z.ltb_spec 0 (a_scale a)).
  - rewrite decimals_app by (apply digits_only; reflexivity). cbn [decimals is_point]. rewrite places_digits. lia.
  - rewrite <- (app_nil_r (repeat _ _)), decimals_app by (apply digits_only; reflexivity). cbn [decimals]. lia.
Qed.
Lemma body_shown : length (filter shown (body_of a)) = Z.to_nat (a_digits a + if 0 <? a_scale a then 1 else 0).
Proof.
  assert (F : forall k, filter shown (repeat Digit k) = repeat Digit k) by (induction k; cbn; congruence).
  unfold body_of. destruct (Z.ltb_spec 0 (a_scale a)).
  - rewrite filter_app. cbn [filter shown]. rewrite !F, app_length. cbn [length]. rewrite !repeat_length. lia.
  - rewrite F, repeat_length. lia.
Qed.
Lemma body_nine : has is_nine (body_of a) = true.
Proof.
  assert (D : forall k, (1 <= k)%nat -> has is_nine (repeat Digit k) = true) by (intros [|k] H; [lia|reflexivity]).
  unfold body_of. destruct (Z.ltb_spec 0 (a_scale a)).
  - rewrite has_app. change (Point :: repeat Digit (Z.to_nat (a_scale a))) with ([Point] ++ repeat Digit (Z.to_nat (a_scale a))).
    rewrite has_app, (D (Z.to_nat (a_scale a))) by lia. now rewrite !orb_true_r.
  - apply D. lia.
Qed.

Lemma text_is : forall N neg, 0 <= N < 10 ^ a_digits a ->
  edited_text m (pic_of a) N neg false = signed_text (a_sign a) neg (number_shown m (a_digits a) (a_scale a) N).
Proof.
  intros N neg HN. unfold edited_text, blanked, trail_text. cbn [p_trail pic_of p_body].
  rewrite has_app, body_nine, orb_true_r. cbn [negb orb]. rewrite andb_false_r, app_nil_r.
  unfold signed_text.
  assert (B : forall x, cells m (pic_of a) N neg x (body_of a) = number_shown m (a_digits a) (a_scale a) N).
  { intros x. unfold body_of, number_shown. destruct (Z.ltb_spec 0 (a_scale a)).
    - rewrite cells_digits by lia. change (Point :: repeat Digit (Z.to_nat (a_scale a))) with ([Point] ++ repeat Digit (Z.to_nat (a_scale a))).
      rewrite places_app, places_digits. change (places [Point]) with 0. rewrite Z.add_0_l, Z2Nat.id by lia.
      cbn [app cells cell]. rewrite <- (app_nil_r (repeat Digit (Z.to_nat (a_scale a)))).
      rewrite (cells_digits m (pic_of a) N neg (Z.to_nat (a_scale a)) []) by lia.
      change (places []) with 0. change (10 ^ 0) with 1. rewrite Z.div_1_r. cbn [cells]. now rewrite app_nil_r.
    - rewrite <- (app_nil_r (repeat Digit _)), cells_digits by lia. change (places []) with 0. change (10 ^ 0) with 1.
      rewrite Z.div_1_r. cbn [cells]. now rewrite app_nil_r. }
  destruct (a_sign a) eqn:SG; cbn [app]; [|apply B].
  cbn [cells]. rewrite B. f_equal. cbn [cell]. unfold leading. cbn [app].
  change (has is_nine [Float]) with false. change (has is_point [Float]) with false. cbn [negb andb].
  rewrite body_places, (proj2 (Z.ltb_lt N _)) by lia.
  assert (H1 : has is_supp (p_body (pic_of a)) = false).
  { unfold pic_of. cbn [p_body]. now rewrite SG, has_app, body_has by reflexivity. }
  assert (H2 : has is_float (p_body (pic_of a)) = true).
  { unfold pic_of. cbn [p_body]. now rewrite SG, has_app. }
  unfold gap. rewrite H1, H2.
  assert (NL : next_leading N [] Float (body_of a) = false).
  { unfold next_leading. destruct (body_of a) as [|t r] eqn:E; auto.
    assert (I : In t (body_of a)) by (rewrite E; left; reflexivity).
    unfold leading. rewrite !has_app. apply body_in in I as [-> | ->].
    - change (has is_nine [Digit]) with true. now rewrite orb_true_r.
    - change (has is_point [Point]) with true. now rewrite !orb_true_r, andb_false_r. }
  rewrite NL. reflexivity.
Qed.
End Text.

(** ** The compiled picture with an empty run of 9s *)
Definition clean_pic (m : cfg) (a : fattr) : list (Z * Z) :=
  (if a_sign a then [(43, 1)] else []) ++
  (if 0 <? a_scale a
   then (if a_digits a =? a_scale a then [] else [(57, a_digits a - a_scale a)]) ++ [(c_decpoint m, 1); (57, a_scale a)]
   else [(57, a_digits a)]).

Lemma clean_expand : forall m a, expand_pic (pretty_pic m a) = expand_pic (clean_pic m a).
Proof.
  intros m a. unfold pretty_pic, clean_pic. destruct (0 <? a_scale a); auto.
  destruct (Z.eqb_spec (a_digits a) (a_scale a)) as [E|E]; auto.
  unfold expand_pic. rewrite !flat_map_app. f_equal. cbn [flat_map app fst snd].
  rewrite E, Z.sub_diag. reflexivity.
Qed.
Lemma clean_count : forall m a, edit_cfg m ->
  count_places m (pretty_pic m a) 0 true true = count_places m (clean_pic m a) 0 true true.
Proof.
  intros m a (DP & CU). unfold pretty_pic, clean_pic. destruct (0 <? a_scale a); auto.
  destruct (Z.eqb_spec (a_digits a) (a_scale a)) as [E|E]; auto. rewrite E, Z.sub_diag.
  assert (C43 : (43 =? c_currency m) = false).
  { apply Z.eqb_neq. intros X. apply CU. rewrite <- X. cbn. tauto. }
  assert (CD : (c_decpoint m =? c_currency m) = false).
  { apply Z.eqb_neq. intros X. apply CU. rewrite <- X. destruct DP as [-> | ->]; cbn; tauto. }
  destruct (a_sign a); cbn [app count_places andb orb Z.eqb Pos.eqb]; rewrite ?C43, ?CD; cbn [andb];
  destruct DP as [-> | ->]; cbn [Z.eqb Pos.eqb orb andb]; rewrite ?Z.add_0_r; reflexivity.
Qed.

Lemma edited_pic : forall m f1 f2 f2', fd f2 = fd f2' -> a_bzero (fa f2) = a_bzero (fa f2') ->
  expand_pic (a_pic (fa f2)) = expand_pic (a_pic (fa f2')) ->
  count_places m (a_pic (fa f2)) 0 true true = count_places m (a_pic (fa f2')) 0 true true ->
  display_to_edited m f1 f2 = do r <- display_to_edited m f1 f2'; Ok (fst r, set_fd f2 (fd (snd r))).
Proof.
  intros m f1 f2 f2' E1 E2 E3 E4. unfold display_to_edited, f_size. rewrite E1, E2, E3, E4.
  clear E1 E2 E3 E4. destruct (get_sign m f1) as [sg g]. destruct (count_places m (a_pic (fa f2')) 0 true true) as [cnt pl].
  cbv zeta. match goal with |- obind ?x _ = _ => destruct x as [st| |] end; auto. cbn [obind].
  match goal with |- obind ?x _ = _ => destruct x as [d| |] end; auto.
Qed.

Lemma move_pic : forall m f1 f2 f2', fd f2 = fd f2' -> a_bzero (fa f2) = a_bzero (fa f2') ->
  expand_pic (a_pic (fa f2)) = expand_pic (a_pic (fa f2')) ->
  count_places m (a_pic (fa f2)) 0 true true = count_places m (a_pic (fa f2')) 0 true true ->
  a_type (fa f2) = TNumEdited -> a_type (fa f2') = TNumEdited ->
  a_type (fa f1) = TDisplay \/ a_type (fa f1) = TPacked \/ a_type (fa f1) = TBinary ->
  move_elementary m f1 f2 = do r <- move_elementary m f1 f2'; Ok (fst r, set_fd f2 (fd (snd r))).
Proof.
  intros m f1 f2 f2' E1 E2 E3 E4 T2 T2' T1. unfold move_elementary.
  destruct T1 as [-> | [-> | ->]]; rewrite ?T2, ?T2'.
  - unfold move_from_display. rewrite T2, T2'. now apply edited_pic.
  - unfold indirect_move. destruct (_ <? _); auto. destruct (_ <=? _); auto.
    match goal with |- obind (obind ?x _) _ = _ => idtac | |- obind ?x _ = _ => destruct x as [pq| |] end; auto. cbn [obind]. unfold move_from_display. rewrite T2, T2'.
    rewrite (edited_pic m (snd pq) f2 f2') by auto. destruct (display_to_edited m (snd pq) f2'); auto.
  - unfold indirect_move. destruct (_ <? _); auto. destruct (_ <=? _); auto.
    cbn [obind]. unfold move_from_display. rewrite T2, T2'.
    rewrite (edited_pic m _ f2 f2') by auto. destruct (display_to_edited _ _ f2'); auto.
Qed.

(** ** The item shown with its decimal point *)
Theorem pretty_spec : forall m f v N,
  edit_cfg m -> denotes (c_ebcdic m) f v ->
  1 <= a_digits (fa f) <= 254 -> a_scale (fa f) <= a_digits (fa f) ->
  (a_type (fa f) = TPacked -> a_digits (fa f) <= 64) ->
  0 <= N < 10 ^ a_digits (fa f) ->
  (Qabs (rat v (a_scale (fa f))) == rat N (Z.max 0 (a_scale (fa f))))%Q ->
  exists neg, sign_of (rat v (a_scale (fa f))) neg /\
    pretty_display_numeric m f =
      Ok (signed_text (a_sign (fa f)) neg (number_shown m (a_digits (fa f)) (a_scale (fa f)) N)).
Proof.
  intros m f v N CF D HD HS HP HN QE. set (a := fa f) in *.
  pose proof (denotes_size _ _ _ D) as SZ. pose proof (denotes_type _ _ _ D) as T1. fold a in T1.
  unfold pretty_display_numeric. destruct (Nat.eqb_spec (f_size f) 0); [lia|]. fold a. cbv zeta.
  set (size := a_digits a + (if a_sign a then 1 else 0) + (if 0 <? a_scale a then 1 else 0)).
  assert (SZ2 : 1 <= size <= 256) by (unfold size; destruct (a_sign a); destruct (0 <? a_scale a); lia).
  destruct (Z.ltb_spec size 0); [lia|]. destruct (Z.ltb_spec 256 size); [lia|]. cbn [orb].
  set (t := mkField (mkAttr TNumEdited (a_digits a) (a_scale a) false false false false false false false (pretty_pic m a)) (repeat 0 (Z.to_nat size))).
  set (t' := mkField (mkAttr TNumEdited (a_digits a) (a_scale a) false false false false false false false (clean_pic m a)) (repeat 0 (Z.to_nat size))).
  assert (LT : f_size t = Z.to_nat size) by (unfold f_size, t; cbn [fd]; apply repeat_length).
  assert (LT' : f_size t' = Z.to_nat size) by (unfold f_size, t'; cbn [fd]; apply repeat_length).
  assert (IT : edited_item m (pic_of a) t').
  { unfold edited_item. split; [reflexivity|]. rewrite LT'. split; [|split; [lia|split]].
    - unfold pic_size, pic_of. cbn [p_body p_trail trail_size]. rewrite filter_app, app_length, body_shown by lia.
      unfold size. destruct (a_sign a); cbn [filter shown length]; lia.
    - unfold t'. cbn [fa a_pic]. unfold clean_pic, pic_string, pic_of, body_of. cbn [p_body p_trail trail_code].
      rewrite app_nil_r, flat_map_app, map_app. f_equal.
      + destruct (a_sign a); reflexivity.
      + assert (MR : forall k, map (sym_code m {| p_star := false; p_lead := LPlus; p_body := (if a_sign a then [Float] else []) ++
           (if 0 <? a_scale a then repeat Digit (Z.to_nat (a_digits a - a_scale a)) ++ Point :: repeat Digit (Z.to_nat (a_scale a)) else repeat Digit (Z.to_nat (a_digits a)));
           p_trail := NoTrail |}) (repeat Digit k) = repeat 57 k) by (induction k as [|k IHk]; [reflexivity|cbn [repeat map]; rewrite IHk; reflexivity]).
        destruct (Z.ltb_spec 0 (a_scale a)) as [HA|HA].
        * rewrite map_app. cbn [map]. rewrite !MR. cbn [sym_code]. rewrite flat_map_app.
          destruct (Z.eqb_spec (a_digits a) (a_scale a)) as [E|E].
          -- rewrite E, Z.sub_diag. cbn [flat_map app fst snd Z.to_nat repeat]. now rewrite app_nil_r.
          -- cbn [flat_map app fst snd]. rewrite !app_nil_r. reflexivity.
        * rewrite MR. cbn [flat_map app fst snd]. now rewrite app_nil_r.
    - unfold t'. cbn [fa a_pic]. unfold clean_pic. apply Forall_app. split.
      + destruct (a_sign a); repeat constructor; cbn; lia.
      + destruct (Z.ltb_spec 0 (a_scale a)).
        * apply Forall_app. split; [destruct (Z.eqb_spec (a_digits a) (a_scale a)); repeat constructor; cbn [snd]; lia|].
          repeat constructor; cbn [snd]; lia.
        * repeat constructor; cbn [snd]; lia. }
  assert (TW : trunc_at (rat v (a_scale a)) (Z.max 0 (a_scale a)) (v * 10 ^ (Z.max 0 (a_scale a) - a_scale a)))
    by (apply DecProofs.trunc_at_exact; lia).
  assert (AW : Z.abs (v * 10 ^ (Z.max 0 (a_scale a) - a_scale a)) = N).
  { apply (rat_eq _ _ (Z.max 0 (a_scale a))). rewrite <- QE, <- rat_abs. apply Qabs_wd. symmetry. apply rat_to. lia. }
  assert (PB : places (p_body (pic_of a)) = a_digits a + (if a_sign a then 1 else 0)).
  { unfold pic_of. cbn [p_body]. rewrite places_app, body_places by lia. destruct (a_sign a); [change (places [Float]) with 1|change (places []) with 0]; lia. }
  assert (DB : decimals (p_body (pic_of a)) = Z.max 0 (a_scale a)).
  { unfold pic_of. cbn [p_body]. rewrite decimals_app by (destruct (a_sign a); reflexivity). apply body_decimals. }
  assert (HM : 10 ^ a_digits a <= 10 ^ places (p_body (pic_of a))) by (apply Z.pow_le_mono_r; [lia|rewrite PB; destruct (a_sign a); lia]).
  assert (EN : editable_number (pic_of a) (rat v (a_scale a)) false N).
  { split; [|split].
    - exists (v * 10 ^ (Z.max 0 (a_scale a) - a_scale a)). rewrite DB. split; [exact TW|]. rewrite AW. symmetry. apply Z.mod_small. lia.
    - intros HF. rewrite PB. unfold pic_of in HF. cbn [p_body] in HF. destruct (a_sign a).
      + replace (a_digits a + 1 - 1) with (a_digits a) by lia. lia.
      + cbn [app] in HF. rewrite body_has in HF by reflexivity. discriminate.
    - intros [H1|H1]; discriminate H1. }
  destruct (move_to_edited m f t' (pic_of a) v N CF (pic_editable a) D IT HP EN) as (neg & SG & MV).
  exists neg. split; [exact SG|]. fold a.
  assert (ET : elem_type (a_type (fa f))) by (fold a; destruct T1 as [-> | [-> | ->]]; exact I).
  assert (Z0 : f_size f <> 0%nat) by lia. assert (Z1 : f_size t <> 0%nat) by lia. assert (Z2 : f_size t' <> 0%nat) by lia.
  rewrite (cob_move_elementary m f t' Z0 Z2 ET I) in MV.
  rewrite (cob_move_elementary m f t Z0 Z1 ET I).
  assert (MP : move_elementary m f t = do r <- move_elementary m f t'; Ok (fst r, set_fd t (fd (snd r)))).
  { apply move_pic; [reflexivity|reflexivity| | |reflexivity|reflexivity|exact T1].
    - apply clean_expand.
    - now apply clean_count. }
  rewrite MP.
  rewrite MV. cbn [obind fst snd fd set_fd]. now rewrite <- text_is by (auto; lia).
Qed.

(** ** The item shown as it is held *)
Lemma figures_digits : forall ds, Forall is_dig ds -> map digit_char ds = figures (length ds) (digits_value ds).
Proof.
  induction ds as [|d ds IH] using rev_ind; intros H; [reflexivity|].
  apply Forall_app in H as [H1 H2]. apply Forall_inv in H2. unfold is_dig in H2.
  rewrite app_length, Nat.add_comm. cbn [length Nat.add figures]. rewrite map_app, digits_value_snoc.
  rewrite (Z.mul_comm 10), Z.div_add_l, Z.div_small, Z.add_0_r by lia.
  rewrite <- IH by auto. rewrite (Z.add_comm _ d), Z.mod_add, Z.mod_small by lia. reflexivity.
Qed.

Theorem plain_spec : forall m stack f v,
  denotes (c_ebcdic m) f v -> 1 <= a_digits (fa f) <= 127 -> (128 <= length stack)%nat ->
  (a_type (fa f) = TPacked -> a_digits (fa f) <= 64) ->
  Z.abs v < 10 ^ a_digits (fa f) ->
  exists t, display_numeric m stack f = Ok t /\ held_as f (Z.to_nat (a_digits (fa f))) v t.
Proof.
  intros m stack f v D HD HL HP HV.
  pose proof (denotes_size _ _ _ D) as SZ. pose proof (denotes_type _ _ _ D) as T1.
  unfold display_numeric. destruct (Nat.eqb_spec (f_size f) 0) as [X0|X0]; [lia|]. cbv zeta.
  set (a := fa f) in *. set (size := a_digits a + (if a_sign a then 1 else 0)).
  assert (SZ2 : 1 <= size <= 128) by (unfold size; destruct (a_sign a); lia).
  destruct (Z.ltb_spec size 0); [lia|]. destruct (Z.ltb_spec 128 size); [lia|]. cbn [orb].
  set (lead := a_sign a && (a_lead a || match a_type a with TBinary => true | _ => false end)).
  set (t := mkField (mkAttr TDisplay (a_digits a) (a_scale a) (a_sign a) (a_sign a) lead false false false false [])
              (firstn (Z.to_nat size) stack)).
  set (n := Z.to_nat (a_digits a)).
  assert (W : wf_display t n).
  { unfold wf_display, attr_ok, t. cbn [fa fd a_type a_sep a_sign]. split; [auto|]. split; [auto|]. split; [unfold n; lia|].
    rewrite firstn_length_le by lia. unfold n, size. destruct (a_sign a); lia. }
  destruct (cob_move_numeric m f t v D (ni_display t n W)) as (t2 & MV & A2 & S2 & R).
  - intros _ X. discriminate X.
  - exact HP.
  - intros X. discriminate X.
  - rewrite MV. cbn [obind snd]. eexists. split; [reflexivity|]. fold a in R.
    assert (ND : Z.of_nat n = a_digits a) by (unfold n; lia).
    specialize (R v). change (a_scale (fa t)) with (a_scale a) in R. specialize (R (trunc_id v (a_scale a))).
    assert (KD : kept_digits m t v = v).
    { unfold kept_digits. change (a_type (fa t)) with TDisplay. cbn iota. rewrite (wf_display_data_size t n W). apply low_part_fits. now rewrite ND. }
    rewrite KD in R.
    assert (TT : a_type (fa t2) = TDisplay) by (rewrite A2; reflexivity).
    destruct (denotes_display_cases _ _ _ TT R) as (neg & ds & E & NE & DS & NS & AO & VV).
    destruct (signed_neg_le neg ds DS) as (S3 & S4 & S5).
    assert (LD : length ds = n).
    { pose proof (zoned_length (c_ebcdic m) (fa t2) neg ds AO NE) as ZL.
      assert (X : length (fd t2) = length (zoned (c_ebcdic m) (fa t2) neg ds)) by (rewrite E at 1; reflexivity).
      unfold f_size in S2. rewrite S2 in X. destruct W as (_ & _ & _ & W4). rewrite W4, ZL in X. rewrite A2 in X. lia. }
    assert (FG : map digit_char ds = figures n (Z.abs v)).
    { rewrite (figures_digits ds DS), LD. f_equal. rewrite <- S5, <- VV. unfold held. destruct (a_sign (fa t)); lia. }
    exists neg. unfold held in VV. change (a_sign (fa t)) with (a_sign a) in VV.
    assert (SGN : (a_sign a = true -> v < 0 -> neg = true) /\ (0 < v -> neg = false)).
    { destruct neg; (split; auto); intros; try (specialize (S3 eq_refl)); try (specialize (S4 eq_refl)); rewrite <- VV in *.
      - destruct (a_sign a); lia.
      - rewrite H1 in *. lia. }
    rewrite E. cbn [fd]. rewrite A2. unfold t. cbn [fa].
    unfold zoned. cbn [a_sign a_sep a_lead]. unfold digits_shown, held_as. fold a. rewrite FG.
    destruct (a_sign a) eqn:SA; cbn [negb].
    + destruct SGN as [SG1 SG2]. split; [auto|]. split; [auto|]. split; [now rewrite ND|].
      unfold lead, sign_char. cbn [andb]. destruct (a_lead a || _); reflexivity.
    + assert (V0 : 0 <= v).
      { revert T1 D SA. clear. intros T1 D SA. subst a. destruct T1 as [T|[T|T]].
        - destruct (denotes_display_cases _ _ _ T D) as (ng & ds & _ & _ & DD & NS & _ & ->). rewrite (NS SA).
          apply (signed_neg_le false ds DD). reflexivity.
        - destruct (denotes_packed_cases _ _ _ T D) as (ng & ds & _ & _ & DD & _ & NS & ->). rewrite (NS SA).
          apply (signed_neg_le false ds DD). reflexivity.
        - destruct (denotes_binary_cases _ _ _ T D) as (X1 & X2 & X3). destruct (bin_value_bound f v X1 X2 X3) as (B & _). rewrite SA in B. lia. }
      split; [lia|]. split; [apply SGN|]. split; [now rewrite ND|]. reflexivity.
Qed.
