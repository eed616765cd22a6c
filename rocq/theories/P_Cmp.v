(** Theorems C21-C23, C49 and the comparison part of C51. *)
From Coq Require Import QArith.
From Verif Require Import Base BaseFacts Field Sign Decimal SpecNum Numeric SpecStore SpecMove Move MoveAll
  Compare SpecCmp SpecSort CmpProofs CmpMore P_Num P_Move.
Local Open Scope Z_scope.

(** C21.  Two alphanumeric, edited or group items of any lengths: the result is
    the order of the space-padded contents, and neither item is changed. *)
Theorem C21_text_compare : forall m col f1 f2,
  text_sender (a_type (fa f1)) -> text_sender (a_type (fa f2)) ->
  exists c, cob_cmp m col (item f1) (item f2) = Ok (c, f1, f2) /\ cmp_agrees col (fd f1) (fd f2) c.
Proof.
  intros m col f1 f2 T1 T2. exists (cmp_simple_str col (fd f1) (fd f2)).
  split; [apply cob_cmp_text; auto|apply cmp_simple_str_agrees].
Qed.
Print Assumptions C21_text_compare.
Example C21_ex : forall m, exists c,
  cob_cmp m None (item (mkField alnum [65;66;32;32])) (item (mkField alnum [65;66;67])) =
    Ok (c, mkField alnum [65;66;32;32], mkField alnum [65;66;67]) /\ c < 0.
Proof.
  intros. destruct (C21_text_compare m None (mkField alnum [65;66;32;32]) (mkField alnum [65;66;67])) as (c & E & A & _);
    try (left; reflexivity).
  exists c. split; auto. apply A. exists 2%nat. split; [|reflexivity].
  intros j Hj. destruct j as [|[|j]]; [reflexivity|reflexivity|lia].
Qed.

(** C21.  The order is a total preorder: comparing the other way round gives
    the opposite sign, and it is transitive. *)
Theorem C21_total_preorder : forall m col f1 f2 f3 c12 c21 c23 c13,
  text_sender (a_type (fa f1)) -> text_sender (a_type (fa f2)) -> text_sender (a_type (fa f3)) ->
  cob_cmp m col (item f1) (item f2) = Ok (c12, f1, f2) ->
  cob_cmp m col (item f2) (item f1) = Ok (c21, f2, f1) ->
  cob_cmp m col (item f2) (item f3) = Ok (c23, f2, f3) ->
  cob_cmp m col (item f1) (item f3) = Ok (c13, f1, f3) ->
  Z.sgn c21 = - Z.sgn c12 /\ (c12 <= 0 -> c23 <= 0 -> c13 <= 0) /\ (c12 = 0 -> c23 = 0 -> c13 = 0) /\
  (c12 < 0 -> c23 <= 0 -> c13 < 0).
Proof.
  intros m col f1 f2 f3 c12 c21 c23 c13 T1 T2 T3 E12 E21 E23 E13.
  unfold item in *. rewrite cob_cmp_text in E12, E21, E23, E13 by auto.
  injection E12 as <-. injection E21 as <-. injection E23 as <-. injection E13 as <-.
  pose proof (cmp_simple_str_agrees col (fd f1) (fd f2)) as (A1 & B1 & C1).
  pose proof (cmp_simple_str_agrees col (fd f2) (fd f1)) as (A2 & B2 & C2).
  pose proof (cmp_simple_str_agrees col (fd f2) (fd f3)) as (A3 & B3 & C3).
  pose proof (cmp_simple_str_agrees col (fd f1) (fd f3)) as (A4 & B4 & C4).
  set (c12 := cmp_simple_str col (fd f1) (fd f2)) in *. set (c21 := cmp_simple_str col (fd f2) (fd f1)) in *.
  set (c23 := cmp_simple_str col (fd f2) (fd f3)) in *. set (c13 := cmp_simple_str col (fd f1) (fd f3)) in *.
  clearbody c12 c21 c23 c13.
  assert (LT : c12 < 0 -> c23 < 0 -> c13 < 0).
  { intros. apply A4. eapply text_lt_trans; [now apply A1|now apply A3]. }
  assert (EL : c12 = 0 -> c23 < 0 -> c13 < 0).
  { intros. apply A4. eapply text_eq_lt; [now apply B1|now apply A3]. }
  assert (LE : c12 < 0 -> c23 = 0 -> c13 < 0).
  { intros. apply A4. eapply text_lt_eq; [now apply A1|now apply B3]. }
  assert (EE : c12 = 0 -> c23 = 0 -> c13 = 0).
  { intros. apply B4. eapply text_eq_trans; [now apply B1|now apply B3]. }
  split; [|split; [|split]]; try (intros; lia).
  destruct (Z.lt_trichotomy c12 0) as [G | [G | G]].
  - assert (0 < c21) by (apply C2, A1, G). lia.
  - assert (c21 = 0) by (apply B2, text_eq_sym, B1, G). lia.
  - assert (c21 < 0) by (apply A2, C1, G). lia.
Qed.
Print Assumptions C21_total_preorder.

(** C21.  A number against a text: the digits of the item (without sign and
    decimal point) are compared as text. *)
Theorem C21_number_with_text : forall m col f1 f2 v, denotes (c_ebcdic m) f1 v ->
  (a_type (fa f2) = TAlnum \/ a_type (fa f2) = TAlnumEdited \/ a_type (fa f2) = TNumEdited) ->
  1 <= a_digits (fa f1) <= 48 ->
  (a_type (fa f1) = TDisplay -> Z.of_nat (data_size f1) = a_digits (fa f1)) ->
  (a_type (fa f1) <> TDisplay -> a_sep (fa f1) = false) ->
  exists ds, length ds = Z.to_nat (a_digits (fa f1)) /\ Forall is_dig ds /\
    digits_value ds = Z.abs v mod 10 ^ a_digits (fa f1) /\
    (exists c, cob_cmp m col (item f1) (item f2) = Ok (c, f1, f2) /\
               cmp_agrees col (map digit_char ds) (fd f2) c) /\
    (exists c, cob_cmp m col (item f2) (item f1) = Ok (c, f2, f1) /\
               cmp_agrees col (fd f2) (map digit_char ds) c).
Proof. exact cob_cmp_number_text. Qed.
Print Assumptions C21_number_with_text.
Example C21_ex_number : exists c,
  cob_cmp default_cfg None (item (mkField (pack 3 0 true) [18;60])) (item (mkField alnum [49;50;51])) =
    Ok (c, mkField (pack 3 0 true) [18;60], mkField alnum [49;50;51]) /\ c = 0.
Proof. exists 0. split; vm_compute; reflexivity. Qed.

(** C21.  If one of the operands is a group, the bytes are compared as they are. *)
Theorem C21_group : forall m col f1 f2,
  a_type (fa f1) = TGroup \/ a_type (fa f2) = TGroup ->
  is_national (a_type (fa f1)) = false -> is_national (a_type (fa f2)) = false ->
  a_type (fa f1) <> TAlnumAll -> a_type (fa f2) <> TAlnumAll ->
  exists c, cob_cmp m col (item f1) (item f2) = Ok (c, f1, f2) /\ cmp_agrees col (fd f1) (fd f2) c.
Proof.
  intros. apply cob_cmp_group; auto.
  - unfold is_all. destruct (a_type (fa f1)); auto; congruence.
  - unfold is_all. destruct (a_type (fa f2)); auto; congruence.
Qed.
Print Assumptions C21_group.

(** Finding: comparing changes the item when the sign position of a signed
    DISPLAY item holds a space: "12 " becomes "120". *)
Theorem C21_compare_writes_refuted : exists m f1 f2 c f1',
  cob_cmp m None (item f1) (item f2) = Ok (c, f1', f2) /\ f1' <> f1.
Proof.
  exists default_cfg, (mkField (disp 3 0 true false false) [49;50;32]), (mkField alnum [49;50;48]), 0,
    (mkField (disp 3 0 true false false) [49;50;48]).
  split; [vm_compute; reflexivity|discriminate].
Qed.
Print Assumptions C21_compare_writes_refuted.

(** C22.  ALPHABETIC and friends (C locale) are exact (and do not touch the
    item: the functions return nothing else). *)
Theorem C22_alphabetic : forall f,
  (is_alpha f = true <-> Forall (fun c => white c \/ 65 <= c <= 90 \/ 97 <= c <= 122) (fd f)) /\
  (is_upper f = true <-> Forall (fun c => white c \/ 65 <= c <= 90) (fd f)) /\
  (is_lower f = true <-> Forall (fun c => white c \/ 97 <= c <= 122) (fd f)).
Proof. intros. split; [apply is_alpha_spec|split; [apply is_upper_spec|apply is_lower_spec]]. Qed.
Print Assumptions C22_alphabetic.
Example C22_ex_alpha : is_alpha (mkField alnum [65;98;32]) = true /\ is_upper (mkField alnum [65;98;32]) = false.
Proof. split; reflexivity. Qed.

(** C22.  NUMERIC for alphanumeric and unsigned DISPLAY items. *)
Theorem C22_numeric_digits : forall m nc f,
  (a_type (fa f) = TDisplay /\ a_sign (fa f) = false /\ a_sep (fa f) = false) \/ text_sender (a_type (fa f)) ->
  exists b, is_numeric m nc f = (b, f) /\ (b = true <-> Forall is_digit (fd f)).
Proof.
  intros m nc f H. exists (forallb is_digitb (fd f)). split.
  - destruct H as [(T & S & P) | H]; [now apply is_numeric_unsigned|].
    unfold is_numeric. destruct H as [-> | [-> | [-> | ->]]]; reflexivity.
  - rewrite forallb_forall, Forall_forall. split; intros X c I; specialize (X c I); now apply is_digitb_spec.
Qed.
Print Assumptions C22_numeric_digits.

(** C22.  NUMERIC for signed DISPLAY items: every valid item is accepted and not changed ... *)
Theorem C22_numeric_valid : forall m nc a neg ds, a_type a = TDisplay -> ds <> [] -> Forall is_dig ds -> attr_ok a ->
  (a_sign a = false -> neg = false) ->
  is_numeric m nc (mkField a (zoned (c_ebcdic m) a neg ds)) = (true, mkField a (zoned (c_ebcdic m) a neg ds)).
Proof. exact is_numeric_zoned. Qed.
Print Assumptions C22_numeric_valid.

(** ... and (ASCII overpunch) what is accepted is exactly digits with a plain or
    overpunched digit - or a space - in the sign position. *)
Theorem C22_numeric_signed : forall m nc f, a_type (fa f) = TDisplay -> a_sign (fa f) = true -> a_sep (fa f) = false ->
  c_ebcdic m = false -> bytes_ok (fd f) -> (1 <= f_size f)%nat ->
  let i := if a_lead (fa f) then 0%nat else (f_size f - 1)%nat in let c := nth i (fd f) 0 in
  exists b f', is_numeric m nc f = (b, f') /\ (c <> 32 -> f' = f) /\
    (b = true <-> (is_digit c \/ 112 <= c <= 121 \/ c = 32) /\
                  forall j, (j < f_size f)%nat -> j <> i -> is_digit (nth j (fd f) 0)).
Proof. exact is_numeric_overpunch. Qed.
Print Assumptions C22_numeric_signed.
Example C22_ex_signed : is_numeric default_cfg false (mkField (disp 3 0 true false false) [49;50;115]) =
  (true, mkField (disp 3 0 true false false) [49;50;115]).
Proof. reflexivity. Qed.

(** C22.  NUMERIC for COMP-3 items. *)
Theorem C22_numeric_packed : forall m nc f, a_type (fa f) = TPacked -> bytes_ok (fd f) -> fd f <> [] ->
  exists b, is_numeric m nc f = (b, f) /\
    (b = true <->
      (forall j, (j < f_size f - 1)%nat -> nth j (fd f) 0 / 16 <= 9 /\ nth j (fd f) 0 mod 16 <= 9) /\
      last (fd f) 0 / 16 <= 9 /\
      (last (fd f) 0 mod 16 = 15 \/
       (a_sign (fa f) = true /\ (last (fd f) 0 mod 16 = 12 \/ last (fd f) 0 mod 16 = 13)) \/
       (a_sign (fa f) = false /\ nc = true /\ last (fd f) 0 mod 16 = 12))).
Proof. exact is_numeric_packed. Qed.
Print Assumptions C22_numeric_packed.

(** Findings: NUMERIC accepts a space in the sign position and replaces it by a
    zero; with a separate sign it accepts any character there and replaces it
    by a minus sign; with EBCDIC overpunch any garbage is accepted and
    replaced. *)
Theorem C22_numeric_side_effect_refuted :
  is_numeric default_cfg false (mkField (disp 3 0 true false false) [49;50;32]) =
    (true, mkField (disp 3 0 true false false) [49;50;48]) /\
  is_numeric default_cfg false (mkField (disp 2 0 true true false) [49;50;88]) =
    (true, mkField (disp 2 0 true true false) [49;50;45]) /\
  is_numeric (mkCfg true true 46 44 36) false (mkField (disp 2 0 true false false) [49;33]) =
    (true, mkField (disp 2 0 true false false) [49;123]).
Proof. repeat split. Qed.
Print Assumptions C22_numeric_side_effect_refuted.

(** C23.  The comparison of SORT is the lexicographic order of the keys. *)
Theorem C23_key_order : forall m col ks r1 r2,
  Forall (fun k => key_ok m k r1) ks -> Forall (fun k => key_ok m k r2) ks ->
  exists c, sort_compare m col ks r1 r2 = Ok c /\
    (c < 0 <-> rec_lt m col ks r1 r2) /\ (c = 0 <-> rec_eq m col ks r1 r2) /\ (0 < c <-> rec_lt m col ks r2 r1).
Proof. exact sort_compare_spec. Qed.
Print Assumptions C23_key_order.
Theorem C23_total_preorder : forall m col ks r1 r2 r3 c12 c21 c23 c13,
  Forall (fun k => key_ok m k r1) ks -> Forall (fun k => key_ok m k r2) ks -> Forall (fun k => key_ok m k r3) ks ->
  sort_compare m col ks r1 r2 = Ok c12 -> sort_compare m col ks r2 r1 = Ok c21 ->
  sort_compare m col ks r2 r3 = Ok c23 -> sort_compare m col ks r1 r3 = Ok c13 ->
  Z.sgn c21 = - Z.sgn c12 /\ (c12 <= 0 -> c23 <= 0 -> c13 <= 0) /\
  (c12 <= 0 -> c23 < 0 -> c13 < 0) /\ (c12 < 0 -> c23 <= 0 -> c13 < 0) /\ (c12 = 0 -> c23 = 0 -> c13 = 0).
Proof. exact sort_compare_preorder. Qed.
Print Assumptions C23_total_preorder.
Definition ex_keys : list skey := [mkKey false (pack 3 0 true) 2 0; mkKey true alnum 2 2].
Example C23_ex : forall m, c_ebcdic m = false ->
  Forall (fun k => key_ok m k [18;60;65;66]) ex_keys /\ Forall (fun k => key_ok m k [18;61;65;67]) ex_keys /\
  sort_compare m None ex_keys [18;60;65;66] [18;61;65;67] = Ok (-1).
Proof.
  intros m E. split; [|split].
  - repeat constructor; simpl; try lia. exists 123.
    refine (den_packed _ (pack 3 0 true) false [1;2;3] _ _ _ _ _); try reflexivity; try discriminate.
    repeat constructor; discriminate.
  - repeat constructor; simpl; try lia. exists (-123).
    refine (den_packed _ (pack 3 0 true) true [1;2;3] _ _ _ _ _); try reflexivity; try discriminate.
    repeat constructor; discriminate.
  - reflexivity.
Qed.

(** C51, comparison: comparing with ALL literal is comparing with the literal
    repeated to the length of the other operand. *)
Theorem C51_compare_all : forall m col f lit, text_sender (a_type (fa f)) ->
  a_type (fa lit) = TAlnumAll -> fd lit <> [] ->
  let rep := map (fun i => nth (i mod length (fd lit)) (fd lit) 0) (seq 0 (f_size f)) in
  (exists c, cob_cmp m col (item f) (item lit) = Ok (c, f, lit) /\ cmp_agrees col (fd f) rep c) /\
  (exists c, cob_cmp m col (item lit) (item f) = Ok (c, lit, f) /\ cmp_agrees col rep (fd f) c).
Proof. exact cob_cmp_all_spec. Qed.
Print Assumptions C51_compare_all.
Theorem C51_compare_all_all : forall m col l1 l2, a_type (fa l1) = TAlnumAll -> a_type (fa l2) = TAlnumAll ->
  fd l1 <> [] -> fd l2 <> [] ->
  let n := Nat.max (f_size l1) (f_size l2) in
  let rep l := map (fun i => nth (i mod length (fd l)) (fd l) 0) (seq 0 n) in
  exists c, cob_cmp m col (item l1) (item l2) = Ok (c, l1, l2) /\ cmp_agrees col (rep l1) (rep l2) c.
Proof. exact cob_cmp_all_all. Qed.
Print Assumptions C51_compare_all_all.
(** ZERO with a numeric item compares numerically. *)
Theorem C51_compare_zero : forall m col f z v, denotes (c_ebcdic m) f v -> a_type (fa z) = TAlnumAll ->
  (exists c, cob_cmp m col (item f) (mkOpnd z true) = Ok (c, f, z) /\ Z.sgn c = Z.sgn v) /\
  (exists c, cob_cmp m col (mkOpnd z true) (item f) = Ok (c, z, f) /\ Z.sgn c = - Z.sgn v).
Proof.
  intros m col f z v D Z0. pose proof (StoreProofs.fetch_denotes m f v D) as FE.
  assert (S : Z.sgn (dec_cmp (mkDec v (a_scale (fa f))) (mkDec 0 0)) = Z.sgn v).
  { unfold dec_cmp, align_decimal, shift_decimal. cbn [dsc dv].
    destruct (Z.ltb_spec (a_scale (fa f)) 0).
    - destruct (Z.eqb_spec (0 - a_scale (fa f)) 0); [lia|].
      destruct (Z.ltb_spec 0 (0 - a_scale (fa f))); [|lia]. cbn [dv].
      assert (0 < 10 ^ (0 - a_scale (fa f))) by (apply Z.pow_pos_nonneg; lia).
      rewrite Z.sub_0_r, Z.sgn_mul. rewrite (Z.sgn_pos (10 ^ _)) by lia. rewrite Z.mul_1_r. now rewrite Z.sgn_sgn.
    - destruct (Z.ltb_spec 0 (a_scale (fa f))).
      + destruct (Z.eqb_spec (a_scale (fa f) - 0) 0); [lia|].
        destruct (Z.ltb_spec 0 (a_scale (fa f) - 0)); [|lia]. cbn [dv].
        rewrite Z.mul_0_l, Z.sub_0_r. apply Z.sgn_sgn.
      + cbn [dv]. rewrite Z.sub_0_r. apply Z.sgn_sgn. }
  assert (T := MoveNum.denotes_type _ _ _ D).
  assert (N1 : is_national (a_type (fa f)) = false) by (destruct T as [-> | [-> | ->]]; reflexivity).
  assert (N2 : is_numeric_type (a_type (fa f)) = true) by (destruct T as [-> | [-> | ->]]; reflexivity).
  assert (N3 : is_all f = false) by (unfold is_all; destruct T as [-> | [-> | ->]]; reflexivity).
  assert (N4 : is_all z = true) by (unfold is_all; now rewrite Z0).
  unfold cob_cmp, item. cbn [o_f o_zero]. rewrite Z0, N1, N2, N3, N4. cbn [is_national is_numeric_type andb orb].
  rewrite FE. cbn [obind fst snd]. split; eexists; (split; [reflexivity|]); [auto|].
  rewrite Z.sgn_opp. now rewrite S.
Qed.
Print Assumptions C51_compare_zero.
Example C51_ex_cmp : forall m, exists c,
  cob_cmp m None (item (mkField alnum [97;98;97])) (item (mkField all_lit [97;98])) =
    Ok (c, mkField alnum [97;98;97], mkField all_lit [97;98]) /\ c = 0.
Proof.
  intros. destruct (C51_compare_all m None (mkField alnum [97;98;97]) (mkField all_lit [97;98])) as ((c & E & _ & B & _) & _);
    try (left; reflexivity); try reflexivity; try discriminate.
  exists c. split; auto. apply B. intros i. destruct i as [|[|[|[|i]]]]; reflexivity.
Qed.

(** C49, the loop for items of equal, even length (other lengths and the UTF-8
    build: P_National).  What the Shift-JIS build computes: 1 if some double-byte character of the first operand exceeds the
    one at the same place of the second, 0 otherwise; never "less". *)
Theorem C49_sjis_equal_sizes : forall n s1 s2, length s1 = (2 * n)%nat -> length s2 = (2 * n)%nat ->
  exists c, national_cmps s1 s2 = Ok c /\ (c = 0 \/ c = 1) /\
    (c = 1 <-> exists i, (i < n)%nat /\ nth i (dbytes s2) 0 < nth i (dbytes s1) 0).
Proof. exact national_cmps_spec. Qed.
Print Assumptions C49_sjis_equal_sizes.
(** Findings: unequal items compare as equal; each of two items compares as
    greater than the other. *)
Theorem C49_not_an_order_refuted :
  (exists s1 s2, length s1 = 2%nat /\ length s2 = 2%nat /\ s1 <> s2 /\ national_cmps s1 s2 = Ok 0) /\
  (exists s1 s2, length s1 = 4%nat /\ length s2 = 4%nat /\
     national_cmps s1 s2 = Ok 1 /\ national_cmps s2 s1 = Ok 1).
Proof.
  split.
  - exists [130;160], [130;162]. repeat split. discriminate.
  - exists [130;160;130;162], [130;162;130;160]. repeat split.
Qed.
Print Assumptions C49_not_an_order_refuted.
