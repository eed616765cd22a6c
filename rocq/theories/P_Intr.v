(** Theorems C43 (INTEGER, INTEGER-PART, FRACTION-PART, MOD, REM), C47 (MIN, MAX
    and their positions), C56 (arithmetic in function arguments), C57 (SUM, ABS,
    SIGN, RANGE, FACTORIAL). *)
From Coq Require Import QArith Qabs Qround.
From Verif Require Import Base BaseFacts Field Sign Decimal SpecNum Numeric SpecStore NumFacts.
From Verif Require Import DispProofs DecProofs BinProofs PackedProofs StoreProofs Move Edited MoveAll SpecMove MoveBin MoveNum IntAccess P_Num P_Move.
From Verif Require Import Compare SpecCmp CmpProofs CmpMore MoveMore Dates SpecDate DatesProofs SpecIntr Intr IntrProofs IntrProofs2.
Local Open Scope Z_scope.

(** C43.  FUNCTION INTEGER is the floor: for arguments that are not negative,
    have at most one decimal, are integers, or whose first decimal is not zero. *)
Theorem C43_integer : forall m f v, let s := a_scale (fa f) in
  denotes (c_ebcdic m) f v -> -128 < s -> Z.abs (Qfloor (rat v s)) < 2 ^ 63 ->
  0 <= v \/ s <= 1 \/ v mod 10 ^ s = 0 \/ first_decimal v s <> 0 ->
  exists r, intr_integer m f = Ok r /\ holds_int (c_ebcdic m) r (Qfloor (rat v s)).
Proof.
  intros m f v s D HS HB HG. destruct (integer_spec m f v D HS HG HB) as (r & E & A & _ & R).
  exists r. split; auto. split; [exact R|]. rewrite A. reflexivity.
Qed.
Print Assumptions C43_integer.
(** -2.5 (S9(3)V9 COMP-3): -3. *)
Example C43_integer_ex : exists r, intr_integer default_cfg (mkField (pack 4 1 true) [0; 2; 93]) = Ok r /\
  get_int default_cfg r = Ok (-3, r).
Proof. eexists. split; [vm_compute; reflexivity|vm_compute; reflexivity]. Qed.
Example C43_integer_hyp : exists r, intr_integer default_cfg (mkField (pack 4 1 true) (packed (pack 4 1 true) true [0;0;2;5])) = Ok r /\
  holds_int false r (Qfloor (rat (-25) 1)).
Proof.
  apply (C43_integer default_cfg (mkField (pack 4 1 true) (packed (pack 4 1 true) true [0;0;2;5])) (-25)).
  - apply (den_packed false (pack 4 1 true) true [0;0;2;5]); try reflexivity; try discriminate.
    repeat constructor; unfold is_dig; lia.
  - cbn; lia.
  - vm_compute. reflexivity.
  - right. left. cbn. lia.
Qed.
(** Otherwise it is wrong: INTEGER (-1.005) gives -1. *)
Theorem C43_integer_refuted : exists f r, denotes false f (-1005) /\ a_scale (fa f) = 3 /\
  intr_integer default_cfg f = Ok r /\ holds_int false r (-1) /\ Qfloor (rat (-1005) 3) = -2.
Proof.
  exists (mkField (pack 5 3 true) (packed (pack 5 3 true) true [0;1;0;0;5])). eexists.
  split; [|split; [reflexivity|split; [vm_compute; reflexivity|split; [|vm_compute; reflexivity]]]].
  - apply (den_packed false (pack 5 3 true) true [0;1;0;0;5]); try reflexivity; try discriminate.
    repeat constructor; unfold is_dig; lia.
  - split; [|reflexivity].
    match goal with |- denotes _ (mkField ?a ?l) _ => apply (den_binary false a l) end; [reflexivity|cbn; lia|].
    repeat constructor; discriminate.
Qed.
Print Assumptions C43_integer_refuted.

(** INTEGER-PART truncates. *)
Theorem C43_integer_part : forall m f v w, denotes (c_ebcdic m) f v ->
  (a_type (fa f) = TPacked -> a_digits (fa f) <= 64) -> a_scale (fa f) <= digit_positions f ->
  trunc_at (rat v (a_scale (fa f))) 0 w -> Z.abs w < 10 ^ 18 ->
  exists r, intr_integer_part m f = Ok r /\ holds_int (c_ebcdic m) r w.
Proof.
  intros m f v w D HP HS T B. destruct (integer_part_spec m f v w D HP HS T B) as (r & E & A & _ & R).
  exists r. split; auto. split; auto. rewrite A. reflexivity.
Qed.
Print Assumptions C43_integer_part.
Example C43_integer_part_ex : exists r, intr_integer_part default_cfg (mkField (pack 5 3 true) (packed (pack 5 3 true) true [4;1;9;9;5])) = Ok r /\
  get_int default_cfg r = Ok (-41, r).
Proof. eexists. split; [vm_compute; reflexivity|vm_compute; reflexivity]. Qed.

(** FRACTION-PART: the part after the decimal point, with its sign, when the
    argument is below 9.2 in magnitude and binary truncation is on. *)
Theorem C43_fraction_part : forall m f v k w, denotes (c_ebcdic m) f v -> c_bintrunc m = true ->
  (a_type (fa f) = TPacked -> a_digits (fa f) <= 64) -> a_scale (fa f) <= digit_positions f + 18 ->
  trunc_at (rat v (a_scale (fa f))) 0 k -> trunc_at (rat v (a_scale (fa f))) 18 w -> Z.abs w < 2 ^ 63 ->
  exists r, intr_fraction_part m f = Ok r /\ a_scale (fa r) = 18 /\ denotes (c_ebcdic m) r (w - k * 10 ^ 18).
Proof.
  intros m f v k w D BT HP HS TK TW BW. unfold intr_fraction_part. set (fp := fresh (bin_attr 18 18 true) 8).
  assert (NI : numeric_item fp) by (apply bin8_item; lia).
  assert (KD : forall x, kept_digits m fp x = Z.rem x (10 ^ 18)).
  { intros x. unfold kept_digits. cbn [fp fresh bin_attr fa a_type a_realbin a_digits]. rewrite BT. cbn [andb negb].
    now rewrite rem_low_part by lia. }
  assert (KW : k = Z.quot w (10 ^ 18)).
  { pose proof (trunc_at_twice _ 18 0 _ ltac:(lia) TW) as T2. exact (trunc_at_unique _ _ _ _ TK T2). }
  assert (E : w - k * 10 ^ 18 = Z.rem w (10 ^ 18)) by (rewrite KW; pose proof (Z.quot_rem' w (10 ^ 18)); lia).
  destruct (cob_move_numeric m f fp v D NI) as (r & ER & A & SZ & R); auto.
  - intros _ X. discriminate X.
  - intros _. split; [|split].
    + cbn [fp fresh bin_attr fa a_scale]. lia.
    + intros _. cbn [fp fresh bin_attr fa a_digits]. lia.
    + intros w' T'. change (a_scale (fa fp)) with 18 in T'. rewrite (trunc_at_unique _ _ _ _ T' TW). split; auto.
      rewrite KD. unfold bin_range, bits. change (f_size fp) with 8%nat. cbn [fp fresh bin_attr fa a_sign].
      change (2 ^ (8 * Z.of_nat 8 - 1)) with 9223372036854775808.
      assert (P : 0 < 10 ^ 18) by reflexivity. pose proof (Z.rem_bound_abs w (10 ^ 18) ltac:(lia)).
      change (Z.abs (10 ^ 18)) with 1000000000000000000 in *. lia.
  - exists r. rewrite ER. cbn [obind snd]. split; auto. split; [rewrite A; reflexivity|].
    rewrite E, <- KD. apply R. exact TW.
Qed.
Print Assumptions C43_fraction_part.
Example C43_fraction_part_ex : exists r, intr_fraction_part default_cfg (mkField (pack 5 3 true) (packed (pack 5 3 true) true [0;3;1;2;5])) = Ok r /\
  binary_get_int64 r = -125000000000000000.
Proof. eexists. split; [vm_compute; reflexivity|vm_compute; reflexivity]. Qed.
(** Larger arguments: the 64-bit conversion of 12.5 overflows, undefined behaviour. *)
Theorem C43_fraction_part_refuted : exists f, denotes false f 125 /\ a_scale (fa f) = 1 /\
  intr_fraction_part default_cfg f = UB.
Proof.
  exists (mkField (pack 3 1 true) (packed (pack 3 1 true) false [1;2;5])).
  split; [|split; [reflexivity|vm_compute; reflexivity]].
  apply (den_packed false (pack 3 1 true) false [1;2;5]); try reflexivity; try discriminate.
  repeat constructor; unfold is_dig; lia.
Qed.
Print Assumptions C43_fraction_part_refuted.

(** FUNCTION MOD (a, b) = a - b * INTEGER (a / b), which has the sign of b
    ([Z.modulo]), when the signs agree, b divides a, or the first decimal of
    a / b is not zero. *)
Theorem C43_mod : forall m over f1 f2 a b,
  holds_int (c_ebcdic m) f1 a -> holds_int (c_ebcdic m) f2 b -> b <> 0 ->
  Z.abs a < 10 ^ 18 -> Z.abs b < 10 ^ 18 ->
  0 <= a * b \/ a mod b = 0 \/ Z.abs b <= 10 * (Z.abs a mod Z.abs b) ->
  exists r, intr_mod m over f1 f2 = Ok r /\ holds_int (c_ebcdic m) r (a mod b).
Proof.
  intros m over f1 f2 a b (D1 & S1) (D2 & S2) NZ BA BB H.
  destruct (mod_spec m over f1 f2 a b D1 D2 S1 S2 NZ BA BB H) as (r & E & A & D).
  exists r. split; auto. split; auto. rewrite A. reflexivity.
Qed.
Print Assumptions C43_mod.
Example C43_mod_ex : exists r, intr_mod default_cfg false (mkField (pack 3 0 true) (packed (pack 3 0 true) true [0;1;7]))
    (mkField (pack 3 0 true) (packed (pack 3 0 true) false [0;0;5])) = Ok r /\
  get_int default_cfg r = Ok (3, r) /\ (-17) mod 5 = 3.
Proof. eexists. split; [vm_compute; reflexivity|split; [vm_compute; reflexivity|reflexivity]]. Qed.
Theorem C43_mod_refuted : exists f1 f2 r, holds_int false f1 (-101) /\ holds_int false f2 100 /\
  intr_mod default_cfg false f1 f2 = Ok r /\ holds_int false r (-1) /\ (-101) mod 100 = 99.
Proof.
  exists (mkField (pack 3 0 true) (packed (pack 3 0 true) true [1;0;1])),
         (mkField (pack 3 0 true) (packed (pack 3 0 true) false [1;0;0])). eexists.
  split; [|split; [|split; [vm_compute; reflexivity|split; [|reflexivity]]]].
  - split; [|reflexivity]. apply (den_packed false (pack 3 0 true) true [1;0;1]); try reflexivity; try discriminate.
    repeat constructor; unfold is_dig; lia.
  - split; [|reflexivity]. apply (den_packed false (pack 3 0 true) false [1;0;0]); try reflexivity; try discriminate.
    repeat constructor; unfold is_dig; lia.
  - split; [|reflexivity].
    match goal with |- denotes _ (mkField ?a ?l) _ => apply (den_binary false a l) end; [reflexivity|cbn; lia|].
    repeat constructor; discriminate.
Qed.
Print Assumptions C43_mod_refuted.

(** FUNCTION REM (a, b) = a - b * INTEGER-PART (a / b). *)
Theorem C43_rem : forall m over f1 f2 va vb w v,
  denotes (c_ebcdic m) f1 va -> denotes (c_ebcdic m) f2 vb -> vb <> 0 ->
  let sa := a_scale (fa f1) in let sb := a_scale (fa f2) in
  let A := rat va sa in let B := rat vb sb in
  -100 <= sa <= 100 -> -100 <= sb <= 100 -> sa - sb <= 90 -> Z.abs va < 10 ^ 1500 ->
  trunc_at (A / B) 0 w -> Z.abs w < 10 ^ 18 ->
  (rat v (Z.max sa sb) == A - inject_Z w * B)%Q -> Z.abs v < 2 ^ 63 ->
  exists r, intr_rem m over f1 f2 = Ok r /\ number_in (c_ebcdic m) r (A - inject_Z w * B).
Proof.
  intros m over f1 f2 va vb w v D1 D2 NZ sa sb A B HA HB HAB BA TW BW EV BV.
  destruct (rem_spec m over f1 f2 va vb w v D1 D2 NZ HA HB HAB BA TW BW EV BV) as (r & E & D & S).
  exists r. split; auto. exists v. split; auto. rewrite S. exact EV.
Qed.
Print Assumptions C43_rem.
Example C43_rem_ex : exists r, intr_rem default_cfg false (mkField (pack 5 2 true) (packed (pack 5 2 true) true [0;1;7;2;5]))
    (mkField (pack 3 0 true) (packed (pack 3 0 true) false [0;0;5])) = Ok r /\
  binary_get_int64 r = -225 /\ a_scale (fa r) = 2.
Proof. eexists. split; [vm_compute; reflexivity|split; [vm_compute; reflexivity|reflexivity]]. Qed.

(** ** C47 *)
Lemma text_cmp_ok : forall m col x y, text_sender (a_type (fa x)) -> text_sender (a_type (fa y)) ->
  exists c, cob_cmp m col (item x) (item y) = Ok (c, x, y) /\ cmp_agrees col (fd x) (fd y) c.
Proof. intros m col x y X Y. eexists. split; [apply cob_cmp_text; auto|apply cmp_simple_str_agrees]. Qed.
Lemma text_neg_trans : forall col x y z, ~ text_lt col x y -> ~ text_lt col y z -> ~ text_lt col x z.
Proof.
  intros col x y z H1 H2 H3. destruct (cmp_simple_str_agrees col x y) as (A & B & C).
  destruct (Z.lt_trichotomy (cmp_simple_str col x y) 0) as [L|[L|L]]; [tauto| |].
  - apply B in L. apply H2. apply (text_eq_lt col y x z); auto. now apply text_eq_sym.
  - apply C in L. apply H2. eapply text_lt_trans; eauto.
Qed.
Definition text_less (col : option (list Z)) (x y : field) : Prop := text_lt col (fd x) (fd y).
Definition text_more (col : option (list Z)) (x y : field) : Prop := text_lt col (fd y) (fd x).

(** All-text argument lists: MIN (MAX) chooses the first of the smallest
    (greatest) arguments, and the arguments are unchanged. *)
Theorem C47_text : forall m col args, args <> [] -> Forall (fun f => text_sender (a_type (fa f))) args ->
  (exists k, intr_min m col args = Ok (k, args) /\ (k < length args)%nat /\ first_best (text_less col) args k) /\
  (exists k, intr_max m col args = Ok (k, args) /\ (k < length args)%nat /\ first_best (text_more col) args k).
Proof.
  intros m col args NE F. rewrite Forall_forall in F. split; apply best_spec; auto; unfold text_less, text_more.
  - intros x y X Y. destruct (text_cmp_ok m col x y (F x X) (F y Y)) as (c & E & (A & _)). exists c. split; auto.
    unfold lt0. rewrite <- A. apply Z.ltb_lt.
  - intros x y z _ _ _. apply text_lt_trans.
  - intros x y z _ _ _. apply text_neg_trans.
  - intros x _. apply text_lt_irrefl.
  - intros x y X Y. destruct (text_cmp_ok m col x y (F x X) (F y Y)) as (c & E & (_ & _ & A)). exists c. split; auto.
    unfold gt0. rewrite <- A. apply Z.ltb_lt.
  - intros x y z _ _ _ P Q. eapply text_lt_trans; eauto.
  - intros x y z _ _ _ P Q. eapply text_neg_trans; eauto.
  - intros x _. apply text_lt_irrefl.
Qed.
Print Assumptions C47_text.

Definition num_less (ebc : bool) (x y : field) : Prop :=
  exists p q, number_in ebc x p /\ number_in ebc y q /\ (p < q)%Q.
Definition num_more (ebc : bool) (x y : field) : Prop := num_less ebc y x.
Lemma num_less_iff : forall ebc x y v w, denotes ebc x v -> denotes ebc y w ->
  (num_less ebc x y <-> (rat v (a_scale (fa x)) < rat w (a_scale (fa y)))%Q).
Proof.
  intros ebc x y v w X Y. split.
  - intros (p & q & (v' & DV & EV) & (w' & DW & EW) & L).
    rewrite (denotes_unique _ _ _ _ X DV), (denotes_unique _ _ _ _ Y DW). rewrite EV, EW. exact L.
  - intros L. exists (rat v (a_scale (fa x))), (rat w (a_scale (fa y))).
    split; [exists v; split; [auto|reflexivity]|split; [exists w; split; [auto|reflexivity]|auto]].
Qed.
Lemma num_cmp_ok : forall m col x y v w, denotes (c_ebcdic m) x v -> denotes (c_ebcdic m) y w ->
  exists c, cob_cmp m col (item x) (item y) = Ok (c, x, y) /\
    (c < 0 <-> num_less (c_ebcdic m) x y) /\ (0 < c <-> num_less (c_ebcdic m) y x).
Proof.
  intros m col x y v w X Y. unfold cob_cmp, item. cbn [o_f o_zero].
  assert (TN : forall f u, denotes (c_ebcdic m) f u -> is_national (a_type (fa f)) = false /\ is_numeric_type (a_type (fa f)) = true).
  { intros f u D. inversion D; subst; cbn [fa]; match goal with H : a_type _ = _ |- _ => rewrite H end; auto. }
  destruct (TN x v X) as (A1 & A2). destruct (TN y w Y) as (B1 & B2). rewrite A1, A2, B1, B2. cbn [orb andb].
  rewrite (C02_fetch_exact m x v X), (C02_fetch_exact m y w Y). cbn [obind fst snd]. eexists. split; [reflexivity|].
  rewrite (num_less_iff _ _ _ _ _ X Y), (num_less_iff _ _ _ _ _ Y X).
  set (d1 := mkDec v (a_scale (fa x))). set (d2 := mkDec w (a_scale (fa y))).
  pose proof (dec_cmp_spec d1 d2) as (C1 & C2 & C3). unfold decQ in *. cbn [d1 d2 dv dsc] in C1, C2, C3. fold d1 d2 in C1, C2, C3.
  rewrite <- C1, <- C3. assert (R : -1 <= dec_cmp d1 d2 <= 1).
  { unfold dec_cmp. destruct (align_decimal d1 d2). lia. }
  lia.
Qed.

(** All-numeric argument lists of any usages and scales. *)
Theorem C47_numeric : forall m col args, args <> [] -> Forall (fun f => exists v, denotes (c_ebcdic m) f v) args ->
  (exists k, intr_min m col args = Ok (k, args) /\ (k < length args)%nat /\ first_best (num_less (c_ebcdic m)) args k) /\
  (exists k, intr_max m col args = Ok (k, args) /\ (k < length args)%nat /\ first_best (num_more (c_ebcdic m)) args k).
Proof.
  intros m col args NE F. rewrite Forall_forall in F.
  assert (TR : forall x y z, In x args -> In y args -> In z args ->
    num_less (c_ebcdic m) x y -> num_less (c_ebcdic m) y z -> num_less (c_ebcdic m) x z).
  { intros x y z X Y Z. destruct (F x X) as (vx & DX). destruct (F y Y) as (vy & DY). destruct (F z Z) as (vz & DZ).
    rewrite (num_less_iff _ _ _ _ _ DX DY), (num_less_iff _ _ _ _ _ DY DZ), (num_less_iff _ _ _ _ _ DX DZ). apply Qlt_trans. }
  assert (NT : forall x y z, In x args -> In y args -> In z args ->
    ~ num_less (c_ebcdic m) x y -> ~ num_less (c_ebcdic m) y z -> ~ num_less (c_ebcdic m) x z).
  { intros x y z X Y Z. destruct (F x X) as (vx & DX). destruct (F y Y) as (vy & DY). destruct (F z Z) as (vz & DZ).
    rewrite (num_less_iff _ _ _ _ _ DX DY), (num_less_iff _ _ _ _ _ DY DZ), (num_less_iff _ _ _ _ _ DX DZ).
    intros P Q R. apply Qnot_lt_le in P. apply Qnot_lt_le in Q. apply (Qlt_not_le _ _ R). eapply Qle_trans; eauto. }
  assert (IR : forall x, In x args -> ~ num_less (c_ebcdic m) x x).
  { intros x X. destruct (F x X) as (vx & DX). rewrite (num_less_iff _ _ _ _ _ DX DX). apply Qlt_irrefl. }
  split; apply best_spec; auto; unfold num_more.
  - intros x y X Y. destruct (F x X) as (vx & DX). destruct (F y Y) as (vy & DY).
    destruct (num_cmp_ok m col x y vx vy DX DY) as (c & E & A & _). exists c. split; auto.
    unfold lt0. rewrite <- A. apply Z.ltb_lt.
  - intros x y X Y. destruct (F x X) as (vx & DX). destruct (F y Y) as (vy & DY).
    destruct (num_cmp_ok m col x y vx vy DX DY) as (c & E & _ & A). exists c. split; auto.
    unfold gt0. rewrite <- A. apply Z.ltb_lt.
  - intros x y z X Y Z P Q. apply (TR z y x); auto.
  - intros x y z X Y Z P Q. apply (NT z y x); auto.
Qed.
Print Assumptions C47_numeric.
Example C47_ex : let a := mkField alnum [65; 66] in let b := mkField alnum [65] in
  intr_min default_cfg None [a; b; b; a] = Ok (1%nat, [a; b; b; a]) /\
  intr_max default_cfg None [a; b; b; a] = Ok (0%nat, [a; b; b; a]).
Proof. split; vm_compute; reflexivity. Qed.

(** ORD-MIN and ORD-MAX: the position, counted from 1, of the argument that MIN and
    MAX choose, when there are at least two arguments. *)
Theorem C47_ord : forall m col args k, (2 <= length args)%nat -> Z.of_nat (length args) < 100000000 ->
  (intr_min m col args = Ok (k, args) -> (k < length args)%nat ->
    exists r, intr_ord_min m col args = Ok r /\ holds_int (c_ebcdic m) r (Z.of_nat k + 1)) /\
  (intr_max m col args = Ok (k, args) -> (k < length args)%nat ->
    exists r, intr_ord_max m col args = Ok r /\ holds_int (c_ebcdic m) r (Z.of_nat k + 1)).
Proof.
  intros m col args k L2 LB. unfold intr_ord_min, intr_ord_max, intr_ord, intr_min, intr_max.
  destruct (Nat.leb_spec (length args) 1); [lia|].
  assert (W : (k < length args)%nat -> exists r, set_int m res_int (Z.of_nat k + 1) = Ok r /\ holds_int (c_ebcdic m) r (Z.of_nat k + 1)).
  { intros KL. destruct (int_result_spec m (Z.of_nat k + 1) false) as (r & E & H1); [lia|].
    unfold int_result in E. destruct (set_int m res_int (Z.of_nat k + 1)); cbn [obind] in E; try discriminate.
    injection E as <-. eauto. }
  split; intros E KL; rewrite E; cbn [obind fst]; auto.
Qed.
Print Assumptions C47_ord.
Example C47_ord_ex : let a := mkField alnum [65; 66] in let b := mkField alnum [65] in
  exists r, intr_ord_min default_cfg None [a; b; b; a] = Ok r /\ get_int default_cfg r = Ok (2, r).
Proof. cbv zeta. eexists. split; [vm_compute; reflexivity|vm_compute; reflexivity]. Qed.
(** With a single argument they give 0: there is no argument number 0. *)
Theorem C47_ord_one_refuted : forall m col f, exists r,
  intr_ord_min m col [f] = Ok r /\ intr_ord_max m col [f] = Ok r /\ holds_int (c_ebcdic m) r 0.
Proof.
  intros m col f. destruct (int_result_spec m 0 false) as (r & E & H1); [lia|].
  unfold int_result in E. unfold intr_ord_min, intr_ord_max, intr_ord. cbn [length Nat.leb].
  destruct (set_int m res_int 0); cbn [obind] in E; try discriminate. injection E as <-. eauto.
Qed.
Print Assumptions C47_ord_one_refuted.

(** ** C56: arithmetic expressions as function arguments *)
Theorem C56_expression : forall m over f1 f2 v1 v2 w, denotes (c_ebcdic m) f1 v1 -> denotes (c_ebcdic m) f2 v2 ->
  let s1 := a_scale (fa f1) in let s2 := a_scale (fa f2) in
  let A := rat v1 s1 in let B := rat v2 s2 in
  -128 < s1 -> -128 < s2 -> Z.abs w < NUM_LIMIT ->
  (Z.max s1 s2 <= 127 -> (rat w (Z.max s1 s2) == A + B)%Q ->
     exists r, binop m over f1 OpAdd f2 = Ok r /\ number_in (c_ebcdic m) r (A + B)) /\
  (Z.max s1 s2 <= 127 -> (rat w (Z.max s1 s2) == A - B)%Q ->
     exists r, binop m over f1 OpSub f2 = Ok r /\ number_in (c_ebcdic m) r (A - B)) /\
  (-128 < s1 + s2 <= 127 -> (rat w (s1 + s2) == A * B)%Q ->
     exists r, binop m over f1 OpMul f2 = Ok r /\ number_in (c_ebcdic m) r (A * B)).
Proof.
  intros m over f1 f2 v1 v2 w D1 D2 s1 s2 A B H1 H2 HW.
  destruct (C05_arithmetic_exact v1 s1 v2 s2 ltac:(lia) ltac:(lia)) as (XA & XS & XM). cbv zeta in XA, XS, XM. fold A B in XA, XS, XM.
  assert (G : forall op d S q, binop_dec op (mkDec v1 s1) (mkDec v2 s2) = Ok d -> dsc d = S -> -128 < S <= 127 ->
     (rat (dv d) (dsc d) == q)%Q -> (rat w S == q)%Q -> exists r, binop m over f1 op f2 = Ok r /\ number_in (c_ebcdic m) r q).
  { intros op d S q E ES HS EQ EW. assert (DW : dv d = w).
    { rewrite ES in EQ. apply (rat_eq (dv d) w S). rewrite EQ, EW. reflexivity. }
    destruct (binop_run m over f1 f2 v1 v2 op d D1 D2 E) as (r & ER & DR & SR & _); [lia|rewrite DW; auto|].
    exists r. split; auto. exists (dv d). split; auto. rewrite SR. exact EQ. }
  split; [|split]; intros HS EW.
  - eapply (G OpAdd); [reflexivity|apply dec_add_scale; lia|lia|exact XA|exact EW].
  - eapply (G OpSub); [reflexivity|apply dec_sub_scale; lia|lia|exact XS|exact EW].
  - eapply (G OpMul); [reflexivity|apply dec_mul_scale; lia|lia|exact XM|exact EW].
Qed.
Print Assumptions C56_expression.
(** Quotients are truncated after at least 37 decimals. *)
Theorem C56_quotient : forall m over f1 f2 v1 v2, denotes (c_ebcdic m) f1 v1 -> denotes (c_ebcdic m) f2 v2 -> v2 <> 0 ->
  let s1 := a_scale (fa f1) in let s2 := a_scale (fa f2) in
  -100 <= s1 <= 127 -> -100 <= s2 <= 127 -> s1 - s2 <= 90 -> Z.abs v1 < 10 ^ 1500 ->
  exists r v, binop m over f1 OpDiv f2 = Ok r /\ denotes (c_ebcdic m) r v /\
    trunc_at (rat v1 s1 / rat v2 s2) (a_scale (fa r)) v /\ (v1 <> 0 -> 37 <= a_scale (fa r)).
Proof.
  intros m over f1 f2 v1 v2 D1 D2 NZ s1 s2 H1 H2 H12 HB.
  destruct (dec_div_shape v1 s1 v2 s2 ltac:(lia) ltac:(lia) NZ) as (SD & BD).
  destruct (dec_div_spec (mkDec v1 s1) (mkDec v2 s2)) as (_ & TD & T37 & _); unfold not_nan; cbn [dsc dv]; unfold DECIMAL_NAN; try lia.
  cbv zeta in SD, BD. set (d := fst (dec_div (mkDec v1 s1) (mkDec v2 s2))) in *.
  assert (LD : Z.abs (dv d) < NUM_LIMIT).
  { apply Z.le_lt_trans with (1 := BD). apply big_limit; [auto|lia]. }
  destruct (binop_run m over f1 f2 v1 v2 OpDiv d D1 D2) as (q & EQ & DQ & SQ & _); auto; try lia.
  exists q, (dv d). split; auto. split; auto. rewrite SQ. auto.
Qed.
Print Assumptions C56_quotient.
Definition dg (v : Z) : field := mkField (disp 1 0 false false false) [48 + v].
Example C56_ex : exists r, binop default_cfg false (dg 2) OpDiv (dg 3) = Ok r /\
  fd r = repeat 54 37 /\ a_scale (fa r) = 37.
Proof. eexists. split; [vm_compute; reflexivity|split; vm_compute; reflexivity]. Qed.
(** Deeper nesting is wrong: the scale of an intermediate result is kept in a
    signed char; 1 / 3 / 3 / 3 / 3 (which is above 0.01) comes out as 0. *)
Theorem C56_nested_quotients_refuted : exists r1 r2 r3 r4,
  binop default_cfg false (dg 1) OpDiv (dg 3) = Ok r1 /\ binop default_cfg false r1 OpDiv (dg 3) = Ok r2 /\
  binop default_cfg false r2 OpDiv (dg 3) = Ok r3 /\ binop default_cfg false r3 OpDiv (dg 3) = Ok r4 /\
  number_in false r4 0 /\ (1 # 100 < 1 / 3 / 3 / 3 / 3)%Q.
Proof.
  do 4 eexists. split; [vm_compute; reflexivity|]. split; [vm_compute; reflexivity|]. split; [vm_compute; reflexivity|].
  split; [vm_compute; reflexivity|]. split; [|vm_compute; reflexivity]. exists 0. split; [|apply rat_zero].
  match goal with |- denotes _ (mkField ?a ?l) _ =>
    assert (E : l = zoned false a false (map (fun c => c - 48) l)) by (vm_compute; reflexivity);
    pose proof (den_display false a false (map (fun c => c - 48) l)) as D; rewrite <- E in D;
    apply D; try reflexivity; try discriminate; repeat constructor; discriminate
  end.
Qed.
Print Assumptions C56_nested_quotients_refuted.

(** ** C57: SUM, ABS, SIGN *)
Theorem C57_sum : forall m over fs qs w, Forall2 (number_in (c_ebcdic m)) fs qs ->
  Forall (fun f => -128 < a_scale (fa f)) fs ->
  (rat w (fold_right (fun f => Z.max (a_scale (fa f))) 0%Z fs) == Qsum qs)%Q -> Z.abs w < NUM_LIMIT ->
  exists r, intr_sum m over fs = Ok r /\ number_in (c_ebcdic m) r (Qsum qs).
Proof.
  intros m over fs qs w F S EW BW. unfold intr_sum.
  destruct (sum_loop_spec m fs qs (mkDec 0 0) 0 F S) as (d & E & SC & Q); [reflexivity|lia|].
  rewrite E. cbn [obind fst snd]. rewrite rat_zero, Qplus_0_l in Q.
  assert (DW : dv d = w). { apply (rat_eq (dv d) w (dsc d)). rewrite Q, SC, EW. reflexivity. }
  assert (S0 : 0 <= dsc d). { rewrite SC. clear. induction fs; cbn [fold_right]; lia. }
  destruct (sum_field_spec m over d) as (r & ER & DR & SR); [lia|rewrite DW; auto|].
  rewrite ER. cbn [obind st_f]. exists r. split; auto. exists (dv d). split; auto. rewrite SR. exact Q.
Qed.
Print Assumptions C57_sum.
Example C57_sum_ex : exists r, intr_sum default_cfg false [dg 2; mkField (pack 3 2 true) (packed (pack 3 2 true) true [1;2;5]); dg 9] = Ok r /\
  binary_get_int64 r = 975 /\ a_scale (fa r) = 2.
Proof. eexists. split; [vm_compute; reflexivity|split; vm_compute; reflexivity]. Qed.

Lemma denotes_wf : forall e f v, denotes e f v -> 0 <= a_digits (fa f) < 36 \/ a_type (fa f) <> TBinary -> numeric_item f.
Proof.
  intros e f v D HD. inversion D as [a neg ds T NE FD NG SP|a neg ds T NE FD LD NG|a l T LL BL]; subst; cbn [fa] in *.
  - apply (ni_display _ (length ds)). split; [auto|]. split; [exact SP|]. split; [destruct ds; [congruence|cbn [length]; lia]|].
    cbn [fd fa]. apply zoned_length; auto.
  - apply (ni_packed _ (length ds)). repeat split; cbn [fa]; auto.
    + destruct ds; [congruence|cbn [length]; lia].
    + unfold f_size. cbn [fd]. apply packed_length.
  - apply ni_binary. split; [auto|]. unfold f_size. cbn [fd fa]. split; [auto|]. destruct HD as [HD|HD]; [exact HD|congruence].
Qed.

Lemma bin_value_range : forall a l, (1 <= length l <= 8)%nat -> bytes_ok l ->
  let w := 2 ^ (8 * Z.of_nat (length l) - 1) in
  if a_sign a then - w <= bin_value (a_sign a) (a_swap a) l < w else 0 <= bin_value (a_sign a) (a_swap a) l < 2 ^ (8 * Z.of_nat (length l)).
Proof.
  intros a l HL HB w. pose proof (bin_unsigned_bound (a_swap a) l HB) as B. unfold bin_value.
  assert (E : 256 ^ Z.of_nat (length l) = 2 * w).
  { subst w. change 256 with (2 ^ 8). rewrite <- Z.pow_mul_r by lia.
    replace (8 * Z.of_nat (length l)) with (1 + (8 * Z.of_nat (length l) - 1)) at 1 by lia. rewrite Z.pow_add_r by lia. reflexivity. }
  assert (E2 : 2 ^ (8 * Z.of_nat (length l)) = 2 * w).
  { rewrite <- E. change 256 with (2 ^ 8). now rewrite <- Z.pow_mul_r by lia. }
  rewrite E in *. rewrite E2. replace (2 * w / 2) with w by (rewrite Z.mul_comm, Z.div_mul; lia).
  destruct (a_sign a); cbn [andb]; [|lia]. destruct (Z.leb_spec w (bin_unsigned (a_swap a) l)); lia.
Qed.
(** ABS: the result has the description of the argument. *)
Theorem C57_abs : forall m f v, denotes (c_ebcdic m) f v -> a_scale (fa f) <> -128 -> Z.abs v < NUM_LIMIT ->
  (a_type (fa f) = TBinary -> 0 <= a_digits (fa f) < 36 /\ Z.abs v <> 2 ^ (bits f - 1)) ->
  exists r, intr_abs m f = Ok r /\ fa r = fa f /\ denotes (c_ebcdic m) r (Z.abs v).
Proof.
  intros m f v D NS BV HB. unfold intr_abs. rewrite (C02_fetch_exact m f v D). cbn [obind fst dv dsc].
  set (g := fresh (fa f) (f_size f)).
  assert (NI : numeric_item f).
  { apply (denotes_wf _ _ _ D). destruct (a_type (fa f)) eqn:T; try (right; discriminate). left. apply HB. reflexivity. }
  assert (SG : f_size g = f_size f) by (subst g; apply fresh_size).
  assert (NG : numeric_item g) by (apply (numeric_item_same f g); auto; reflexivity).
  assert (F : fits m no_opt g (Z.abs v)).
  { inversion D as [a neg ds T NE FD NGV SP|a neg ds T NE FD LD NGV|a l T LL BL]; subst; cbn [fa] in *.
    - apply (fit_display m no_opt g _ (length ds)).
      + split; [exact T|]. split; [exact SP|]. split; [destruct ds; [congruence|cbn [length]; lia]|].
        unfold f_size in SG. cbn [fd] in SG. rewrite SG. cbn [g fresh fa]. apply zoned_length; auto.
      + rewrite Z.abs_involutive. pose proof (digits_value_bound ds FD). unfold signed_value. destruct neg; lia.
    - apply (fit_packed m no_opt g _ (length ds)).
      + repeat split; auto; [destruct ds; [congruence|cbn [length]; lia]|]. rewrite SG. unfold f_size. cbn [fd]. apply packed_length.
      + rewrite Z.abs_involutive. pose proof (digits_value_bound ds FD). unfold signed_value. destruct neg; lia.
    - destruct (HB T) as (H1 & H2). apply fit_binary.
      + split; [exact T|]. split; [|exact H1]. rewrite SG. exact LL.
      + split; [|discriminate]. unfold bin_range, bits in *. rewrite SG. cbn [g fresh fa]. pose proof (bin_value_range a l LL BL) as R.
        unfold f_size in *. cbn [fd] in *. destruct (a_sign a); lia. }
  destruct (store_exact m (mkDec (Z.abs v) (a_scale (fa f))) g) as (r & E & A & _ & R); auto; cbn [dv dsc]; try lia.
  cbn [dv dsc] in *. rewrite E. cbn [obind st_f]. exists r. split; auto. split; [rewrite A; reflexivity|].
  unfold held in R. rewrite Z.abs_involutive in R. destruct (a_sign (fa g)); exact R.
Qed.
Print Assumptions C57_abs.

(** SIGN is -1, 0 or 1. *)
Theorem C57_sign : forall m col f v, denotes (c_ebcdic m) f v ->
  exists r, intr_sign m col f = Ok r /\ holds_int (c_ebcdic m) r (Z.sgn v).
Proof.
  intros m col f v D. unfold intr_sign. set (z := fresh (bin_attr 8 0 true) 4).
  assert (NI : numeric_item z).
  { apply ni_binary. split; [reflexivity|]. unfold z. rewrite fresh_size. cbn [fresh bin_attr fa a_digits]. lia. }
  assert (SI : forall g n, numeric_item g -> fa g = fa z -> f_size g = 4%nat -> -1 <= n <= 1 ->
    exists g', set_int m g n = Ok g' /\ fa g' = fa z /\ f_size g' = 4%nat /\ numeric_item g' /\ holds_int (c_ebcdic m) g' n).
  { intros g n NG AG SG HN. assert (KD : kept_digits m g n = n).
    { unfold kept_digits. rewrite AG. cbn [z fresh bin_attr fa a_type a_realbin a_digits]. destruct (c_bintrunc m && negb false); auto.
      apply low_part_fits. change (10 ^ Z.of_nat (Z.to_nat 8)) with 100000000. lia. }
    assert (SC : a_scale (fa g) = 0) by (rewrite AG; reflexivity).
    assert (T0 : trunc_at (rat n 0) 0 n) by apply trunc_id.
    destruct (C52_set_int m g n) as (g' & E & A & SZ & R); auto.
    - unfold is_int, INT_MIN, INT_MAX. lia.
    - intros _. rewrite SC. split; [|split].
      + rewrite AG. cbn [z fresh bin_attr fa a_digits]. lia.
      + lia.
      + intros w T. rewrite (trunc_at_unique _ _ _ _ T T0). split; [lia|]. rewrite KD. unfold bin_range, bits. rewrite AG, SG.
        cbn [z fresh bin_attr fa a_sign]. change (8 * Z.of_nat 4 - 1) with 31. lia.
    - exists g'. split; auto. split; [congruence|]. split; [congruence|].
      split; [apply (numeric_item_same g g'); congruence|]. split; [|rewrite A; exact SC].
      rewrite SC in R. specialize (R n T0). rewrite KD in R. unfold held in R. rewrite AG in R. exact R. }
  assert (SZ : f_size z = 4%nat) by reflexivity.
  destruct (SI z 0 NI eq_refl SZ ltac:(lia)) as (z' & E0 & A0 & S0 & N0 & (D0 & C0)). rewrite E0. cbn [obind].
  destruct (num_cmp_ok m col f z' v 0 D D0) as (c & EC & L & G). rewrite EC. cbn [obind].
  rewrite (num_less_iff _ _ _ _ _ D D0) in L. rewrite (num_less_iff _ _ _ _ _ D0 D) in G. rewrite rat_zero in L, G.
  rewrite <- (rat_zero (a_scale (fa f))), rat_lt in L, G.
  destruct (Z.ltb_spec c 0); [|destruct (Z.ltb_spec 0 c)].
  - destruct (SI z' (-1) N0 A0 S0 ltac:(lia)) as (r & E & _ & _ & _ & H1). exists r. rewrite Z.sgn_neg by tauto. auto.
  - destruct (SI z' 1 N0 A0 S0 ltac:(lia)) as (r & E & _ & _ & _ & H1). exists r. rewrite Z.sgn_pos by tauto. auto.
  - exists z'. split; auto. assert (v = 0) by lia. subst v. split; auto.
Qed.
Print Assumptions C57_sign.
Example C57_ex : exists r s, intr_abs default_cfg (mkField (pack 3 2 true) (packed (pack 3 2 true) true [1;2;5])) = Ok r /\
  fd r = packed (pack 3 2 true) false [1;2;5] /\
  intr_sign default_cfg None (mkField (pack 3 2 true) (packed (pack 3 2 true) true [1;2;5])) = Ok s /\ get_int default_cfg s = Ok (-1, s).
Proof. do 2 eexists. split; [vm_compute; reflexivity|split; [vm_compute; reflexivity|split; [vm_compute; reflexivity|vm_compute; reflexivity]]]. Qed.

(** FACTORIAL: exact up to 19!, beyond that an exception (the item keeps 0). *)
Theorem C57_factorial : forall m f n, int_arg (c_ebcdic m) f n -> 0 <= n <= 20 ->
  exists r, intr_factorial m f = Ok (r, false) /\ holds_int (c_ebcdic m) r (fac (Z.to_nat n)).
Proof.
  intros m f n A HN. unfold intr_factorial. rewrite (int_arg_get m f n A). cbn [obind fst].
  destruct (Z.ltb_spec n 0); [lia|].
  assert (FB : 0 <= fac (Z.to_nat n) < 2 ^ 64).
  { assert (n = 0 \/ n = 1 \/ n = 2 \/ n = 3 \/ n = 4 \/ n = 5 \/ n = 6 \/ n = 7 \/ n = 8 \/ n = 9 \/ n = 10 \/ n = 11 \/ n = 12 \/ n = 13
      \/ n = 14 \/ n = 15 \/ n = 16 \/ n = 17 \/ n = 18 \/ n = 19 \/ n = 20) as C by lia.
    repeat (destruct C as [-> | C]; [vm_compute; split; [discriminate|reflexivity]|]). subst n. vm_compute; split; [discriminate|reflexivity]. }
  destruct (bin8_fits m 18 0 false (fac (Z.to_nat n))) as (F & HH & L); [lia|exact FB|].
  destruct (store_exact m (mkDec (fac (Z.to_nat n)) 0) (fresh (bin_attr 18 0 false) 8)) as (r & E & AR & _ & R); auto; cbn [dv dsc]; try lia.
  - apply bin8_item. lia.
  - cbn [dv dsc] in *. rewrite E. cbn [obind st_f st_exc]. exists r. split; auto. rewrite HH in R. split; auto. rewrite AR. reflexivity.
Qed.
Print Assumptions C57_factorial.
Example C57_factorial_ex : exists r, intr_factorial default_cfg (mkField (disp 2 0 false false false) [49;48]) = Ok (r, false) /\ get_int default_cfg r = Ok (3628800, r).
Proof. eexists. split; [vm_compute; reflexivity|vm_compute; reflexivity]. Qed.
