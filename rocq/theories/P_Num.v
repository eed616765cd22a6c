(** Theorems C01-C10: numeric items and decimal arithmetic. *)
From Coq Require Import QArith Qabs.
From Verif Require Import Base Field Sign Decimal SpecNum Numeric SpecStore
  DispProofs DecProofs BinProofs PackedProofs StoreProofs.
Local Open Scope Z_scope.

(** Sample items for the non-vacuity examples. *)
Definition disp (digits scale : Z) (sg sep lead : bool) : fattr :=
  mkAttr TDisplay digits scale sg sep lead false false false false [].
Definition pack (digits scale : Z) (sg : bool) : fattr :=
  mkAttr TPacked digits scale sg false false false false false false [].
Definition bina (digits scale : Z) (sg swap : bool) : fattr :=
  mkAttr TBinary digits scale sg false false false false swap false [].
Definition no_opts := mkOpts false false false.
Definition keep_opts := mkOpts false true false.
Definition round_keep := mkOpts true true false.

(** C01.  Reading the sign of a valid zoned item gives the sign and the bare
    digits; writing a sign onto them gives the item with that sign; in
    particular writing back the sign that was read restores the item. *)
Theorem C01_sign_roundtrip : forall m a ds neg,
  a_type a = TDisplay -> a_sign a = true -> ds <> [] -> Forall is_dig ds ->
  exists f1,
    get_sign m (mkField a (zoned (c_ebcdic m) a neg ds)) = ((if neg then -1 else 1), f1) /\
    data_digits f1 = map digit_char ds /\
    (forall s, put_sign m f1 s = mkField a (zoned (c_ebcdic m) a (s <? 0) ds)).
Proof. exact sign_roundtrip. Qed.
Print Assumptions C01_sign_roundtrip.
Example C01_ex : forall m, exists f1,
  get_sign m (mkField (disp 3 0 true false false) (zoned (c_ebcdic m) (disp 3 0 true false false) true [1;2;3])) = (-1, f1)
  /\ data_digits f1 = [49;50;51].
Proof.
  intros. destruct (C01_sign_roundtrip m (disp 3 0 true false false) [1;2;3] true) as (f1 & A & B & _);
  try reflexivity; try discriminate.
  - repeat constructor; discriminate.
  - exists f1. auto.
Qed.

(** C01, writing: putting digits and a sign into an item with any previous
    contents produces the zoned representation. *)
Theorem C01_sign_write : forall m f ds s,
  a_type (fa f) = TDisplay -> attr_ok (fa f) -> ds <> [] -> Forall is_dig ds ->
  length (fd f) = (length ds + if a_sep (fa f) then 1 else 0)%nat ->
  put_sign m (put_digits f (map digit_char ds)) s =
    mkField (fa f) (zoned (c_ebcdic m) (fa f) (s <? 0) ds).
Proof. exact put_sign_any. Qed.
Print Assumptions C01_sign_write.

(** Finding: with EBCDIC overpunch an item holding a plain digit in the sign
    position (as left by a MOVE from a group, say) is rewritten when it is
    merely read: "5" becomes "E". *)
Theorem C01_plain_digit_rewritten_refuted :
  exists m f s f1, get_sign m f = (s, f1) /\ data_digits f1 = [53] /\ put_sign m f1 s <> f.
Proof.
  exists (mkCfg true true 46 44 36), (mkField (disp 1 0 true false false) [53]), 1, (mkField (disp 1 0 true false false) [53]).
  repeat split. discriminate.
Qed.
Print Assumptions C01_plain_digit_rewritten_refuted.

(** C02-C04, reading: any item that denotes a number is read as exactly that
    number, and is not changed by being read. *)
Theorem C02_fetch_exact : forall m f v, denotes (c_ebcdic m) f v ->
  set_field m f = Ok (mkDec v (a_scale (fa f)), f).
Proof. exact fetch_denotes. Qed.
Print Assumptions C02_fetch_exact.

(** C02.  Storing into DISPLAY. *)
Theorem C02_display_store : forall m v f o k, wf_display f k -> Z.abs v < NUM_LIMIT ->
  (Z.abs v < 10 ^ Z.of_nat k -> exists f', get_display m v f o = Ok (mkStored false false f') /\
     fa f' = fa f /\ f_size f' = f_size f /\ denotes (c_ebcdic m) f' (held f v)) /\
  (10 ^ Z.of_nat k <= Z.abs v -> o_keep o = false ->
     exists f', get_display m v f o = Ok (mkStored false true f') /\
     fa f' = fa f /\ f_size f' = f_size f /\ denotes (c_ebcdic m) f' (held f (low_part k v))).
Proof.
  intros m v f o k W Hb. split; intros; rewrite (get_display_spec m v f o k W Hb).
  - destruct (Z.ltb_spec (Z.abs v) (10 ^ Z.of_nat k)); [|lia].
    eexists; split; [reflexivity|]. split; [reflexivity|]. split; [now apply zoned_of_size|].
    rewrite <- (low_part_fits k v) at 2 by auto. now apply denotes_zoned_of.
  - destruct (Z.ltb_spec (Z.abs v) (10 ^ Z.of_nat k)); [lia|]. rewrite H0.
    eexists; split; [reflexivity|]. split; [reflexivity|]. split; [now apply zoned_of_size|].
    now apply denotes_zoned_of.
Qed.
Print Assumptions C02_display_store.
Example C02_ex : get_display default_cfg (-1234) (mkField (disp 3 0 true true true) [0;0;0;0]) no_opts =
  Ok (mkStored false true (mkField (disp 3 0 true true true) [45;50;51;52])).
Proof. reflexivity. Qed.
Example C02_ex_wf : wf_display (mkField (disp 3 0 true true true) [0;0;0;0]) 3.
Proof. repeat split; auto. Qed.

(** C03.  Storing into COMP-3. *)
Theorem C03_packed_store : forall m v f o k, wf_packed f k -> Z.abs v < NUM_LIMIT ->
  (Z.abs v < 10 ^ Z.of_nat k -> exists f', get_packed v f o = Ok (mkStored false false f') /\
     fa f' = fa f /\ f_size f' = f_size f /\ denotes (c_ebcdic m) f' (held f v)) /\
  (10 ^ Z.of_nat k <= Z.abs v -> o_keep o = false ->
     exists f', get_packed v f o = Ok (mkStored false true f') /\
     fa f' = fa f /\ f_size f' = f_size f /\ denotes (c_ebcdic m) f' (held f (low_part k v))).
Proof.
  intros m v f o k W Hb. split; intros; rewrite (get_packed_spec v f o k W Hb).
  - destruct (Z.ltb_spec (Z.abs v) (10 ^ Z.of_nat k)); [|lia].
    eexists; split; [reflexivity|]. split; [reflexivity|]. split; [now apply packed_of_size|].
    rewrite <- (low_part_fits k v) at 2 by auto. now apply denotes_packed_of.
  - destruct (Z.ltb_spec (Z.abs v) (10 ^ Z.of_nat k)); [lia|]. rewrite H0.
    eexists; split; [reflexivity|]. split; [reflexivity|]. split; [now apply packed_of_size|].
    now apply denotes_packed_of.
Qed.
Print Assumptions C03_packed_store.
Example C03_ex : get_packed (-1234) (mkField (pack 4 0 true) [0;0;0]) no_opts =
  Ok (mkStored false false (mkField (pack 4 0 true) [1;35;77])).
Proof. reflexivity. Qed.
Example C03_ex_wf : wf_packed (mkField (pack 4 0 true) [0;0;0]) 4.
Proof. repeat split; auto. Qed.

(** C04.  Storing into binary. *)
Theorem C04_binary_store : forall m v f o, wf_binary f -> bin_fits m o f v ->
  exists f', get_binary m v f o = Ok (mkStored false false f') /\
    fa f' = fa f /\ f_size f' = f_size f /\ denotes (c_ebcdic m) f' (held f v).
Proof.
  intros m v f o W Hk. pose proof W as (Ht & Hs & _).
  destruct (get_binary_fits m v f o W Hk) as (f' & E & A & S & B & V).
  exists f'. repeat split; auto. unfold held. rewrite <- V, <- A.
  destruct f' as [a' l']. cbn [fa fd] in *. apply den_binary; auto.
  - now rewrite A.
  - unfold f_size in *. cbn [fd] in *. lia.
Qed.
Print Assumptions C04_binary_store.
Example C04_ex : bin_fits default_cfg keep_opts (mkField (bina 4 0 true true) [0;0]) (-1234) /\
  get_binary default_cfg (-1234) (mkField (bina 4 0 true true) [0;0]) keep_opts =
  Ok (mkStored false false (mkField (bina 4 0 true true) [251;46])).
Proof. split; [|reflexivity]. split; [unfold bin_range; cbn|]; cbn; intros; lia. Qed.

(** Finding: a truncating store of a negative number that does not fit a signed
    binary item loses the sign: -123456 stored in S9(4) COMP gives +3456. *)
Theorem C04_truncation_keeps_sign_refuted :
  exists m v f f', wf_binary f /\
    get_binary m v f (mkOpts false false true) = Ok (mkStored true true f') /\
    v < 0 /\ denotes (c_ebcdic m) f' 3456 /\ low_part 4 v = -3456.
Proof.
  exists default_cfg, (-123456), (mkField (bina 4 0 true true) [0;0]), (mkField (bina 4 0 true true) [13;128]).
  split; [repeat split; cbn; lia|]. split; [reflexivity|]. split; [lia|]. split; [|reflexivity].
  change 3456 with (bin_value true true [13;128]). apply (den_binary _ (bina 4 0 true true)); auto.
  - cbn. lia.
  - repeat constructor; unfold is_byte; lia.
Qed.
Print Assumptions C04_truncation_keeps_sign_refuted.

(** C05.  Exactness of the intermediate arithmetic. *)
Theorem C05_arithmetic_exact : forall v1 s1 v2 s2, s1 <> -128 -> s2 <> -128 ->
  let d1 := mkDec v1 s1 in let d2 := mkDec v2 s2 in
  let q (d : decimal) := rat (dv d) (dsc d) in
  (q (dec_add d1 d2) == rat v1 s1 + rat v2 s2)%Q /\
  (q (dec_sub d1 d2) == rat v1 s1 - rat v2 s2)%Q /\
  (q (dec_mul d1 d2) == rat v1 s1 * rat v2 s2)%Q.
Proof.
  intros v1 s1 v2 s2 H1 H2 d1 d2 q.
  assert (N1 : not_nan d1) by exact H1. assert (N2 : not_nan d2) by exact H2.
  split; [apply (dec_add_exact d1 d2 N1 N2)|].
  split; [apply (dec_sub_exact d1 d2 N1 N2)|apply (dec_mul_exact d1 d2 N1 N2)].
Qed.
Print Assumptions C05_arithmetic_exact.
Theorem C05_power_exact : forall v s n, s <> -128 -> 0 <= n < 2 ^ 32 -> - 2 ^ 31 <= s * n < 2 ^ 31 ->
  exists r, dec_pow (mkDec v s) (mkDec n 0) = Ok r /\ (rat (dv r) (dsc r) == rat v s ^ n)%Q.
Proof. intros v s n H Hn Hs. exact (dec_pow_exact (mkDec v s) n H Hn Hs). Qed.
Print Assumptions C05_power_exact.
(** Exponents of 2^32 and more are cut to 32 bits: 0 ** 4294967296 is 1. *)
Theorem C05_power_cut_refuted : dec_pow (mkDec 0 0) (mkDec (2 ^ 32) 0) = Ok (mkDec 1 0).
Proof. vm_compute. reflexivity. Qed.
Print Assumptions C05_power_cut_refuted.
Example C05_ex : dec_add (mkDec 12345 2) (mkDec (-7) (-3)) = mkDec (-687655) 2 /\
  dec_pow (mkDec 15 1) (mkDec 3 0) = Ok (mkDec 3375 3).
Proof. split; reflexivity. Qed.

(** C05, end to end: ADD and SUBTRACT on items of any usages. *)
Theorem C05_add_subtract : forall (sub : bool) m f1 f2 o v1 v2 w,
  denotes (c_ebcdic m) f1 v1 -> denotes (c_ebcdic m) f2 v2 ->
  numeric_item f1 -> scale_ok f1 -> scale_ok f2 ->
  let A := rat v1 (a_scale (fa f1)) in let B := rat v2 (a_scale (fa f2)) in
  let run := if sub then cob_sub m f1 f2 o else cob_add m f1 f2 o in
  rounded o (if sub then A - B else A + B) (a_scale (fa f1)) w -> Z.abs w < NUM_LIMIT ->
  (fits m o f1 w -> exists f', run = Ok (mkStored false false f') /\
     fa f' = fa f1 /\ f_size f' = f_size f1 /\ denotes (c_ebcdic m) f' (held f1 w)) /\
  (~ fits m o f1 w -> o_keep o = true -> run = Ok (mkStored true true f1)).
Proof. exact add_sub_spec. Qed.
Print Assumptions C05_add_subtract.
Example C05_ex2 : (* ADD 0.5 (9V9) TO S9(3) packed -2: -1.5, ROUNDED gives -2 *)
  cob_add default_cfg (mkField (pack 3 0 true) [0;45]) (mkField (disp 2 1 false false false) [48;53]) round_keep
  = Ok (mkStored false false (mkField (pack 3 0 true) [0;45])).
Proof. reflexivity. Qed.

(** C06.  Division. *)
Theorem C06_division : forall v1 s1 v2 s2, s1 <> -128 -> s2 <> -128 -> v2 <> 0 ->
  exists r, dec_div (mkDec v1 s1) (mkDec v2 s2) = (r, false) /\
    trunc_at (rat v1 s1 / rat v2 s2) (dsc r) (dv r) /\
    (v1 = 0 \/ 37 <= dsc r).
Proof.
  intros v1 s1 v2 s2 H1 H2 Hz.
  destruct (dec_div_spec (mkDec v1 s1) (mkDec v2 s2) H1 H2 Hz) as (A & B & C & D).
  destruct (dec_div (mkDec v1 s1) (mkDec v2 s2)) as [r z]. cbn [fst snd dv] in *. subst z.
  exists r. split; [reflexivity|]. split; [exact B|].
  destruct (Z.eq_dec v1 0); auto.
Qed.
Print Assumptions C06_division.
Example C06_ex : let r := fst (dec_div (mkDec 1 0) (mkDec 3 0)) in
  dsc r = 37 /\ dv r = 3333333333333333333333333333333333333.
Proof. split; reflexivity. Qed.

(** C06: dividing by zero reports SIZE ERROR; the quotient and, later, the
    remainder item keep their bytes. *)
Theorem C06_divide_by_zero : forall m a b qf o va,
  denotes (c_ebcdic m) a va -> denotes (c_ebcdic m) b 0 -> scale_ok a -> scale_ok b ->
  exists d3, div_quotient m a b qf o = Ok (mkStored true true qf, d3) /\
    forall rf o', div_remainder m d3 rf o' = Ok (mkStored true true rf).
Proof. exact div_quotient_zero. Qed.
Print Assumptions C06_divide_by_zero.
Theorem C06_zero_divide_nan : forall v1 s1 s2 m f o, s1 <> -128 -> s2 <> -128 ->
  snd (dec_div (mkDec v1 s1) (mkDec 0 s2)) = true /\
  get_field m (fst (dec_div (mkDec v1 s1) (mkDec 0 s2))) f o = Ok (mkStored true true f).
Proof.
  intros v1 s1 s2 m f o H1 H2. unfold dec_div, nan_in. cbn [dsc dv].
  destruct (Z.eqb_spec s1 DECIMAL_NAN); [unfold DECIMAL_NAN in *; lia|].
  destruct (Z.eqb_spec s2 DECIMAL_NAN); [unfold DECIMAL_NAN in *; lia|]. split; reflexivity.
Qed.
Print Assumptions C06_zero_divide_nan.

(** C07.  What is stored is the rounded (or truncated) result. *)
Theorem C07_rounding : forall m d f o w, dsc d <> -128 -> numeric_item f ->
  rounded o (rat (dv d) (dsc d)) (a_scale (fa f)) w -> Z.abs w < NUM_LIMIT -> fits m o f w ->
  exists f', get_field m d f o = Ok (mkStored false false f') /\ denotes (c_ebcdic m) f' (held f w).
Proof.
  intros m d f o w Hn Hi Hr Hb Hf.
  destruct (get_field_spec m d f o _ w Hn Hi ltac:(reflexivity) Hr Hb) as (X & _).
  destruct (X Hf) as (f' & A & _ & _ & B). eauto.
Qed.
Print Assumptions C07_rounding.
(** The rounded value exists and is unique, so the premise of C07 selects one w. *)
Theorem C07_rounded_unique : forall o v s t, exists w, rounded o (rat v s) t w /\
  forall w', rounded o (rat v s) t w' -> w' = w.
Proof.
  intros. destruct (rounded_exists (mkDec v s) t o) as (w & H). exists w. split; [exact H|].
  intros. eapply rounded_unique; eauto.
Qed.
Print Assumptions C07_rounded_unique.
Example C07_ex : dv (round_align (mkDec (-25) 1) 0 (mkOpts true false false)) = -3 /\
  dv (round_align (mkDec (-25) 1) 0 no_opts) = -2 /\ round_at (rat (-25) 1) 0 (-3).
Proof.
  split; [reflexivity|]. split; [reflexivity|].
  destruct (round_align_spec (mkDec (-25) 1) 0 (mkOpts true false false)) as (_ & _ & R).
  exact (R eq_refl).
Qed.

(** C08.  ON SIZE ERROR. *)
Theorem C08_size_error : forall m d f o w, dsc d <> -128 -> numeric_item f -> o_keep o = true ->
  rounded o (rat (dv d) (dsc d)) (a_scale (fa f)) w -> Z.abs w < NUM_LIMIT ->
  (fits m o f w -> exists f', get_field m d f o = Ok (mkStored false false f') /\
     fa f' = fa f /\ f_size f' = f_size f /\ denotes (c_ebcdic m) f' (held f w)) /\
  (~ fits m o f w -> get_field m d f o = Ok (mkStored true true f)).
Proof.
  intros m d f o w Hn Hi Hk Hr Hb.
  destruct (get_field_spec m d f o _ w Hn Hi ltac:(reflexivity) Hr Hb) as (X & Y & _). auto.
Qed.
Print Assumptions C08_size_error.
Example C08_ex : get_field default_cfg (mkDec 99996 1) (mkField (disp 4 0 false false false) [49;50;51;52]) round_keep
  = Ok (mkStored true true (mkField (disp 4 0 false false false) [49;50;51;52])).
Proof. reflexivity. Qed.

(** Finding: a result of 2048 digits or more (possible with [**]) overruns the
    2048-byte conversion buffer. *)
Theorem C08_huge_result_refuted : exists m f o, numeric_item f /\ o_keep o = true /\
  forall v, NUM_LIMIT <= v -> get_field m (mkDec v 0) f o = UB.
Proof.
  exists default_cfg, (mkField (disp 1 0 false false false) [48]), keep_opts.
  split. { apply (ni_display _ 1). repeat split; auto; discriminate. }
  split; [reflexivity|]. intros v Hv.
  apply num_buff_overflow; [exact Hv|reflexivity|reflexivity].
Qed.
Print Assumptions C08_huge_result_refuted.

(** C09.  DIVIDE ... GIVING ... REMAINDER. *)
Theorem C09_divide_remainder : forall m a b qf o va vb w,
  denotes (c_ebcdic m) a va -> denotes (c_ebcdic m) b vb -> vb <> 0 ->
  scale_ok a -> scale_ok b -> scale_ok qf -> numeric_item qf ->
  let A := rat va (a_scale (fa a)) in let B := rat vb (a_scale (fa b)) in
  rounded o (A / B) (a_scale (fa qf)) w -> Z.abs w < NUM_LIMIT ->
  exists st d3 t, div_quotient m a b qf o = Ok (st, d3) /\
    (fits m o qf w -> st_ret st = false /\ st_exc st = false /\
       fa (st_f st) = fa qf /\ f_size (st_f st) = f_size qf /\ denotes (c_ebcdic m) (st_f st) (held qf w)) /\
    (~ fits m o qf w -> o_keep o = true -> st = mkStored true true qf) /\
    trunc_at (A / B) (a_scale (fa qf)) t /\ dsc d3 <> -128 /\
    (rat (dv d3) (dsc d3) == A - rat t (a_scale (fa qf)) * B)%Q /\
    (Qabs (rat (dv d3) (dsc d3)) < Qabs B * rat 1 (a_scale (fa qf)))%Q /\
    (0 <= rat (dv d3) (dsc d3) * A)%Q.
Proof. exact divide_spec. Qed.
Print Assumptions C09_divide_remainder.
Example C09_ex : match div_quotient default_cfg (mkField (disp 2 0 true false false) [49;119])
   (mkField (pack 1 0 true) [92]) (mkField (disp 2 0 true false false) [48;48]) keep_opts with
  | Ok (st, d3) => st = mkStored false false (mkField (disp 2 0 true false false) [48;115]) /\ dv d3 = -2
  | _ => False end.
Proof. vm_compute. auto. Qed.

(** C10.  Comparison. *)
Theorem C10_compare : forall m f1 f2 v1 v2,
  denotes (c_ebcdic m) f1 v1 -> denotes (c_ebcdic m) f2 v2 ->
  exists c, numeric_cmp m f1 f2 = Ok c /\
   (c = -1 <-> (rat v1 (a_scale (fa f1)) < rat v2 (a_scale (fa f2)))%Q) /\
   (c = 0 <-> (rat v1 (a_scale (fa f1)) == rat v2 (a_scale (fa f2)))%Q) /\
   (c = 1 <-> (rat v2 (a_scale (fa f2)) < rat v1 (a_scale (fa f1)))%Q).
Proof. exact numeric_cmp_spec. Qed.
Print Assumptions C10_compare.
Theorem C10_compare_int : forall m f1 v1 n,
  denotes (c_ebcdic m) f1 v1 ->
  exists c, cmp_int m f1 n = Ok c /\
   (c = -1 <-> (rat v1 (a_scale (fa f1)) < inject_Z n)%Q) /\
   (c = 0 <-> (rat v1 (a_scale (fa f1)) == inject_Z n)%Q) /\
   (c = 1 <-> (inject_Z n < rat v1 (a_scale (fa f1)))%Q).
Proof. exact cmp_int_spec. Qed.
Print Assumptions C10_compare_int.
Theorem C10_total_preorder : forall m f1 f2 f3 v1 v2 v3 c12 c21 c23 c13,
  denotes (c_ebcdic m) f1 v1 -> denotes (c_ebcdic m) f2 v2 -> denotes (c_ebcdic m) f3 v3 ->
  numeric_cmp m f1 f2 = Ok c12 -> numeric_cmp m f2 f1 = Ok c21 ->
  numeric_cmp m f2 f3 = Ok c23 -> numeric_cmp m f1 f3 = Ok c13 ->
  c21 = - c12 /\ (c12 <= 0 -> c23 <= 0 -> c13 <= 0).
Proof.
  intros m f1 f2 f3 v1 v2 v3 c12 c21 c23 c13 H1 H2 H3 E12 E21 E23 E13.
  destruct (C10_compare m f1 f2 v1 v2 H1 H2) as (c & E & A12 & B12 & C12). rewrite E in E12; inversion E12; subst; clear E12.
  destruct (C10_compare m f2 f1 v2 v1 H2 H1) as (c & E' & A21 & B21 & C21). rewrite E' in E21; inversion E21; subst; clear E21.
  destruct (C10_compare m f2 f3 v2 v3 H2 H3) as (c & E'' & A23 & B23 & C23). rewrite E'' in E23; inversion E23; subst; clear E23.
  destruct (C10_compare m f1 f3 v1 v3 H1 H3) as (c & E4 & A13 & B13 & C13). rewrite E4 in E13; inversion E13; subst; clear E13.
  set (q1 := rat v1 (a_scale (fa f1))) in *. set (q2 := rat v2 (a_scale (fa f2))) in *.
  set (q3 := rat v3 (a_scale (fa f3))) in *.
  split.
  - destruct (Q_dec q1 q2) as [[L|L]|L].
    + rewrite (proj2 A12 L), (proj2 C21 L). reflexivity.
    + rewrite (proj2 C12 L), (proj2 A21 L). reflexivity.
    + rewrite (proj2 B12 L). symmetry in L. rewrite (proj2 B21 L). reflexivity.
  - intros L1 L2.
    assert (q1 <= q2)%Q. { destruct (Qlt_le_dec q2 q1) as [L|L]; auto. apply C12 in L. lia. }
    assert (q2 <= q3)%Q. { destruct (Qlt_le_dec q3 q2) as [L|L]; auto. apply C23 in L. lia. }
    assert (q1 <= q3)%Q by (eapply Qle_trans; eauto).
    destruct (Q_dec q1 q3) as [[L|L]|L].
    + apply A13 in L. lia.
    + exfalso. apply (Qlt_not_le _ _ L H4).
    + apply B13 in L. lia.
Qed.
Print Assumptions C10_total_preorder.
Example C10_ex : (* -1.50 packed < -1 binary *)
  numeric_cmp default_cfg (mkField (pack 3 2 true) [21;13]) (mkField (bina 4 0 true false) [255;255]) = Ok (-1).
Proof. reflexivity. Qed.
