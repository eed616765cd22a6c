(** Theorems C11-C14: the optimised integer operations on COMP-3 and DISPLAY
    items. *)
From Verif Require Import Base BaseFacts Field Sign Decimal SpecNum Numeric SpecStore
  NumFacts DispProofs PackedProofs StoreProofs PackedInt PackedIntProofs DispInt DispIntProofs P_Num.

(** Inversion of [denotes] for one usage. *)
Lemma denotes_packed_inv : forall e f x, denotes e f x -> a_type (fa f) = TPacked ->
  exists neg ds, f = mkField (fa f) (packed (fa f) neg ds) /\ x = signed_value neg ds /\ ds <> [] /\
    Forall is_dig ds /\ Z.of_nat (length ds) = a_digits (fa f) /\ (a_sign (fa f) = false -> neg = false).
Proof.
  intros e f x H Ht. destruct H; cbn [fa] in *; try congruence. exists neg, ds. auto 10.
Qed.
Lemma denotes_display_inv : forall e f x, denotes e f x -> a_type (fa f) = TDisplay ->
  exists neg ds, f = mkField (fa f) (zoned e (fa f) neg ds) /\ x = signed_value neg ds /\ ds <> [] /\
    Forall is_dig ds /\ (a_sign (fa f) = false -> neg = false) /\ attr_ok (fa f).
Proof.
  intros e f x H Ht. destruct H; cbn [fa] in *; try congruence. exists neg, ds. auto 10.
Qed.

(** ** C11: comparing COMP-3 with an integer *)

(** The states of the comparison routine's cache that some history of calls
    can produce: any items (valid or not), any 32-bit integers. *)
Inductive cmp_history : cmp_state -> Prop :=
| ch_start : cmp_history cmp_init
| ch_call : forall st f n c st', cmp_history st -> is_int n ->
    cmp_packed st f n = Ok (c, st') -> cmp_history st'.

Lemma history_cache : forall st, cmp_history st -> cache_ok st.
Proof.
  intros st H. induction H as [|st f n c st' H IH Hn E]; [apply cache_init|].
  unfold cmp_packed in E.
  destruct ((0 <=? packed_get_sign f) && (n <? 0)); [inversion E; subst; auto|].
  destruct ((packed_get_sign f <? 0) && (0 <=? n)); [inversion E; subst; auto|].
  destruct (Z.eqb_spec n (- 2 ^ 31)) as [|N]; [rewrite orb_true_r in E; discriminate|].
  rewrite orb_false_r in E. destruct (20 <? f_size f)%nat; [discriminate|]. cbv zeta in E.
  inversion E; subst. apply cache_set; auto. unfold is_int, INT_MIN, INT_MAX in Hn.
  change (2 ^ 31) with 2147483648 in *. lia.
Qed.

(** An item that is zero has a positive sign. *)
Definition no_negative_zero (f : field) (x : Z) : Prop :=
  x = 0 -> Z.land (last (fd f) 0) 15 <> 13.

Theorem C11_cmp_packed_any_history : forall e st f x n,
  cmp_history st -> denotes e f x -> a_type (fa f) = TPacked -> a_digits (fa f) <= 38 ->
  no_negative_zero f x -> INT_MIN < n <= INT_MAX ->
  exists c st', cmp_packed st f n = Ok (c, st') /\ cmp_history st' /\ Z.sgn c = Z.sgn (x - n).
Proof.
  intros e st f x n Hh Hd Ht H38 Hz Hn. pose proof (history_cache st Hh) as HC.
  destruct (denotes_packed_inv e f x Hd Ht) as (neg & ds & Ef & Ex & Hne & Hdg & HD & Hsg).
  unfold INT_MIN, INT_MAX in Hn.
  assert (NZ : neg = true -> digits_value ds <> 0).
  { intros -> Q. apply Hz.
    - rewrite Ex. unfold signed_value. lia.
    - rewrite Ef. cbn [fd].
      assert (BL : is_byte (last (packed (fa f) true ds) 0)).
      { assert (NE : packed (fa f) true ds <> []).
        { intro Q'. pose proof (packed_length (fa f) true ds) as L. rewrite Q' in L. cbn [length] in L. lia. }
        destruct (nonempty_snoc _ NE) as (r & y & E).
        pose proof (packed_bytes (fa f) true ds Hdg) as B. rewrite E in *. rewrite last_snoc.
        apply Forall_app in B. destruct B as [_ B]. now inversion B. }
      rewrite land_15, last_packed by auto. unfold packed_sign_nibble.
      destruct (a_sign (fa f)); [reflexivity|]. discriminate Hsg; auto. }
  destruct (cmp_packed_spec st (fa f) neg ds n HC Hne Hdg ltac:(lia) ltac:(lia) Hsg NZ) as (c & st' & E & _ & S).
  { change (2 ^ 31) with 2147483648. lia. }
  rewrite <- Ef in E. exists c, st'. split; [exact E|]. split.
  - eapply ch_call; eauto. unfold is_int, INT_MIN, INT_MAX. lia.
  - now rewrite Ex.
Qed.
Print Assumptions C11_cmp_packed_any_history.

(** Hence the answer does not depend on the history. *)
Corollary C11_history_independent : forall e st1 st2 f x n c1 c2 s1 s2,
  cmp_history st1 -> cmp_history st2 -> denotes e f x -> a_type (fa f) = TPacked ->
  a_digits (fa f) <= 38 -> no_negative_zero f x -> INT_MIN < n <= INT_MAX ->
  cmp_packed st1 f n = Ok (c1, s1) -> cmp_packed st2 f n = Ok (c2, s2) -> Z.sgn c1 = Z.sgn c2.
Proof.
  intros e st1 st2 f x n c1 c2 s1 s2 H1 H2 Hd Ht H38 Hz Hn E1 E2.
  destruct (C11_cmp_packed_any_history e st1 f x n H1 Hd Ht H38 Hz Hn) as (c & s & E & _ & S).
  destruct (C11_cmp_packed_any_history e st2 f x n H2 Hd Ht H38 Hz Hn) as (c' & s' & E' & _ & S').
  rewrite E in E1. rewrite E' in E2. inversion E1; inversion E2; subst. congruence.
Qed.
Print Assumptions C11_history_independent.
Example C11_ex : exists st1 c st2, cmp_packed cmp_init (mkField (pack 5 0 true) [18;52;93]) (-12345) = Ok (0, st1) /\
  cmp_history st1 /\ cmp_packed st1 (mkField (pack 5 0 true) [18;52;92]) 12346 = Ok (c, st2) /\ c < 0.
Proof.
  exists (snd (match cmp_packed cmp_init (mkField (pack 5 0 true) [18;52;93]) (-12345) with Ok r => r | _ => (0, cmp_init) end)).
  exists (-16), (mkCmp 12346 (repeat 0 17 ++ [18; 52; 96])).
  split; [vm_compute; reflexivity|]. split; [|split; [vm_compute; reflexivity|lia]].
  apply (ch_call cmp_init (mkField (pack 5 0 true) [18;52;93]) (-12345) 0); [apply ch_start|split; discriminate|].
  vm_compute. reflexivity.
Qed.

(** The inline comparison used for items of fewer than 10 digits. *)
Theorem C11_inline_compare : forall e f x n, denotes e f x -> a_type (fa f) = TPacked -> Z.abs x < 2 ^ 31 ->
  cmp_packed_int f n = Ok (Z.sgn (x - n)).
Proof.
  intros e f x n Hd Ht HB.
  destruct (denotes_packed_inv e f x Hd Ht) as (neg & ds & Ef & Ex & Hne & Hdg & HD & Hsg).
  rewrite Ef. unfold cmp_packed_int. pose proof (digits_value_bound ds Hdg).
  rewrite get_packed_int_spec; auto.
  - cbn [obind]. rewrite Ex. f_equal. apply three_way_sgn.
  - rewrite Ex in HB. unfold signed_value in HB. destruct neg; lia.
Qed.
Print Assumptions C11_inline_compare.
Example C11_ex2 : cmp_packed_int (mkField (pack 4 0 true) [1;35;77]) (-1233) = Ok (-1).
Proof. reflexivity. Qed.

(** Findings.  A COMP-3 item holding -0 (which a truncating store can leave)
    compares below 0; an item with decimals is compared as if it had none. *)
Theorem C11_negative_zero_refuted : exists f, denotes false f 0 /\ a_type (fa f) = TPacked /\
  exists st', cmp_packed cmp_init f 0 = Ok (-1, st').
Proof.
  exists (mkField (pack 3 0 true) [0;13]). split; [|split; [reflexivity|]].
  - apply (den_packed false (pack 3 0 true) true [0;0;0]); auto; [discriminate|].
    repeat constructor; discriminate.
  - exists cmp_init. reflexivity.
Qed.
Print Assumptions C11_negative_zero_refuted.

(** ** C12: comparing DISPLAY with an integer *)

Theorem C12_cmp_unsigned : forall m w f x n, (w = 32 \/ w = 64) ->
  denotes (c_ebcdic m) f x -> a_type (fa f) = TDisplay -> a_sign (fa f) = false -> x < 2 ^ (w - 1) ->
  cmp_numdisp w (fd f) n = Ok (Z.sgn (x - n)).
Proof.
  intros m w f x n Hw Hd Ht Hs HB.
  destruct (denotes_display_inv _ f x Hd Ht) as (neg & ds & Ef & Ex & Hne & Hdg & Hsg & Ha).
  rewrite Ef. cbn [fd]. rewrite DispProofs.zoned_unsigned by auto. specialize (Hsg Hs). subst neg.
  rewrite Ex in *. apply cmp_numdisp_spec; auto.
Qed.
Print Assumptions C12_cmp_unsigned.

Theorem C12_cmp_signed : forall m w f x n, (w = 32 \/ w = 64) ->
  denotes (c_ebcdic m) f x -> a_type (fa f) = TDisplay -> a_sign (fa f) = true ->
  a_sep (fa f) = false -> a_lead (fa f) = false -> Z.abs x < 2 ^ (w - 1) ->
  cmp_sign_numdisp m w (fd f) n = Ok (Z.sgn (x - n)).
Proof.
  intros m w f x n Hw Hd Ht Hs Hsep Hl HB.
  destruct (denotes_display_inv _ f x Hd Ht) as (neg & ds & Ef & Ex & Hne & Hdg & Hsg & Ha).
  rewrite Ef. cbn [fd]. rewrite Ex in *. pose proof (digits_value_bound ds Hdg).
  apply cmp_sign_numdisp_spec; auto.
  - unfold signed_value in HB. destruct neg; lia.
  - lia.
Qed.
Print Assumptions C12_cmp_signed.
Example C12_ex : cmp_sign_numdisp default_cfg 32 [49;50;115] (-122) = Ok (-1) /\
  cmp_sign_numdisp (mkCfg true true 46 44 36) 64 [49;50;76] (-124) = Ok 1 /\
  denotes false (mkField (disp 3 0 true false false) [49;50;115]) (-123).
Proof.
  split; [reflexivity|]. split; [reflexivity|].
  apply (den_display false (disp 3 0 true false false) true [1;2;3]); auto; try discriminate.
  repeat constructor; discriminate.
Qed.

(** The inline conversion of an unsigned DISPLAY item to int. *)
Theorem C12_inline_value : forall e f x, denotes e f x -> a_type (fa f) = TDisplay ->
  a_sign (fa f) = false -> x < 2 ^ 31 -> get_numdisp 0 (fd f) = Ok x.
Proof.
  intros e f x Hd Ht Hs HB.
  destruct (denotes_display_inv _ f x Hd Ht) as (neg & ds & Ef & Ex & Hne & Hdg & Hsg & Ha).
  rewrite Ef. cbn [fd]. rewrite DispProofs.zoned_unsigned by auto. specialize (Hsg Hs). subst neg.
  rewrite Ex in *. apply get_numdisp_spec; auto. lia.
Qed.
Print Assumptions C12_inline_value.
Example C12_ex2 : get_numdisp 0 [48;52;50] = Ok 42.
Proof. reflexivity. Qed.

(** ** C13: ADD an integer TO a COMP-3 item *)

Theorem C13_add_packed : forall e f x n,
  denotes e f x -> a_type (fa f) = TPacked -> 0 <= a_scale (fa f) ->
  let D := Z.to_nat (a_digits (fa f)) in
  let V := n * 10 ^ a_scale (fa f) in
  Z.abs V < 2 ^ 63 -> Z.abs V < 10 ^ a_digits (fa f) ->
  exists f', add_packed f n = Ok f' /\ fa f' = fa f /\ f_size f' = f_size f /\
    denotes e f' (held f (low_part D (x + V))).
Proof.
  intros e f x n Hd Ht Hs D V H63 HP.
  destruct (denotes_packed_inv e f x Hd Ht) as (neg & ds & Ef & Ex & Hne & Hdg & HD & Hsg).
  assert (HL : D = length ds) by (unfold D; lia). rewrite <- HD in HP.
  destruct (add_packed_spec (fa f) neg ds n Ht Hne Hdg ltac:(lia) Hsg Hs H63 HP)
    as (neg' & ds' & E & L & F & S & V').
  rewrite <- Ef in E. eexists. split; [exact E|]. split; [reflexivity|]. split.
  - unfold f_size. cbn [fd]. rewrite Ef at 2. cbn [fd]. rewrite !packed_length. congruence.
  - cbv zeta in V'.
    assert (VV : held f (low_part D (x + V)) = signed_value neg' ds').
    { rewrite V'. unfold held, low_part, V. rewrite HL, Ex.
      destruct (a_sign (fa f)); [reflexivity|].
      set (t := signed_value neg ds + n * 10 ^ a_scale (fa f)).
      pose proof (pow10_pos_nat (length ds)) as PP.
      set (P := 10 ^ Z.of_nat (length ds)) in *.
      rewrite Z.abs_mul. rewrite (Z.abs_eq (_ mod _)) by (apply Z.mod_pos_bound; lia).
      destruct (Z.eq_dec t 0) as [->|]; [rewrite Z.mod_0_l by lia; reflexivity|].
      rewrite Z.sgn_abs || idtac. replace (Z.abs (Z.sgn t)) with 1 by lia. lia. }
    rewrite VV. apply den_packed; auto.
    + intro Q. subst ds'. cbn [length] in L. destruct ds; [congruence|discriminate].
    + lia.
Qed.
Print Assumptions C13_add_packed.

(** When the sum fits, it is exact. *)
Corollary C13_add_packed_exact : forall e f x n,
  denotes e f x -> a_type (fa f) = TPacked -> 0 <= a_scale (fa f) ->
  let V := n * 10 ^ a_scale (fa f) in
  Z.abs V < 2 ^ 63 -> Z.abs V < 10 ^ a_digits (fa f) -> Z.abs (x + V) < 10 ^ a_digits (fa f) ->
  exists f', add_packed f n = Ok f' /\ fa f' = fa f /\ denotes e f' (held f (x + V)).
Proof.
  intros e f x n Hd Ht Hs V H63 HP HF.
  destruct (C13_add_packed e f x n Hd Ht Hs H63 HP) as (f' & E & A & _ & D).
  exists f'. split; auto. split; auto. fold V in D.
  destruct (denotes_packed_inv e f x Hd Ht) as (neg & ds & _ & _ & _ & _ & HD & _).
  rewrite low_part_fits in D; auto. rewrite Z2Nat.id by lia. exact HF.
Qed.
Print Assumptions C13_add_packed_exact.
Example C13_ex : add_packed (mkField (pack 5 2 true) [1;35;77]) 20 = Ok (mkField (pack 5 2 true) [0;118;108]) /\
  denotes false (mkField (pack 5 2 true) [1;35;77]) (-1234) /\
  denotes false (mkField (pack 5 2 true) [0;118;108]) 766.
Proof.
  split; [reflexivity|]. split.
  - apply (den_packed false (pack 5 2 true) true [0;1;2;3;4]); auto; try discriminate. repeat constructor; discriminate.
  - apply (den_packed false (pack 5 2 true) false [0;0;7;6;6]); auto; try discriminate. repeat constructor; discriminate.
Qed.

(** The inline addition for items of fewer than 10 digits without decimals. *)
Theorem C13_inline_add : forall e f x n,
  denotes e f x -> a_type (fa f) = TPacked -> a_scale (fa f) = 0 ->
  Z.abs n < 2 ^ 31 -> Z.abs n < 10 ^ a_digits (fa f) -> Z.abs (x + n) < 10 ^ a_digits (fa f) ->
  exists f', add_packed_int f n = Ok f' /\ fa f' = fa f /\ f_size f' = f_size f /\ denotes e f' (held f (x + n)).
Proof.
  intros e f x n Hd Ht Hs H31 HP HF.
  destruct (denotes_packed_inv e f x Hd Ht) as (neg & ds & Ef & Ex & Hne & Hdg & HD & Hsg).
  rewrite <- HD in HP, HF. rewrite Ex in HF.
  destruct (add_packed_int_spec (fa f) neg ds n Ht Hne Hdg ltac:(lia) Hsg Hs H31 HP HF)
    as (neg' & ds' & E & L & F & S & V').
  rewrite <- Ef in E. eexists. split; [exact E|]. split; [reflexivity|]. split.
  - unfold f_size. cbn [fd]. rewrite Ef at 2. cbn [fd]. rewrite !packed_length. congruence.
  - unfold held. rewrite Ex. cbv zeta in V'. rewrite <- V'. apply den_packed; auto.
    + intro Q. subst ds'. cbn [length] in L. destruct ds; [congruence|discriminate].
    + lia.
Qed.
Print Assumptions C13_inline_add.
Example C13_ex2 : add_packed_int (mkField (pack 5 0 true) [9;153;93]) (-6) = Ok (mkField (pack 5 0 true) [16;0;29]).
Proof. reflexivity. Qed.

(** Findings: subtracting more than the item can hold gives a wrong sign
    (PIC S9 COMP-3, 5 - 12 = +3, not the low-order digit of -7); an inline addition that
    overflows an even number of digits leaves a digit in the unused nibble. *)
Theorem C13_large_addend_refuted : exists f f', denotes false f 5 /\ add_packed f (-12) = Ok f' /\
  denotes false f' 3 /\ low_part 1 (5 + -12) = -7.
Proof.
  exists (mkField (pack 1 0 true) [92]), (mkField (pack 1 0 true) [60]).
  split; [|split; [reflexivity|split; [|reflexivity]]].
  - apply (den_packed false (pack 1 0 true) false [5]); auto; try discriminate. repeat constructor; discriminate.
  - apply (den_packed false (pack 1 0 true) false [3]); auto; try discriminate. repeat constructor; discriminate.
Qed.
Print Assumptions C13_large_addend_refuted.
Theorem C13_inline_overflow_refuted : exists f f', denotes false f 99 /\ a_digits (fa f) = 2 /\
  add_packed_int f 1 = Ok f' /\ forall v, ~ denotes false f' v.
Proof.
  exists (mkField (pack 2 0 true) [9;156]), (mkField (pack 2 0 true) [16;12]).
  split; [|split; [reflexivity|split; [reflexivity|]]].
  - apply (den_packed false (pack 2 0 true) false [9;9]); auto; try discriminate. repeat constructor; discriminate.
  - intros v H. destruct (denotes_packed_inv _ _ _ H eq_refl) as (neg & ds & E & _ & _ & F & L & _).
    cbn [fa a_digits pack] in L. destruct ds as [|d1 [|d2 [|d3 r]]]; try (cbn [length] in L; lia).
    inversion F as [|? ? D1 F']; subst. unfold is_dig in D1.
    injection E as E1 E2. unfold packed in E1. cbn in E1. lia.
Qed.
Print Assumptions C13_inline_overflow_refuted.

(** ** C14: ADD an integer TO a DISPLAY item *)

(** The addend in units of the item's last digit.  For PIC 9(n)P(m) the
    addend is truncated to the item's positions. *)
Definition in_units (scale n : Z) : Z :=
  if 0 <=? scale then n * 10 ^ scale else Z.quot n (10 ^ (- scale)).

Lemma scaled_units : forall s n neg, is_int n -> Z.abs (in_units s n) < 2 ^ 63 ->
  scaled_addend s (if (neg : bool) then - n else n) = Ok (if neg then - in_units s n else in_units s n).
Proof.
  intros s n neg Hn HB. unfold scaled_addend, in_units in *.
  destruct (Z.leb_spec 0 s) as [Hs|Hs].
  - replace ((if neg then - n else n) * 10 ^ s) with (if neg then - (n * 10 ^ s) else n * 10 ^ s) by (destruct neg; lia).
    destruct (Z.leb_spec (2 ^ 63) (Z.abs (if neg then - (n * 10 ^ s) else n * 10 ^ s))) as [C|C].
    + exfalso. destruct neg; lia.
    + reflexivity.
  - assert (P : 10 ^ (- s) <> 0) by (apply Z.pow_nonzero; lia).
    destruct (Z.ltb_spec (- s) 10) as [C|C].
    + destruct neg; [now rewrite Z.quot_opp_l|reflexivity].
    + assert (Q : Z.quot n (10 ^ (- s)) = 0).
      { apply Z.quot_small_iff; auto. unfold is_int, INT_MIN, INT_MAX in Hn.
        assert (10 ^ 10 <= 10 ^ (- s)) by (apply Z.pow_le_mono_r; lia).
        change (10 ^ 10) with 10000000000 in H. lia. }
      rewrite Q. destruct neg; reflexivity.
Qed.

Theorem C14_add_display : forall m f x n k,
  denotes (c_ebcdic m) f x -> wf_display f k -> (k <= 64)%nat -> is_int n ->
  let V := in_units (a_scale (fa f)) n in
  Z.abs V < 2 ^ 63 ->
  (* the sum fits: exact, no exception *)
  (Z.abs (x + V) < 10 ^ Z.of_nat k -> exists f', display_add m f n = Ok (false, f') /\
     fa f' = fa f /\ f_size f' = f_size f /\ denotes (c_ebcdic m) f' (held f (x + V))) /\
  (* addend and item of the same sign, sum too large: SIZE exception, item unchanged *)
  (10 ^ Z.of_nat k <= Z.abs (x + V) -> 0 < x * V -> c_bintrunc m = true ->
     display_add m f n = Ok (true, f)) /\
  (* otherwise the low-order digits are kept *)
  (10 ^ Z.of_nat k <= Z.abs (x + V) -> (x * V < 0 \/ c_bintrunc m = false) ->
     exists f', display_add m f n = Ok (false, f') /\ fa f' = fa f /\ f_size f' = f_size f /\
       denotes (c_ebcdic m) f' (held f (low_part k (x + V)))).
Proof.
  intros m f x n k Hd Hw Hk Hn V HB. pose proof Hw as (Ht & Ha & H1 & HLen).
  destruct (denotes_display_inv _ f x Hd Ht) as (neg & ds & Ef & Ex & Hne & Hdg & Hsg & _).
  assert (HL : length ds = k).
  { rewrite Ef in HLen. cbn [fd fa] in HLen. rewrite zoned_length in HLen by auto. lia. }
  destruct (display_add_spec m (fa f) neg ds n V Ht Ha Hne Hdg Hsg ltac:(lia)
              (scaled_units _ n neg Hn HB)) as (OV & NO).
  cbv zeta in OV, NO. rewrite <- Ef in OV, NO. rewrite HL in OV, NO. rewrite <- Ex in OV, NO.
  pose proof (digits_value_bound ds Hdg) as DB.
  assert (SX : 0 < x * V -> if neg then V < 0 else 0 < V).
  { intros Q. rewrite Ex in Q. unfold signed_value in Q. destruct neg.
    - assert (~ 0 <= V) by (intro; assert (0 <= digits_value ds * V) by (apply Z.mul_nonneg_nonneg; lia); lia). lia.
    - assert (~ V <= 0) by (intro; assert (0 <= digits_value ds * - V) by (apply Z.mul_nonneg_nonneg; lia); lia). lia. }
  assert (SX' : x * V < 0 -> ~ (if neg then V < 0 else 0 < V)).
  { intros Q. rewrite Ex in Q. unfold signed_value in Q. destruct neg; intros QQ.
    - assert (0 <= digits_value ds * - V) by (apply Z.mul_nonneg_nonneg; lia). lia.
    - assert (0 <= digits_value ds * V) by (apply Z.mul_nonneg_nonneg; lia). lia. }
  assert (FIN : ~ (c_bintrunc m = true /\ 10 ^ Z.of_nat k <= Z.abs (x + V) /\ (if neg then V < 0 else 0 < V)) ->
     exists f', display_add m f n = Ok (false, f') /\ fa f' = fa f /\ f_size f' = f_size f /\
       denotes (c_ebcdic m) f' (held f (low_part k (x + V)))).
  { intros NC. destruct (NO NC) as (neg' & ds' & E & L & F & S & V').
    eexists. split; [exact E|]. split; [reflexivity|].
    assert (NE' : ds' <> []) by (intro Q; subst ds'; cbn [length] in L; lia). split.
    - unfold f_size. cbn [fd]. rewrite Ef at 2. cbn [fd]. rewrite !zoned_length by auto. lia.
    - assert (VV : held f (low_part k (x + V)) = signed_value neg' ds').
      { rewrite V'. unfold held, low_part. destruct (a_sign (fa f)); [reflexivity|].
        set (t := x + V). pose proof (pow10_pos_nat k) as PP.
        rewrite Z.abs_mul. rewrite (Z.abs_eq (_ mod _)) by (apply Z.mod_pos_bound; lia).
        destruct (Z.eq_dec t 0) as [->|]; [rewrite Z.mod_0_l by lia; reflexivity|].
        replace (Z.abs (Z.sgn t)) with 1 by lia. lia. }
      rewrite VV. apply den_display; auto. }
  split; [|split].
  - intros HF. destruct FIN as (f' & E & A & S & D).
    { intros (_ & Q & _). lia. }
    rewrite low_part_fits in D by auto. exists f'. auto 10.
  - intros HO HS HT. apply OV. split; [exact HT|]. split; [exact HO|exact (SX HS)].
  - intros HO HC. apply FIN. intros (Q1 & Q2 & Q3). destruct HC as [HC|HC]; [|congruence].
    now apply (SX' HC).
Qed.
Print Assumptions C14_add_display.
Example C14_ex : display_add default_cfg (mkField (disp 3 1 true false false) [49;50;115]) 20 =
    Ok (false, mkField (disp 3 1 true false false) [48;55;55]) /\
  display_add default_cfg (mkField (disp 2 0 true false false) [57;53]) 5 =
    Ok (true, mkField (disp 2 0 true false false) [57;53]).
Proof. split; reflexivity. Qed.

(** Finding: a SIZE overflow that crosses zero is not reported: 5 - 18 in
    PIC S9 gives -3 with no exception. *)
Theorem C14_crossing_zero_refuted : exists f f', denotes false f 5 /\
  display_add default_cfg f (-18) = Ok (false, f') /\ denotes false f' (-3).
Proof.
  exists (mkField (disp 1 0 true false false) [53]), (mkField (disp 1 0 true false false) [115]).
  split; [|split; [reflexivity|]].
  - apply (den_display false (disp 1 0 true false false) false [5]); auto; try discriminate. repeat constructor; discriminate.
  - apply (den_display false (disp 1 0 true false false) true [3]); auto; try discriminate. repeat constructor; discriminate.
Qed.
Print Assumptions C14_crossing_zero_refuted.

(** ADD/SUBTRACT dispatch: zero does nothing, SUBTRACT is ADD of the negative. *)
Theorem C14_add_int_dispatch : forall m f n, 
  (add_int m f 0 = Ok (false, f)) /\
  (n <> 0 -> a_type (fa f) = TDisplay -> add_int m f n = display_add m f n) /\
  (n <> 0 -> a_type (fa f) = TPacked -> add_int m f n = (do f' <- add_packed f n; Ok (false, f'))) /\
  (n <> - 2 ^ 31 -> sub_int m f n = add_int m f (- n)).
Proof.
  intros m f n. split; [reflexivity|]. unfold add_int, sub_int.
  split; [|split].
  - intros H T. destruct (Z.eqb_spec n 0); [congruence|]. now rewrite T.
  - intros H T. destruct (Z.eqb_spec n 0); [congruence|]. now rewrite T.
  - intros H. destruct (Z.eqb_spec n 0) as [->|]; [reflexivity|].
    destruct (Z.eqb_spec n (- 2 ^ 31)); [congruence|]. reflexivity.
Qed.
Print Assumptions C14_add_int_dispatch.
