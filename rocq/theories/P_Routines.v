(** * Byte routines (C36), bit packing (C37), C$JUSTIFY (C38)
    Model: Routines.v (libcob/common.c 2292-2692). *)
From Verif Require Import Base BaseFacts InspectProofs Routines.

Local Open Scope nat_scope.

(** ** Specification *)
(** [r] is the byte obtained from [a] and [b] by the truth table [f]. *)
Definition bitwise (f : bool -> bool -> bool) (a b r : Z) : Prop :=
  is_byte r /\ forall i, (0 <= i < 8)%Z -> Z.testbit r i = f (Z.testbit a i) (Z.testbit b i).

(** The routine [run data-1 data-2 length] replaces the first [length] bytes of
    data-2 by the truth table [f] applied to the original bytes of data-1 and
    data-2; nothing else changes; a length of zero or less changes nothing.
    The operands may be the same item, or overlap with data-2 first. *)
Definition implements (f : bool -> bool -> bool) (run : nat -> nat -> Z -> list Z -> outcome (list Z)) : Prop :=
  forall mem p1 p2 (len : Z), bytes_ok mem ->
  let n := Z.to_nat len in
  p1 + n <= length mem -> p2 + n <= length mem -> (p2 <= p1 \/ p1 + n <= p2) ->
  exists mem', run p1 p2 len mem = Ok mem' /\ length mem' = length mem /\ bytes_ok mem' /\
    (forall i, i < n -> bitwise f (nth (p1 + i) mem 0%Z) (nth (p2 + i) mem 0%Z) (nth (p2 + i) mem' 0%Z)) /\
    (forall i, i < p2 \/ p2 + n <= i -> nth i mem' 0%Z = nth i mem 0%Z).

(** ** Proofs *)
Lemma rd_ok : forall mem i, i < length mem -> rd mem i = Ok (nth i mem 0%Z).
Proof. intros. unfold rd. rewrite (nth_error_nth' mem 0%Z) by auto. reflexivity. Qed.
Lemma wr_ok : forall mem i v, i < length mem -> wr mem i v = Ok (upd i v mem).
Proof. intros. unfold wr. destruct (Nat.ltb_spec i (length mem)); [reflexivity|lia]. Qed.

Lemma loop2_spec : forall op t n p1 p2 mem,
  p1 + n + t <= length mem -> p2 + n + t <= length mem -> (p2 <= p1 \/ p1 + n + t <= p2) ->
  exists mem', loop2 op t n p1 p2 mem = Ok mem' /\ length mem' = length mem /\
    (forall i, n <= i < n + t -> nth (p2 + i) mem' 0%Z = op (nth (p1 + i) mem 0%Z) (nth (p2 + i) mem 0%Z)) /\
    (forall i, i < p2 + n \/ p2 + n + t <= i -> nth i mem' 0%Z = nth i mem 0%Z).
Proof.
  induction t as [|t IH]; intros n p1 p2 mem H1 H2 HO; cbn [loop2].
  - exists mem. repeat split; auto. intros; lia.
  - rewrite rd_ok by lia. cbn [obind]. rewrite rd_ok by lia. cbn [obind]. rewrite wr_ok by lia. cbn [obind].
    set (v := op _ _). destruct (IH (S n) p1 p2 (upd (p2 + n) v mem)) as (mem' & E & L & A & B); rewrite ?upd_length; try lia.
    exists mem'. split; [exact E|]. rewrite upd_length in L. split; [exact L|]. split.
    + intros i Hi. destruct (Nat.eq_dec i n) as [->|NE].
      * rewrite B by lia. rewrite upd_nth_same by lia. reflexivity.
      * rewrite A by lia. rewrite !upd_nth_other by lia. reflexivity.
    + intros i Hi. rewrite B by lia. rewrite upd_nth_other by lia. reflexivity.
Qed.
Lemma loop1_spec : forall op t n p mem, p + n + t <= length mem ->
  exists mem', loop1 op t n p mem = Ok mem' /\ length mem' = length mem /\
    (forall i, n <= i < n + t -> nth (p + i) mem' 0%Z = op (nth (p + i) mem 0%Z)) /\
    (forall i, i < p + n \/ p + n + t <= i -> nth i mem' 0%Z = nth i mem 0%Z).
Proof.
  induction t as [|t IH]; intros n p mem H; cbn [loop1].
  - exists mem. repeat split; auto. intros; lia.
  - rewrite rd_ok by lia. cbn [obind]. rewrite wr_ok by lia. cbn [obind].
    set (v := op _). destruct (IH (S n) p (upd (p + n) v mem)) as (mem' & E & L & A & B); rewrite ?upd_length; try lia.
    exists mem'. split; [exact E|]. rewrite upd_length in L. split; [exact L|]. split.
    + intros i Hi. destruct (Nat.eq_dec i n) as [->|NE].
      * rewrite B by lia. rewrite upd_nth_same by lia. reflexivity.
      * rewrite A by lia. rewrite !upd_nth_other by lia. reflexivity.
    + intros i Hi. rewrite B by lia. rewrite upd_nth_other by lia. reflexivity.
Qed.

Lemma u8_byte : forall x, is_byte (u8 x).
Proof. intros. unfold u8, is_byte. pose proof (Z.mod_pos_bound x 256). lia. Qed.
Lemma u8_testbit : forall x i, (0 <= i < 8)%Z -> Z.testbit (u8 x) i = Z.testbit x i.
Proof. intros. unfold u8. change 256%Z with (2 ^ 8)%Z. apply Z.mod_pow2_bits_low. lia. Qed.

Lemma implements_gen : forall f op (run : nat -> nat -> Z -> list Z -> outcome (list Z)),
  (forall p1 p2 len mem, run p1 p2 len mem = guarded len mem (fun n => loop2 op n 0 p1 p2 mem)) ->
  (forall a b, bitwise f a b (op a b)) -> implements f run.
Proof.
  intros f op run R O mem p1 p2 len HB n H1 H2 HO. rewrite R. unfold guarded.
  destruct (Z.leb_spec len 0) as [L|L].
  - exists mem. unfold n in *. repeat split; auto; intros; lia.
  - fold n. destruct (loop2_spec op n 0 p1 p2 mem) as (mem' & E & LN & A & B); try lia.
    exists mem'. split; [exact E|]. split; [exact LN|].
    assert (A' : forall i, i < n -> bitwise f (nth (p1 + i) mem 0%Z) (nth (p2 + i) mem 0%Z) (nth (p2 + i) mem' 0%Z)).
    { intros i Hi. rewrite A by lia. apply O. }
    split; [|split; [exact A'|intros; apply B; lia]].
    apply Forall_forall. intros x I. destruct (In_nth _ _ 0%Z I) as (i & Hi & <-).
    destruct (Nat.lt_ge_cases i p2) as [C|C]; [rewrite B by lia; apply Forall_nth_Z; [exact HB|lia]|].
    destruct (Nat.lt_ge_cases i (p2 + n)) as [D|D]; [|rewrite B by lia; apply Forall_nth_Z; [exact HB|lia]].
    replace i with (p2 + (i - p2)) by lia. apply A'. lia.
Qed.

Ltac by_bits := intros a b; split; [apply u8_byte|]; intros i Hi; rewrite u8_testbit by exact Hi;
  rewrite ?Z.lnot_spec, ?Z.land_spec, ?Z.lor_spec, ?Z.lxor_spec, ?Z.lnot_spec by lia;
  destruct (Z.testbit a i), (Z.testbit b i); reflexivity.

(** ** C36 *)
Theorem C36_and : implements andb cbl_and.
Proof. eapply implements_gen; [intros; reflexivity|by_bits]. Qed.
Print Assumptions C36_and.
Theorem C36_or : implements orb cbl_or.
Proof. eapply implements_gen; [intros; reflexivity|by_bits]. Qed.
Print Assumptions C36_or.
Theorem C36_nor : implements (fun a b => negb (a || b)) cbl_nor.
Proof. eapply implements_gen; [intros; reflexivity|by_bits]. Qed.
Print Assumptions C36_nor.
Theorem C36_xor : implements xorb cbl_xor.
Proof. eapply implements_gen; [intros; reflexivity|by_bits]. Qed.
Print Assumptions C36_xor.
Theorem C36_imp : implements implb cbl_imp.
Proof. eapply implements_gen; [intros; reflexivity|by_bits]. Qed.
Print Assumptions C36_imp.
Theorem C36_nimp : implements (fun a b => a && negb b) cbl_nimp.
Proof. eapply implements_gen; [intros; reflexivity|by_bits]. Qed.
Print Assumptions C36_nimp.
Theorem C36_eq : implements Bool.eqb cbl_eq.
Proof. eapply implements_gen; [intros; reflexivity|by_bits]. Qed.
Print Assumptions C36_eq.

Lemma C36_not_nth : forall mem p (len : Z) op, p + Z.to_nat len <= length mem ->
  exists mem', guarded len mem (fun n => loop1 op n 0 p mem) = Ok mem' /\ length mem' = length mem /\
    (forall i, i < Z.to_nat len -> nth (p + i) mem' 0%Z = op (nth (p + i) mem 0%Z)) /\
    (forall i, i < p \/ p + Z.to_nat len <= i -> nth i mem' 0%Z = nth i mem 0%Z).
Proof.
  intros mem p len op H. unfold guarded. destruct (Z.leb_spec len 0) as [L|L].
  - exists mem. repeat split; auto. intros; lia.
  - destruct (loop1_spec op (Z.to_nat len) 0 p mem) as (mem' & E & LN & A & B); [lia|].
    exists mem'. repeat split; auto; intros; [apply A|apply B]; lia.
Qed.
Theorem C36_not : forall mem p (len : Z), p + Z.to_nat len <= length mem ->
  exists mem', cbl_not p len mem = Ok mem' /\ length mem' = length mem /\
    (forall i, i < Z.to_nat len -> bitwise (fun a _ => negb a) (nth (p + i) mem 0%Z) 0%Z (nth (p + i) mem' 0%Z)) /\
    (forall i, i < p \/ p + Z.to_nat len <= i -> nth i mem' 0%Z = nth i mem 0%Z).
Proof.
  intros mem p len H. destruct (C36_not_nth mem p len (fun a => u8 (Z.lnot a)) H) as (mem' & E & L & A & B).
  exists mem'. repeat split; auto.
  - rewrite A by auto. apply u8_byte.
  - rewrite A by auto. apply u8_byte.
  - intros j Hj. rewrite A by auto. rewrite u8_testbit, Z.lnot_spec by lia. reflexivity.
Qed.
Print Assumptions C36_not.

(** CBL_TOUPPER and CBL_TOLOWER: the letters of the first [len] bytes only. *)
Definition letter_lower (c : Z) : Prop := (97 <= c <= 122)%Z.
Definition letter_upper (c : Z) : Prop := (65 <= c <= 90)%Z.
Theorem C36_case : forall mem p (len : Z), p + Z.to_nat len <= length mem ->
  (exists mem', cbl_toupper p len mem = Ok mem' /\ length mem' = length mem /\
    (forall i, p <= i < p + Z.to_nat len -> letter_lower (nth i mem 0%Z) -> nth i mem' 0%Z = (nth i mem 0 - 32)%Z) /\
    (forall i, ~ (p <= i < p + Z.to_nat len) \/ ~ letter_lower (nth i mem 0%Z) -> nth i mem' 0%Z = nth i mem 0%Z)) /\
  (exists mem', cbl_tolower p len mem = Ok mem' /\ length mem' = length mem /\
    (forall i, p <= i < p + Z.to_nat len -> letter_upper (nth i mem 0%Z) -> nth i mem' 0%Z = (nth i mem 0 + 32)%Z) /\
    (forall i, ~ (p <= i < p + Z.to_nat len) \/ ~ letter_upper (nth i mem 0%Z) -> nth i mem' 0%Z = nth i mem 0%Z)).
Proof.
  intros mem p len H. unfold letter_lower, letter_upper. split.
  - destruct (C36_not_nth mem p len to_upper H) as (mem' & E & L & A & B). exists mem'. split; [exact E|]. split; [exact L|].
    assert (D : forall i, p <= i < p + Z.to_nat len -> nth i mem' 0%Z = to_upper (nth i mem 0%Z)).
    { intros i Hi. replace i with (p + (i - p)) by lia. apply A. lia. }
    split.
    + intros i Hi LL. rewrite D by auto. unfold to_upper. destruct (_ && _) eqn:X; lia.
    + intros i Hi. destruct (Nat.lt_ge_cases i p); [apply B; lia|].
      destruct (Nat.lt_ge_cases i (p + Z.to_nat len)); [|apply B; lia]. rewrite D by lia. unfold to_upper.
      destruct (_ && _) eqn:X; [|reflexivity]. destruct Hi as [Hi|Hi]; [lia|]. exfalso. apply Hi. lia.
  - destruct (C36_not_nth mem p len to_lower H) as (mem' & E & L & A & B). exists mem'. split; [exact E|]. split; [exact L|].
    assert (D : forall i, p <= i < p + Z.to_nat len -> nth i mem' 0%Z = to_lower (nth i mem 0%Z)).
    { intros i Hi. replace i with (p + (i - p)) by lia. apply A. lia. }
    split.
    + intros i Hi LL. rewrite D by auto. unfold to_lower. destruct (_ && _) eqn:X; lia.
    + intros i Hi. destruct (Nat.lt_ge_cases i p); [apply B; lia|].
      destruct (Nat.lt_ge_cases i (p + Z.to_nat len)); [|apply B; lia]. rewrite D by lia. unfold to_lower.
      destruct (_ && _) eqn:X; [|reflexivity]. destruct Hi as [Hi|Hi]; [lia|]. exfalso. apply Hi. lia.
Qed.
Print Assumptions C36_case.

Example C36_ex : cbl_xor 0 2 2 [255; 15; 1; 255; 7]%Z = Ok [255; 15; 254; 240; 7]%Z.
Proof. reflexivity. Qed.
(** The same item twice: XOR clears it. *)
Example C36_ex_same : cbl_xor 1 1 2 [9; 12; 13; 9]%Z = Ok [9; 0; 0; 9]%Z.
Proof. reflexivity. Qed.

(** ** C37 *)
Lemma land_1_odd : forall b, Z.land b 1 = if Z.odd b then 1%Z else 0%Z.
Proof.
  intros. change 1%Z with (Z.ones 1). rewrite Z.land_ones by lia. change (2 ^ 1)%Z with 2%Z.
  rewrite Zmod_odd. reflexivity.
Qed.
Lemma land_bit : forall a i, (0 <= i)%Z -> (Z.land a (Z.shiftl 1 i) =? 0)%Z = negb (Z.testbit a i).
Proof.
  intros a i Hi. rewrite Z.shiftl_1_l. destruct (Z.testbit a i) eqn:E; cbn [negb].
  - apply Z.eqb_neq. intros X. assert (Y : Z.testbit (Z.land a (2 ^ i)) i = false) by (rewrite X; apply Z.bits_0).
    rewrite Z.land_spec, E, Z.pow2_bits_true in Y by lia. discriminate.
  - apply Z.eqb_eq. apply Z.bits_inj'. intros n Hn. rewrite Z.land_spec, Z.bits_0.
    destruct (Z.eq_dec n i) as [->|NE]; [rewrite E; reflexivity|]. rewrite Z.pow2_bits_false by lia. apply andb_false_r.
Qed.

Lemma xf5_loop_spec : forall t n p1 p2 mem, p1 < length mem -> p2 + n + t <= length mem -> n + t <= 8 ->
  (p1 < p2 + n \/ p2 + n + t <= p1) ->
  exists mem', xf5_loop t n p1 p2 mem = Ok mem' /\ length mem' = length mem /\
    (forall i, n <= i < n + t -> nth (p2 + i) mem' 0%Z = Z.b2z (Z.testbit (nth p1 mem 0%Z) (7 - Z.of_nat i))) /\
    (forall i, i < p2 + n \/ p2 + n + t <= i -> nth i mem' 0%Z = nth i mem 0%Z).
Proof.
  induction t as [|t IH]; intros n p1 p2 mem H1 H2 H8 HO; cbn [xf5_loop].
  - exists mem. repeat split; auto; intros; lia.
  - rewrite rd_ok by lia. cbn [obind]. rewrite wr_ok by lia. cbn [obind].
    match goal with |- context [upd (p2 + n) ?x mem] => set (v := x) end. destruct (IH (S n) p1 p2 (upd (p2 + n) v mem)) as (mem' & E & L & A & B); rewrite ?upd_length; try lia.
    exists mem'. split; [exact E|]. rewrite upd_length in L. split; [exact L|]. rewrite upd_nth_other in A by lia. split.
    + intros i Hi. destruct (Nat.eq_dec i n) as [->|NE]; [|apply A; lia].
      rewrite B by lia. rewrite upd_nth_same by lia. unfold v. rewrite land_bit by lia.
      destruct (Z.testbit _ _); reflexivity.
    + intros i Hi. rewrite B by lia. rewrite upd_nth_other by lia. reflexivity.
Qed.

Lemma xf4_loop_spec : forall t n p1 p2 mem, p1 < length mem -> p2 + n + t <= length mem -> n + t = 8 ->
  (p1 < p2 + n \/ p2 + n + t <= p1) ->
  is_byte (nth p1 mem 0%Z) ->
  (forall i, (0 <= i < 8)%Z -> (Z.of_nat n <= 7 - i)%Z -> Z.testbit (nth p1 mem 0%Z) i = false) ->
  exists mem', xf4_loop t n p1 p2 mem = Ok mem' /\ length mem' = length mem /\ is_byte (nth p1 mem' 0%Z) /\
    (forall i, n <= i < n + t -> Z.testbit (nth p1 mem' 0%Z) (7 - Z.of_nat i) = Z.odd (nth (p2 + i) mem 0%Z)) /\
    (forall i, i < n -> Z.testbit (nth p1 mem' 0%Z) (7 - Z.of_nat i) = Z.testbit (nth p1 mem 0%Z) (7 - Z.of_nat i)) /\
    (forall i, i <> p1 -> nth i mem' 0%Z = nth i mem 0%Z).
Proof.
  induction t as [|t IH]; intros n p1 p2 mem H1 H2 H8 HO HB HZ; cbn [xf4_loop].
  - exists mem. repeat split; auto; intros; try lia; apply HB.
  - rewrite rd_ok by lia. cbn [obind]. rewrite rd_ok by lia. cbn [obind]. rewrite wr_ok by lia. cbn [obind].
    set (v := u8 _).
    assert (BIT : forall i, (0 <= i < 8)%Z -> Z.testbit v i =
       Z.testbit (nth p1 mem 0%Z) i || ((i =? 7 - Z.of_nat n)%Z && Z.odd (nth (p2 + n) mem 0%Z))).
    { intros i Hi. unfold v. rewrite u8_testbit by lia. rewrite Z.lor_spec. f_equal.
      rewrite Z.shiftl_spec by lia. rewrite land_1_odd.
      destruct (Z.eqb_spec i (7 - Z.of_nat n)) as [->|NE]; cbn [andb].
      - rewrite Z.sub_diag. destruct (Z.odd _); reflexivity.
      - destruct (Z.lt_ge_cases i (7 - Z.of_nat n)); [apply Z.testbit_neg_r; lia|].
        destruct (Z.odd _); [|apply Z.bits_0].
        change 1%Z with (2 ^ 0)%Z. apply Z.pow2_bits_false. lia. }
    destruct (IH (S n) p1 p2 (upd p1 v mem)) as (mem' & E & L & BY & A & B & C); rewrite ?upd_length, ?upd_nth_same by lia; try lia.
    + apply u8_byte.
    + intros i Hi Hn. rewrite BIT by lia. rewrite HZ by lia. cbn [orb].
      destruct (Z.eqb_spec i (7 - Z.of_nat n)); [lia|reflexivity].
    + rewrite upd_length in L. rewrite upd_nth_same in B by lia.
      exists mem'. repeat split; auto; try apply BY.
      * intros i Hi. destruct (Nat.eq_dec i n) as [->|NE].
        -- rewrite B by lia. rewrite BIT by lia. rewrite HZ by lia. rewrite Z.eqb_refl. reflexivity.
        -- rewrite A by lia. f_equal. apply upd_nth_other. lia.
      * intros i Hi. rewrite B by lia. rewrite BIT by lia. destruct (Z.eqb_spec (7 - Z.of_nat i) (7 - Z.of_nat n)); [lia|].
        cbn [andb]. apply orb_false_r.
      * intros i Hi. rewrite C by auto. apply upd_nth_other. auto.
Qed.

(** X"F5" writes the bits of the byte, most significant first, as eight bytes
    0 or 1; X"F4" builds the byte from the low bits of eight bytes. *)
Theorem C37_unpack : forall mem p1 p2, p1 < length mem -> p2 + 8 <= length mem -> (p1 < p2 \/ p2 + 8 <= p1) ->
  exists mem', cbl_xf5 p1 p2 mem = Ok mem' /\ length mem' = length mem /\
    (forall i, i < 8 -> nth (p2 + i) mem' 0%Z = Z.b2z (Z.testbit (nth p1 mem 0%Z) (7 - Z.of_nat i))) /\
    (forall i, i < p2 \/ p2 + 8 <= i -> nth i mem' 0%Z = nth i mem 0%Z).
Proof.
  intros mem p1 p2 H1 H2 HO. destruct (xf5_loop_spec 8 0 p1 p2 mem) as (mem' & E & L & A & B); try lia.
  exists mem'. repeat split; auto; intros; [apply A|apply B]; lia.
Qed.
Print Assumptions C37_unpack.
Theorem C37_pack : forall mem p1 p2, p1 < length mem -> p2 + 8 <= length mem -> (p1 < p2 \/ p2 + 8 <= p1) ->
  exists mem', cbl_xf4 p1 p2 mem = Ok mem' /\ length mem' = length mem /\ is_byte (nth p1 mem' 0%Z) /\
    (forall i, i < 8 -> Z.testbit (nth p1 mem' 0%Z) (7 - Z.of_nat i) = Z.odd (nth (p2 + i) mem 0%Z)) /\
    (forall i, i <> p1 -> nth i mem' 0%Z = nth i mem 0%Z).
Proof.
  intros mem p1 p2 H1 H2 HO. unfold cbl_xf4. rewrite wr_ok by lia. cbn [obind].
  destruct (xf4_loop_spec 8 0 p1 p2 (upd p1 0%Z mem)) as (mem' & E & L & BY & A & _ & C);
    rewrite ?upd_length, ?upd_nth_same by lia; try lia.
  - split; lia.
  - intros. apply Z.bits_0.
  - rewrite upd_length in L. exists mem'. repeat split; auto; try apply BY.
    + intros i Hi. rewrite A by lia. f_equal. apply upd_nth_other. lia.
    + intros i Hi. rewrite C by auto. apply upd_nth_other. auto.
Qed.
Print Assumptions C37_pack.

Lemma byte_ext : forall a b, is_byte a -> is_byte b ->
  (forall i, i < 8 -> Z.testbit a (7 - Z.of_nat i) = Z.testbit b (7 - Z.of_nat i)) -> a = b.
Proof.
  intros a b HA HB H. apply Z.bits_inj'. intros n Hn. destruct (Z.lt_ge_cases n 8) as [L|L].
  - specialize (H (Z.to_nat (7 - n)) ltac:(lia)). replace (7 - Z.of_nat (Z.to_nat (7 - n)))%Z with n in H by lia. exact H.
  - assert (S : forall x, is_byte x -> Z.testbit x n = false).
    { intros x [X1 X2]. destruct (Z.eq_dec x 0) as [->|NZ]; [apply Z.bits_0|]. apply Z.bits_above_log2; [lia|].
      assert (x < 2 ^ 8)%Z by (change (2 ^ 8)%Z with 256%Z; lia). apply Z.log2_lt_pow2 in H0; lia. }
    rewrite !S; auto.
Qed.

(** Unpack then pack: the byte comes back (also after the byte was overwritten). *)
Theorem C37_unpack_pack : forall mem p1 p2 v, p1 < length mem -> p2 + 8 <= length mem -> (p1 < p2 \/ p2 + 8 <= p1) ->
  is_byte (nth p1 mem 0%Z) ->
  exists mem1 mem2, cbl_xf5 p1 p2 mem = Ok mem1 /\ cbl_xf4 p1 p2 (upd p1 v mem1) = Ok mem2 /\
    nth p1 mem2 0%Z = nth p1 mem 0%Z.
Proof.
  intros mem p1 p2 v H1 H2 HO HB. destruct (C37_unpack mem p1 p2 H1 H2 HO) as (mem1 & E1 & L1 & A1 & B1).
  destruct (C37_pack (upd p1 v mem1) p1 p2) as (mem2 & E2 & L2 & BY & A2 & _); rewrite ?upd_length; try lia.
  exists mem1, mem2. split; [exact E1|]. split; [exact E2|]. apply byte_ext; auto. intros i Hi. rewrite A2 by auto.
  rewrite upd_nth_other by lia. rewrite A1 by auto. destruct (Z.testbit _ _); reflexivity.
Qed.
Print Assumptions C37_unpack_pack.
(** Pack then unpack: flags 0/1 come back. *)
Theorem C37_pack_unpack : forall mem p1 p2 mem1, p1 < length mem -> p2 + 8 <= length mem -> (p1 < p2 \/ p2 + 8 <= p1) ->
  (forall i, i < 8 -> nth (p2 + i) mem 0%Z = 0%Z \/ nth (p2 + i) mem 0%Z = 1%Z) ->
  cbl_xf4 p1 p2 mem = Ok mem1 ->
  forall junk, length junk = length mem -> nth p1 junk 0%Z = nth p1 mem1 0%Z ->
  exists mem2, cbl_xf5 p1 p2 junk = Ok mem2 /\ forall i, i < 8 -> nth (p2 + i) mem2 0%Z = nth (p2 + i) mem 0%Z.
Proof.
  intros mem p1 p2 mem1 H1 H2 HO HF E1 junk LJ EJ.
  destruct (C37_pack mem p1 p2 H1 H2 HO) as (mem1' & E1' & L1 & BY & A1 & _). rewrite E1 in E1'. injection E1' as <-.
  destruct (C37_unpack junk p1 p2) as (mem2 & E2 & L2 & A2 & _); try lia.
  exists mem2. split; [exact E2|]. intros i Hi. rewrite A2, EJ, A1 by auto. destruct (HF i Hi) as [-> | ->]; reflexivity.
Qed.
Print Assumptions C37_pack_unpack.
Example C37_ex : cbl_xf5 0 1 [165; 9;9;9;9;9;9;9;9; 7]%Z = Ok [165; 1;0;1;0;0;1;0;1; 7]%Z /\
  cbl_xf4 0 1 [3; 1;0;1;0;0;1;0;1; 7]%Z = Ok [165; 1;0;1;0;0;1;0;1; 7]%Z.
Proof. split; reflexivity. Qed.

(** ** X"91": switches set and read back *)
Lemma x91_set_spec : forall t i p mem sw, p + i + t <= length mem -> length sw = 8 -> i + t = 8 ->
  exists sw', x91_set t i p mem sw = Ok sw' /\ length sw' = 8 /\
    (forall k, i <= k < 8 -> nth k sw' 0%Z = if ((nth (p + k) mem 0 =? 0) || (nth (p + k) mem 0 =? 1))%Z
                                            then nth (p + k) mem 0%Z else nth k sw 0%Z) /\
    (forall k, k < i -> nth k sw' 0%Z = nth k sw 0%Z).
Proof.
  induction t as [|t IH]; intros i p mem sw HM HS HI; cbn [x91_set].
  - exists sw. repeat split; auto; intros; lia.
  - rewrite rd_ok by lia. cbn [obind]. set (b := nth (p + i) mem 0%Z).
    match goal with |- context [x91_set t (S i) p mem ?x] => set (sw1 := x) end.
    assert (L1 : length sw1 = 8) by (unfold sw1; destruct (b =? 0)%Z; [|destruct (b =? 1)%Z]; rewrite ?upd_length; auto).
    assert (N1 : nth i sw1 0%Z = if ((b =? 0) || (b =? 1))%Z then b else nth i sw 0%Z).
    { unfold sw1. destruct (Z.eqb_spec b 0) as [e|]; [cbn [orb]; rewrite upd_nth_same by lia; now rewrite e|].
      destruct (Z.eqb_spec b 1) as [e|]; [cbn [orb]; rewrite upd_nth_same by lia; now rewrite e|]. reflexivity. }
    assert (N2 : forall k, k <> i -> nth k sw1 0%Z = nth k sw 0%Z).
    { intros k Hk. unfold sw1. destruct (b =? 0)%Z; [|destruct (b =? 1)%Z]; rewrite ?upd_nth_other by auto; reflexivity. }
    destruct (IH (S i) p mem sw1) as (sw' & E & L & A & B); try lia.
    exists sw'. repeat split; auto.
    + intros k Hk. destruct (Nat.eq_dec k i) as [->|NE].
      * rewrite B by lia. exact N1.
      * rewrite A by lia. rewrite N2 by auto. reflexivity.
    + intros k Hk. rewrite B by lia. apply N2. lia.
Qed.
Lemma x91_get_spec : forall t i p mem sw, p + i + t <= length mem ->
  exists mem', x91_get t i p mem sw = Ok mem' /\ length mem' = length mem /\
    (forall k, i <= k < i + t -> nth (p + k) mem' 0%Z = nth k sw 0%Z) /\
    (forall k, k < p + i \/ p + i + t <= k -> nth k mem' 0%Z = nth k mem 0%Z).
Proof.
  induction t as [|t IH]; intros i p mem sw HM; cbn [x91_get].
  - exists mem. repeat split; auto; intros; lia.
  - rewrite wr_ok by lia. cbn [obind].
    destruct (IH (S i) p (upd (p + i) (nth i sw 0%Z) mem) sw) as (mem' & E & L & A & B); rewrite ?upd_length; try lia.
    exists mem'. rewrite upd_length in L. repeat split; auto.
    + intros k Hk. destruct (Nat.eq_dec k i) as [->|NE]; [rewrite B by lia; apply upd_nth_same; lia|apply A; lia].
    + intros k Hk. rewrite B by lia. apply upd_nth_other. lia.
Qed.
(** Function 11 sets the switches whose flag is 0 or 1 and leaves the others;
    function 12 then shows exactly these values. *)
Theorem C37_switches : forall mem p n sw, p + 8 <= length mem -> length sw = 8 ->
  exists sw' mem', cbl_x91 11 p n mem sw = Ok (0%Z, mem, sw') /\ cbl_x91 12 p n mem sw' = Ok (0%Z, mem', sw') /\
    (forall k, k < 8 -> nth (p + k) mem' 0%Z =
       if ((nth (p + k) mem 0 =? 0) || (nth (p + k) mem 0 =? 1))%Z then nth (p + k) mem 0%Z else nth k sw 0%Z) /\
    (forall k, k < p \/ p + 8 <= k -> nth k mem' 0%Z = nth k mem 0%Z).
Proof.
  intros mem p n sw HM HS. destruct (x91_set_spec 8 0 p mem sw) as (sw' & E & L & A & _); try lia.
  destruct (x91_get_spec 8 0 p mem sw') as (mem' & E' & L' & A' & B'); try lia.
  exists sw', mem'. unfold cbl_x91. cbn [Z.eqb Pos.eqb]. rewrite E, E'. cbn [obind]. repeat split; auto.
  - intros k Hk. rewrite A' by lia. apply A. lia.
  - intros k Hk. apply B'. lia.
Qed.
Print Assumptions C37_switches.

(** ** C38 C$JUSTIFY *)
Definition spaces (n : nat) : list Z := repeat 32%Z n.
(** A text without leading or trailing spaces. *)
Definition trimmed (core : list Z) : Prop :=
  core <> [] /\ nth 0 core 0%Z <> 32%Z /\ nth (length core - 1) core 0%Z <> 32%Z.

Lemma lead_spaces_app : forall l core, core <> [] -> nth 0 core 0%Z <> 32%Z -> lead_spaces (spaces l ++ core) = l.
Proof.
  induction l as [|l IH]; intros core HN HC; cbn [spaces repeat app lead_spaces].
  - destruct core as [|c r]; [congruence|]. cbn [nth] in HC. cbn [lead_spaces]. destruct (Z.eqb_spec c 32); congruence.
  - rewrite Z.eqb_refl. f_equal. now apply IH.
Qed.
Lemma lead_spaces_all : forall n, lead_spaces (spaces n) = n.
Proof. induction n as [|n IH]; [reflexivity|]. cbn [spaces repeat lead_spaces]. rewrite Z.eqb_refl. now f_equal. Qed.
Lemma rev_spaces : forall n, rev (spaces n) = spaces n.
Proof.
  induction n as [|n IH]; [reflexivity|]. cbn [spaces repeat rev]. unfold spaces in IH. rewrite IH.
  clear. induction n as [|n IH]; [reflexivity|]. cbn [repeat app]. now rewrite IH.
Qed.
Lemma spaces_length : forall n, length (spaces n) = n.
Proof. intros. apply repeat_length. Qed.
Lemma spaces_app : forall a b, spaces a ++ spaces b = spaces (a + b).
Proof. intros. symmetry. apply repeat_app. Qed.

Lemma memmove_ok : forall mem d s n, d + n <= length mem -> s + n <= length mem ->
  memmove mem d s n = Ok (firstn d mem ++ firstn n (skipn s mem) ++ skipn (d + n) mem).
Proof. intros. unfold memmove. destruct (Nat.leb_spec (d + n) (length mem)), (Nat.leb_spec (s + n) (length mem)); try lia. reflexivity. Qed.
Lemma memset_ok : forall a b c i ch, i = length a -> memset (a ++ b ++ c) i ch (length b) = Ok (a ++ repeat ch (length b) ++ c).
Proof.
  intros a b c i ch ->. unfold memset. rewrite !app_length.
  destruct (Nat.leb_spec (length a + length b) (length a + (length b + length c))); [|lia].
  rewrite firstn_app, Nat.sub_diag, firstn_all, firstn_O, app_nil_r. do 3 f_equal.
  rewrite skipn_app. rewrite skipn_all2 by lia. cbn [app].
  replace (length a + length b - length a) with (length b) by lia.
  rewrite skipn_app, skipn_all, Nat.sub_diag. reflexivity.
Qed.

(** [memmove] of the core within the item, then the rest cleared. *)
Lemma moved : forall l r core d, d <= l + r ->
  exists x y, memmove (spaces l ++ core ++ spaces r) d l (length core) = Ok (x ++ core ++ y) /\
    length x = d /\ length y = l + r - d.
Proof.
  intros l r core d HD. set (mem := spaces l ++ core ++ spaces r).
  assert (LM : length mem = l + length core + r) by (unfold mem; rewrite !app_length, !spaces_length; lia).
  rewrite memmove_ok by lia.
  exists (firstn d mem), (skipn (d + length core) mem). split; [|rewrite firstn_length, skipn_length; lia].
  do 3 f_equal. unfold mem. rewrite skipn_app, skipn_all2 by (rewrite spaces_length; lia). rewrite spaces_length, Nat.sub_diag.
  cbn [app skipn]. rewrite firstn_app, firstn_all, Nat.sub_diag. apply app_nil_r.
Qed.

Theorem C38_justify : forall l core r dir, trimmed core ->
  acuw_justify (spaces l ++ core ++ spaces r) dir =
  Ok (match dir with
      | JLeft => core ++ spaces (l + r)
      | JRight => spaces (l + r) ++ core
      | JCentre => spaces ((l + r) / 2) ++ core ++ spaces (l + r - (l + r) / 2)
      end).
Proof.
  intros l core r dir (HN & H0 & H1). unfold acuw_justify. set (data := spaces l ++ core ++ spaces r).
  assert (LC : 1 <= length core) by (destruct core; [congruence|cbn; lia]).
  assert (LD : length data = l + length core + r) by (unfold data; rewrite !app_length, !spaces_length; lia).
  assert (NIL : l = 0 -> r = 0 -> match dir with JLeft => core ++ spaces (l + r) | JRight => spaces (l + r) ++ core
      | JCentre => spaces ((l + r) / 2) ++ core ++ spaces (l + r - (l + r) / 2) end = data).
  { intros -> ->. unfold data. destruct dir; cbn [spaces repeat app Nat.add Nat.div Nat.sub]; try reflexivity.
    now rewrite app_nil_r. }
  destruct (Nat.ltb_spec (length data) 2) as [LT|GE].
  { rewrite NIL by lia. reflexivity. }
  assert (LS : lead_spaces data = l) by (unfold data; apply lead_spaces_app; [destruct core; [congruence|discriminate]|
     rewrite app_nth1 by lia; exact H0]).
  assert (RS : lead_spaces (rev data) = r).
  { unfold data. rewrite !rev_app_distr, !rev_spaces, <- app_assoc. apply lead_spaces_app.
    - intros X. apply app_eq_nil in X as [X _]. apply (f_equal (@rev Z)) in X. rewrite rev_involutive in X. cbn in X. congruence.
    - rewrite app_nth1 by (rewrite rev_length; lia). rewrite rev_nth by lia.
      replace (length core - 1) with (length core - 1) in H1 by lia. exact H1. }
  destruct (negb (nth 0 data 0 =? 32)%Z && negb (nth (length data - 1) data 0 =? 32)%Z) eqn:EE.
  { apply andb_prop in EE as [E1 E2]. apply negb_true_iff in E1, E2. apply Z.eqb_neq in E1, E2.
    assert (l = 0). { destruct l; [reflexivity|]. exfalso. apply E1. reflexivity. }
    assert (r = 0).
    { destruct r as [|r]; [reflexivity|]. exfalso. apply E2. unfold data. rewrite app_assoc.
      rewrite app_nth2; rewrite !app_length, !spaces_length; [|lia].
      match goal with |- nth ?k _ _ = _ => replace k with r by lia end.
      rewrite (nth_indep _ 0%Z 32%Z) by (rewrite spaces_length; lia). apply nth_repeat. }
    rewrite NIL by auto. reflexivity. }
  rewrite LS, RS. destruct (Nat.eqb_spec l (length data)) as [E|NE]; [lia|].
  replace (length data - l - r) with (length core) by lia.
  destruct dir; cbv zeta.
  - destruct (moved l r core 0) as (x & y & E & LX & LY); [lia|]. unfold data in *. rewrite E. cbn [obind].
    assert (X : x = []) by (destruct x; [reflexivity|discriminate]). subst x. cbn [app].
    rewrite <- (app_nil_r y). replace (length (spaces l ++ core ++ spaces r) - length core) with (length y) by lia.
    rewrite memset_ok by reflexivity. rewrite app_nil_r. do 3 f_equal. unfold spaces. f_equal. lia.
  - assert (C2 : Nat.div2 (l + r) = (l + r) / 2) by apply Nat.div2_div. rewrite C2. set (c := (l + r) / 2).
    assert (CB : 2 * c <= l + r /\ l + r <= 2 * c + 1) by (unfold c; lia).
    destruct (moved l r core c) as (x & y & E & LX & LY); [lia|]. unfold data in *. rewrite E. cbn [obind].
    assert (M1 : memset (x ++ core ++ y) 0 32 c = Ok (spaces c ++ core ++ y)).
    { rewrite <- LX. apply (memset_ok [] x (core ++ y) 0 32%Z eq_refl). }
    rewrite M1. cbn [obind].
    assert (M2 : forall k, k = l + r - c -> memset (spaces c ++ core ++ y) (c + length core) 32 k
       = Ok (spaces c ++ core ++ spaces (l + r - c))).
    { intros k ->. rewrite <- LY. rewrite app_assoc, <- (app_nil_r y) at 1. rewrite memset_ok by (rewrite app_length, spaces_length; reflexivity).
      rewrite app_nil_r, <- app_assoc. reflexivity. }
    destruct (Nat.odd (l + r)) eqn:OD; apply M2.
    + apply Nat.odd_spec in OD as (q & OD). unfold c. lia.
    + assert (EV : Nat.even (l + r) = true) by (rewrite <- Nat.negb_odd, OD; reflexivity).
      apply Nat.even_spec in EV as (q & EV). unfold c. lia.
  - destruct (moved l r core (l + r)) as (x & y & E & LX & LY); [lia|]. unfold data in *. rewrite E. cbn [obind].
    assert (Y : y = []) by (destruct y; [reflexivity|cbn in LY; lia]). subst y.
    replace (length (spaces l ++ core ++ spaces r) - length core) with (length x) by lia.
    rewrite app_nil_r. change (x ++ core) with ([] ++ x ++ core). rewrite memset_ok by reflexivity.
    rewrite LX. reflexivity.
Qed.
Print Assumptions C38_justify.

(** An item of spaces stays as it is; every other item has the form of
    [C38_justify]. *)
Theorem C38_blank : forall n dir, acuw_justify (spaces n) dir = Ok (spaces n).
Proof.
  intros n dir. unfold acuw_justify. destruct (_ <? 2); [reflexivity|]. destruct (_ && _); [reflexivity|].
  rewrite lead_spaces_all, spaces_length, Nat.eqb_refl. reflexivity.
Qed.
Print Assumptions C38_blank.
Lemma strip_left : forall data, (exists n, data = spaces n) \/
  exists l rest, data = spaces l ++ rest /\ rest <> [] /\ nth 0 rest 0%Z <> 32%Z.
Proof.
  induction data as [|c data IH]; [left; exists 0; reflexivity|].
  destruct (Z.eq_dec c 32) as [->|NE].
  - destruct IH as [[n ->]|(l & rest & -> & A & B)]; [left; exists (S n); reflexivity|].
    right. exists (S l), rest. auto.
  - right. exists 0, (c :: data). repeat split; auto. discriminate.
Qed.
Theorem C38_every_item : forall data, (exists n, data = spaces n) \/
  exists l core r, data = spaces l ++ core ++ spaces r /\ trimmed core.
Proof.
  intros data. destruct (strip_left data) as [H|(l & rest & E & NE & H0)]; [now left|]. right.
  destruct (strip_left (rev rest)) as [[n E2]|(r & rest2 & E2 & NE2 & H1)].
  - exfalso. apply (f_equal (@rev Z)) in E2. rewrite rev_involutive, rev_spaces in E2. subst rest.
    destruct n; [apply NE; reflexivity|]. apply H0. reflexivity.
  - apply (f_equal (@rev Z)) in E2. rewrite rev_involutive, rev_app_distr, rev_spaces in E2.
    assert (L2 : 1 <= length rest2) by (destruct rest2; [congruence|cbn; lia]).
    exists l, (rev rest2), r. split; [now rewrite E, E2|]. split; [|split].
    + intros X. apply (f_equal (@length Z)) in X. rewrite rev_length in X. cbn in X. lia.
    + intros X. apply H0. rewrite E2, app_nth1 by (rewrite rev_length; lia). exact X.
    + rewrite rev_length, rev_nth by lia. replace (length rest2 - S (length rest2 - 1)) with 0 by lia. exact H1.
Qed.
Print Assumptions C38_every_item.
Example C38_ex : acuw_justify [32; 65; 32; 66; 32; 32]%Z JCentre = Ok [32; 65; 32; 66; 32; 32]%Z /\
  acuw_justify [32; 65; 32; 66; 32; 32]%Z JRight = Ok [32; 32; 32; 65; 32; 66]%Z /\ trimmed [65; 32; 66]%Z.
Proof. repeat split; try reflexivity; discriminate. Qed.
