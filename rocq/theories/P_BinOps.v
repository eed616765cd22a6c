(** The optimised helpers on binary items: C50.
    [bin_value sg swap l] (SpecNum) is the number that the bytes [l] denote:
    two's complement if [sg], most significant byte first if [swap]. *)
From Verif Require Import Base BaseFacts Field Sign Decimal SpecNum Numeric SpecStore BinProofs BinOps.

(** [y] is the number of [w] bytes congruent to [x]: x modulo 2^(8w). *)
Definition wrapped (sg : bool) (w : nat) (x y : Z) : Prop :=
  (exists k, y = x + k * 2 ^ (8 * Z.of_nat w)) /\
  if sg then - 2 ^ (8 * Z.of_nat w - 1) <= y < 2 ^ (8 * Z.of_nat w - 1) else 0 <= y < 2 ^ (8 * Z.of_nat w).

Lemma pow256 : forall n : nat, 256 ^ Z.of_nat n = 2 ^ (8 * Z.of_nat n).
Proof. intros n. change 256 with (2 ^ 8). now rewrite <- Z.pow_mul_r by lia. Qed.
Lemma pow256_pos : forall n : nat, 0 < 256 ^ Z.of_nat n.
Proof. intros n. apply Z.pow_pos_nonneg; lia. Qed.
Lemma pow256_even : forall n : nat, (1 <= n)%nat -> exists h, 256 ^ Z.of_nat n = 2 * h /\ 0 < h /\ 256 ^ Z.of_nat n / 2 = h /\ h = 2 ^ (8 * Z.of_nat n - 1).
Proof.
  intros n N. exists (2 ^ (8 * Z.of_nat n - 1)). rewrite pow256. assert (E : 2 ^ (8 * Z.of_nat n) = 2 * 2 ^ (8 * Z.of_nat n - 1)) by (rewrite <- Z.pow_succ_r by lia; f_equal; lia). rewrite E.
  split; [reflexivity|]. split; [apply Z.pow_pos_nonneg; lia|]. split; [rewrite Z.mul_comm, Z.div_mul; lia|reflexivity].
Qed.
Lemma container_ge : forall w, (1 <= w <= 8)%nat -> (w <= container w <= 8)%nat.
Proof. intros w W. destruct (len_cases w W) as [->|[->|[->|[->|[->|[->|[->| ->]]]]]]]; cbn; lia. Qed.
Lemma rev_zeros : forall n, rev (repeat 0 n) = repeat 0 n.
Proof. induction n as [|n IH]; [reflexivity|]. cbn [repeat rev]. rewrite IH. clear. induction n as [|n IH]; [reflexivity|]. cbn [repeat app]. now rewrite IH. Qed.

Lemma signed_load : forall l, (1 <= length l <= 8)%nat -> bytes_ok l ->
  Z.shiftr (as_signed (container (length l)) (le_value (pad (length l) ++ l))) (8 * Z.of_nat (container (length l) - length l)) =
  as_signed (length l) (le_value l).
Proof.
  intros l L B. set (w := length l) in *. set (c := container w). pose proof (container_ge w L) as CG. fold c in CG.
  unfold pad. fold c. rewrite le_value_app, le_value_zeros, repeat_length. rewrite Z.shiftr_div_pow2 by lia. rewrite <- pow256.
  set (D := 256 ^ Z.of_nat (c - w)). assert (DP : 0 < D) by apply pow256_pos.
  assert (CD : 256 ^ Z.of_nat c = D * 256 ^ Z.of_nat w) by (unfold D; rewrite <- Z.pow_add_r by lia; f_equal; lia).
  pose proof (le_value_bound l B) as BB. fold w in BB. set (u := le_value l) in *. unfold as_signed.
  destruct (pow256_even w ltac:(lia)) as (h & E1 & E2 & E3 & _). rewrite E3.
  assert (CH : 256 ^ Z.of_nat c / 2 = D * h) by (rewrite CD, E1; replace (D * (2 * h)) with (D * h * 2) by ring; apply Z.div_mul; lia).
  rewrite CH, Z.add_0_l. destruct (Z.leb_spec (D * h) (D * u)) as [X|X], (Z.leb_spec h u) as [Y|Y].
  - rewrite CD. replace (D * u - D * 256 ^ Z.of_nat w) with ((u - 256 ^ Z.of_nat w) * D) by ring. apply Z.div_mul. lia.
  - exfalso. apply (Z.mul_lt_mono_pos_l D) in Y; lia.
  - exfalso. apply (Z.mul_le_mono_nonneg_l _ _ D) in Y; lia.
  - rewrite Z.mul_comm. apply Z.div_mul. lia.
Qed.
Lemma load_native_ok : forall sg l, (1 <= length l <= 8)%nat -> bytes_ok l -> load_native sg l = bin_value sg false l.
Proof.
  intros sg l L B. unfold load_native, bin_value, bin_unsigned. rewrite !le_u_value. destruct sg; cbn [andb].
  - rewrite signed_load by assumption. reflexivity.
  - unfold pad. rewrite le_value_app, le_value_zeros. lia.
Qed.
Lemma bin_value_rev : forall sg l, bin_value sg false (rev l) = bin_value sg true l.
Proof. intros. unfold bin_value, bin_unsigned. now rewrite rev_length. Qed.
Lemma load_swapped_ok : forall sg l, (1 <= length l <= 8)%nat -> bytes_ok l -> load_swapped sg l = bin_value sg true l.
Proof.
  intros sg l L B. rewrite <- bin_value_rev, <- load_native_ok by (rewrite ?rev_length; auto; now apply bytes_rev).
  unfold load_swapped, load_native, pad. rewrite !rev_app_distr, rev_zeros, rev_length. reflexivity.
Qed.
Lemma single_byte : forall sg l, length l = 1%nat -> bin_value sg true l = bin_value sg false l.
Proof. intros sg l L. destruct l as [|a [|]]; try discriminate. reflexivity. Qed.

(** Comparison with any int. *)
Theorem C50_compare : forall sg swap l n, (1 <= length l <= 8)%nat -> bytes_ok l ->
  cmp_binary sg swap l n = match bin_value sg swap l ?= n with Lt => -1 | Eq => 0 | Gt => 1 end.
Proof.
  intros sg swap l n L B. unfold cmp_binary.
  assert (V : (if swap && negb (length l =? 1)%nat then load_swapped sg l else load_native sg l) = bin_value sg swap l).
  { destruct swap; cbn [andb]; [destruct (Nat.eqb_spec (length l) 1) as [E|E]; cbn [negb]|].
    - rewrite load_native_ok by assumption. symmetry. now apply single_byte.
    - now apply load_swapped_ok.
    - now apply load_native_ok. }
  rewrite V. destruct sg; cbn [negb andb].
  - unfold cmp3. destruct (Z.compare_spec (bin_value true swap l) n), (Z.ltb_spec (bin_value true swap l) n), (Z.ltb_spec n (bin_value true swap l)); lia.
  - assert (NN : 0 <= bin_value false swap l) by (unfold bin_value; cbn [andb]; apply bin_unsigned_bound; assumption).
    unfold cmp3. destruct (Z.ltb_spec n 0), (Z.compare_spec (bin_value false swap l) n), (Z.ltb_spec (bin_value false swap l) n), (Z.ltb_spec n (bin_value false swap l)); lia.
Qed.
Print Assumptions C50_compare.

Lemma le_bytes_mod : forall k v, le_value (le_bytes k v) = v mod 256 ^ Z.of_nat k.
Proof.
  induction k as [|k IH]; intros v; cbn [le_bytes le_value].
  - change (256 ^ Z.of_nat 0) with 1. now rewrite Z.mod_1_r.
  - rewrite IH, Nat2Z.inj_succ, Z.pow_succ_r by lia. pose proof (pow256_pos k). rewrite Z.rem_mul_r by lia. reflexivity.
Qed.
Lemma firstn_le_bytes : forall w c v, (w <= c)%nat -> firstn w (le_bytes c v) = le_bytes w v.
Proof. induction w as [|w IH]; intros c v L; [reflexivity|]. destruct c as [|c]; [lia|]. cbn [le_bytes firstn]. rewrite IH by lia. reflexivity. Qed.
Lemma mod_congr : forall a m, 0 < m -> exists k, a mod m = a + k * m.
Proof. intros a m M. exists (- (a / m)). pose proof (Z.div_mod a m ltac:(lia)). lia. Qed.
Lemma mod_mod_pow : forall r (w c : nat), (w <= c)%nat -> (r mod 256 ^ Z.of_nat c) mod 256 ^ Z.of_nat w = r mod 256 ^ Z.of_nat w.
Proof.
  intros r w c L. pose proof (pow256_pos w). assert (E : 256 ^ Z.of_nat c = 256 ^ Z.of_nat w * 256 ^ Z.of_nat (c - w)) by (rewrite <- Z.pow_add_r by lia; f_equal; lia).
  rewrite E, Z.rem_mul_r by (try apply Z.neq_sym; pose proof (pow256_pos (c - w)); lia). rewrite Z.mul_comm, Z.mod_add by lia. now rewrite Z.mod_mod by lia.
Qed.
Lemma store_ok : forall sg swap w r, (1 <= w <= 8)%nat -> let l := store swap w (r mod 256 ^ Z.of_nat (container w)) in
  length l = w /\ bytes_ok l /\ wrapped sg w r (bin_value sg swap l).
Proof.
  intros sg swap w r W l. pose proof (container_ge w W) as CG. set (c := container w) in *.
  assert (E : (if swap then rev l else l) = le_bytes w (r mod 256 ^ Z.of_nat c)).
  { unfold l, store. fold c. rewrite firstn_le_bytes by lia. destruct swap; [apply rev_involutive|reflexivity]. }
  assert (LL : length l = w) by (rewrite <- (le_bytes_length w (r mod 256 ^ Z.of_nat c)), <- E; destruct swap; [symmetry; apply rev_length|reflexivity]).
  assert (BB : bytes_ok l).
  { pose proof (le_bytes_ok w (r mod 256 ^ Z.of_nat c)) as X. rewrite <- E in X. destruct swap; [apply bytes_rev in X; now rewrite rev_involutive in X|exact X]. }
  split; [exact LL|]. split; [exact BB|].
  assert (U : bin_unsigned swap l = r mod 256 ^ Z.of_nat w).
  { unfold bin_unsigned. rewrite E, le_bytes_mod. apply mod_mod_pow. lia. }
  destruct (pow256_even w ltac:(lia)) as (h & E1 & E2 & E3 & E4). pose proof (pow256_pos w) as WP.
  destruct (mod_congr r (256 ^ Z.of_nat w) WP) as (k & KE). pose proof (Z.mod_pos_bound r (256 ^ Z.of_nat w) WP) as MB.
  unfold wrapped, bin_value. rewrite LL, U, E3, <- E4, <- pow256. destruct sg; cbn [andb].
  - destruct (Z.leb_spec h (r mod 256 ^ Z.of_nat w)).
    + split; [exists (k - 1); lia|lia].
    + split; [exists k; lia|lia].
  - split; [exists k; lia|lia].
Qed.

(** When the C arithmetic is defined. *)
Definition defined (sg : bool) (w : nat) (r : Z) : Prop :=
  if (w <=? 2)%nat then is_int r
  else sg = true -> if (w <=? 4)%nat then is_int r else - 2 ^ 63 <= r < 2 ^ 63.
Lemma arith_ok : forall sg w r, (1 <= w <= 8)%nat -> (defined sg w r -> arith sg w r = Ok (r mod 256 ^ Z.of_nat (container w))) /\ (~ defined sg w r -> arith sg w r = UB).
Proof.
  intros sg w r W. unfold defined, arith, is_int, is_intb, INT_MIN, INT_MAX.
  destruct (len_cases w W) as [->|[->|[->|[->|[->|[->|[->| ->]]]]]]]; cbn [Nat.leb container Nat.ltb];
    try change (256 ^ Z.of_nat 8 / 2) with (2 ^ 63); try change (256 ^ Z.of_nat 4 / 2) with (2 ^ 31); destruct sg;
    (split; intros D; [|try (exfalso; apply D; discriminate)]);
    try reflexivity;
    match goal with |- context [if (?a <=? ?b) && ?x then _ else _] => destruct (Z.leb_spec a b); cbn [andb]; [|try reflexivity; exfalso; lia] end;
    match goal with |- context [if (?a <=? ?b) then _ else _] => destruct (Z.leb_spec a b) | |- context [if (?a <? ?b) then _ else _] => destruct (Z.ltb_spec a b) end; try reflexivity; exfalso; lia.
Qed.
Lemma arith_binary_ok : forall sg swap l f, (1 <= length l <= 8)%nat -> bytes_ok l ->
  (defined sg (length l) (f (bin_value sg swap l)) -> exists l', arith_binary sg swap l f = Ok l' /\ length l' = length l /\ bytes_ok l' /\ wrapped sg (length l) (f (bin_value sg swap l)) (bin_value sg swap l')) /\
  (~ defined sg (length l) (f (bin_value sg swap l)) -> arith_binary sg swap l f = UB).
Proof.
  intros sg swap l f L B. unfold arith_binary.
  assert (V : (if swap then load_reversed sg l else load_native sg l) = bin_value sg swap l).
  { destruct swap; [|now apply load_native_ok]. unfold load_reversed. rewrite load_native_ok by (rewrite ?rev_length; auto; now apply bytes_rev). apply bin_value_rev. }
  rewrite V. destruct (arith_ok sg (length l) (f (bin_value sg swap l)) L) as [A1 A2]. split; intros D.
  - rewrite (A1 D). cbn [obind]. eexists. split; [reflexivity|]. apply store_ok. exact L.
  - rewrite (A2 D). reflexivity.
Qed.

(** ADD and SUBTRACT: modulo 2^(8w), whenever the C arithmetic does not overflow. *)
Theorem C50_add : forall sg swap l val, (1 <= length l <= 8)%nat -> bytes_ok l ->
  defined sg (length l) (bin_value sg swap l + val) ->
  exists l', add_binary sg swap l val = Ok l' /\ length l' = length l /\ bytes_ok l' /\
    wrapped sg (length l) (bin_value sg swap l + val) (bin_value sg swap l').
Proof. intros sg swap l val L B D. exact (proj1 (arith_binary_ok sg swap l (fun n => n + val) L B) D). Qed.
Print Assumptions C50_add.
Theorem C50_sub : forall sg swap l val, (1 <= length l <= 8)%nat -> bytes_ok l ->
  defined sg (length l) (bin_value sg swap l - val) ->
  exists l', sub_binary sg swap l val = Ok l' /\ length l' = length l /\ bytes_ok l' /\
    wrapped sg (length l) (bin_value sg swap l - val) (bin_value sg swap l').
Proof. intros sg swap l val L B D. exact (proj1 (arith_binary_ok sg swap l (fun n => n - val) L B) D). Qed.
Print Assumptions C50_sub.

Lemma wrapped_exact : forall sg w x y, wrapped sg w x y -> (1 <= w)%nat -> (if sg then - 2 ^ (8 * Z.of_nat w - 1) <= x < 2 ^ (8 * Z.of_nat w - 1) else 0 <= x < 2 ^ (8 * Z.of_nat w)) -> y = x.
Proof.
  intros sg w x y [[k K] R] W X. rewrite <- pow256 in *. destruct (pow256_even w W) as (h & E1 & E2 & _ & E4). rewrite <- E4, E1 in *.
  assert (k = 0). { destruct sg; (destruct (Z.lt_trichotomy k 0) as [N|[N|N]]; [exfalso|exact N|exfalso]); [assert (k * (2 * h) <= -1 * (2 * h)) by (apply Z.mul_le_mono_nonneg_r; lia)|assert (1 * (2 * h) <= k * (2 * h)) by (apply Z.mul_le_mono_nonneg_r; lia)|assert (k * (2 * h) <= -1 * (2 * h)) by (apply Z.mul_le_mono_nonneg_r; lia)|assert (1 * (2 * h) <= k * (2 * h)) by (apply Z.mul_le_mono_nonneg_r; lia)]; lia. }
  subst k. lia.
Qed.
(** When the result is a number of the item's size, it is exact: for every int added. *)
Theorem C50_add_exact : forall (sg swap : bool) l val, (1 <= length l <= 8)%nat -> bytes_ok l -> let w := length l in
  (if sg then - 2 ^ (8 * Z.of_nat w - 1) <= bin_value sg swap l + val < 2 ^ (8 * Z.of_nat w - 1) else 0 <= bin_value sg swap l + val < 2 ^ (8 * Z.of_nat w)) ->
  exists l', add_binary sg swap l val = Ok l' /\ length l' = w /\ bin_value sg swap l' = bin_value sg swap l + val.
Proof.
  intros sg swap l val L B w R.
  assert (D : defined sg (length l) (bin_value sg swap l + val)).
  { fold w. fold w in L. unfold defined, is_int, INT_MIN, INT_MAX. revert R. generalize (bin_value sg swap l + val). clear - L. clearbody w. intros r R.
    destruct (len_cases w L) as [->|[->|[->|[->|[->|[->|[->| ->]]]]]]]; cbn [Nat.leb]; destruct sg; try discriminate; try intros _;
    match type of R with context [2 ^ ?e] => let x := eval vm_compute in (2 ^ e) in change (2 ^ e) with x in R end; lia. }
  destruct (C50_add sg swap l val L B D) as (l' & E & LL & _ & WR). exists l'. split; [exact E|]. split; [exact LL|]. apply (wrapped_exact sg w); [exact WR|lia|exact R].
Qed.
Print Assumptions C50_add_exact.

(** Setting a big endian item to an int. *)
Theorem C50_set : forall sg w val, (1 <= w <= 8)%nat ->
  length (setswp_binary w val) = w /\ bytes_ok (setswp_binary w val) /\ wrapped sg w val (bin_value sg true (setswp_binary w val)).
Proof. intros sg w val W. exact (store_ok sg true w val W). Qed.
Print Assumptions C50_set.

(** Signed overflow of the C arithmetic: undefined, also when the item is
    narrower than int, and for unsigned items of one or two bytes. *)
Theorem C50_overflow_refuted : forall sg swap l val, (1 <= length l <= 8)%nat -> bytes_ok l ->
  ~ defined sg (length l) (bin_value sg swap l + val) -> add_binary sg swap l val = UB.
Proof. intros sg swap l val L B D. exact (proj2 (arith_binary_ok sg swap l (fun n => n + val) L B) D). Qed.
Print Assumptions C50_overflow_refuted.
Example C50_overflow_ex : add_binary false false [255] 2147483647 = UB /\ add_binary true true [127;255;255;255] 1 = UB /\
  bytes_ok [127;255;255;255] /\ is_int 1.
Proof. split; [reflexivity|]. split; [reflexivity|]. split; [repeat constructor; discriminate|split; discriminate]. Qed.

Example C50_ex : bytes_ok [255;255;254] /\ bin_value true true [255;255;254] = -2 /\ cmp_binary true true [255;255;254] (-1) = -1 /\
  cmp_binary false false [255;255;254] 16711679 = 0 /\ add_binary true true [255;255;254] 5 = Ok [0;0;3] /\
  add_binary false true [0;0;0;0;0] (-1) = Ok [255;255;255;255;255] /\ sub_binary true false [0;128] 1 = Ok [255;127] /\
  defined true 3 (-2 + 5) /\ setswp_binary 2 (-2) = [255;254].
Proof.
  split; [repeat constructor; discriminate|]. split; [reflexivity|]. split; [reflexivity|]. split; [vm_compute; reflexivity|]. repeat (split; [reflexivity|]).
  split; [intros _; split; discriminate|]. reflexivity.
Qed.
