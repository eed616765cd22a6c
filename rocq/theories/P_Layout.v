(** * Storage layout (C54), capacity of binary items (C55), bounds checks (C41)
    Model: Layout.v (cobc/field.c, typeck.c, codegen.c; libcob/common.c).
    Specification: SpecLayout.v. *)
From Verif Require Import Base BaseFacts Layout SpecLayout LayoutProofs.

Local Open Scope nat_scope.

(** ** C54 *)
Theorem C54_layout : forall c sync_ok off i, ok_item i ->
  let r := layout c sync_ok off i in p_off r = off /\ well_placed r.
Proof. intros c so off i H r. split; [apply layout_off|now apply layout_well_placed]. Qed.
Print Assumptions C54_layout.

Lemma wp_path : forall p ups r, path p ups r -> well_placed r -> well_placed p.
Proof.
  intros p ups r P. induction P as [r|p q ups r I P IH]; intros W; [exact W|]. specialize (IH W).
  inversion IH as [d off size ch K _]; subst. now apply K.
Qed.

(** Elementary items with a SYNC clause are aligned (relative to the level 01). *)
Lemma children_aligned : forall c so off cs size boff bext p,
  In p (fst (children (fun o i => layout c so o i) so off cs size boff bext)) ->
  so = true -> d_sync (p_decl p) = true -> d_redef (p_decl p) = false ->
  p_off p mod sync_align (p_decl p) (p_size p) = 0.
Proof.
  intros c so off cs. induction cs as [|i cs IH]; intros size boff bext p I SO SY RD; cbn [children fst] in I; [contradiction|].
  destruct (d_redef (it_decl i)) eqn:R; cbv zeta in I; cbn [fst] in I.
  - destruct I as [<-|I]; [|eapply IH; eauto]. rewrite layout_decl in RD. congruence.
  - destruct I as [<-|I]; [|eapply IH; eauto].
    rewrite shift_decl, layout_decl in *. rewrite shift_size, shift_off, layout_off. unfold sync_pad. rewrite SY, SO. cbn [andb].
    set (a := sync_align _ _). assert (A : a <> 0).
    { unfold a, sync_align. destruct (d_usage _); try lia; destruct (_ || _) eqn:E; lia. }
    destruct (Nat.eqb_spec ((off + size) mod a) 0) as [E|NE]; [now rewrite Nat.add_0_r|].
    pose proof (Nat.mod_upper_bound (off + size) a A). set (m := (off + size) mod a) in *.
    assert (E : off + size + (a - m) = (S ((off + size) / a)) * a).
    { pose proof (Nat.div_mod (off + size) a A) as D. fold m in D. rewrite Nat.mul_succ_l. lia. }
    rewrite E. apply Nat.mod_mul. exact A.
Qed.
Theorem C54_aligned : forall c off d cs p, In p (p_ch (layout c true off (Item d cs))) ->
  d_sync (p_decl p) = true -> d_redef (p_decl p) = false ->
  p_off p mod sync_align (p_decl p) (p_size p) = 0.
Proof.
  intros c off d [|i cs] p I SY RD; [contradiction|].
  exact (children_aligned c true off (i :: cs) 0 off 0 p I eq_refl SY RD).
Qed.
Print Assumptions C54_aligned.

(** Without REDEFINES and SYNC there is no gap: the items follow each other
    and the group is as long as they are together. *)
Definition plain (i : item) : Prop := d_redef (it_decl i) = false /\ d_sync (it_decl i) = false.
Lemma children_plain : forall c so off cs size boff bext, Forall plain cs ->
  let x := children (fun o i => layout c so o i) so off cs size boff bext in
  snd x = size + list_sum (map p_ext (fst x)) /\
  forall k p, nth_error (fst x) k = Some p -> p_off p = off + size + list_sum (map p_ext (firstn k (fst x))).
Proof.
  intros c so off cs. induction cs as [|i cs IH]; intros size boff bext F; cbn [children fst snd].
  - split; [cbn; lia|]. intros k p N. destruct k; discriminate.
  - inversion F as [|? ? [R S] F']; subst. rewrite R. cbv zeta. cbn [fst snd].
    set (p := layout c so (off + size) i). assert (PZ : sync_pad so (it_decl i) (p_size p) (off + size) = 0) by (unfold sync_pad; now rewrite S).
    rewrite PZ, shift_0. destruct (IH (size + p_ext p + 0) (p_off p) (p_ext p) F') as [A B].
    set (x := children _ so off cs _ _ _) in *. change (list_sum (map p_ext (p :: fst x))) with (p_ext p + list_sum (map p_ext (fst x))).
    split; [lia|].
    intros [|k] q N; cbn [nth_error firstn map] in *.
    + injection N as <-. unfold p. rewrite layout_off. cbn. lia.
    + rewrite (B k q N). change (list_sum (p_ext p :: map p_ext (firstn k (fst x)))) with (p_ext p + list_sum (map p_ext (firstn k (fst x)))). lia.
Qed.
Theorem C54_contiguous : forall c so off d cs, cs <> [] -> Forall plain cs ->
  let r := layout c so off (Item d cs) in
  p_size r = list_sum (map all_occurrences (p_ch r)) /\
  forall k p, nth_error (p_ch r) k = Some p -> p_off p = off + list_sum (map all_occurrences (firstn k (p_ch r))).
Proof.
  intros c so off d [|i cs] NE F r; [congruence|].
  destruct (children_plain c so off (i :: cs) 0 off 0 F) as [A B]. rewrite (map_ext _ _ ext_all) in A. setoid_rewrite (map_ext _ _ ext_all) in B. split; [exact A|].
  intros k p N. rewrite (B k p N). rewrite Nat.add_0_r. reflexivity.
Qed.
Print Assumptions C54_contiguous.

(** A SYNC clause on a group with a binary USAGE breaks the layout: the group
    is moved, its subordinate items are not.
      01 R.  05 A PIC X.
             05 G USAGE BINARY SYNC.  10 B PIC 9(4).  10 C PIC 9(4). *)
Definition pic (u : usage) (n : nat) : decl := mkDecl false 1 false u n false true false false.
Definition grp : decl := mkDecl false 1 false UDisplay 0 false false false false.
Definition sync_group : item :=
  Item grp [ Item (pic UDisplay 1) [];
             Item (mkDecl false 1 true UBinary 0 false false false false) [Item (pic UBinary 4) []; Item (pic UBinary 4) []] ].
Theorem C54_sync_group_refuted : ~ well_placed (layout Bin248 true 0 sync_group) /\
  exists g b, In g (p_ch (layout Bin248 true 0 sync_group)) /\ In b (p_ch g) /\
    p_off g = 4 /\ p_off b = 1 /\ apart (p_off b) (p_size b) (p_off g) (p_size g).
Proof.
  split.
  - intros W. inversion W as [d off size ch K _]; subst.
    specialize (K _ (or_intror (or_introl eq_refl))) as [K _]. inversion K as [d2 off2 size2 ch2 K2 _]; subst.
    specialize (K2 _ (or_introl eq_refl)) as [_ [K2 _]]. cbn in K2. lia.
  - eexists. eexists. split; [right; left; reflexivity|]. split; [left; reflexivity|]. repeat split. left. cbn. lia.
Qed.
Print Assumptions C54_sync_group_refuted.

(** Several larger redefinitions of one item add up: the group is longer than
    any of its descriptions needs.
      01 R. 05 A PIC X(2). 05 B REDEFINES A PIC X(5). 05 C REDEFINES A PIC X(4). 05 D PIC X. *)
Definition redef (n : nat) : decl := mkDecl true 1 false UDisplay n false false false false.
Definition redefined_group : item :=
  Item grp [Item (pic UDisplay 2) []; Item (redef 5) []; Item (redef 4) []; Item (pic UDisplay 1) []].
Theorem C54_redefines_gap_refuted :
  let r := layout Bin248 true 0 redefined_group in
  p_size r = 8 /\ map p_off (p_ch r) = [0; 0; 0; 7] /\ map p_size (p_ch r) = [2; 5; 4; 1].
Proof. repeat split. Qed.
Print Assumptions C54_redefines_gap_refuted.

(** A table of groups with a SYNC item and a redefinition is well placed. *)
Definition sample : item :=
  Item grp [ Item (pic UDisplay 3) [];
             Item (mkDecl false 5 false UDisplay 0 false false false false)
               [Item (mkDecl false 2 true UBinary 9 true true false false) []; Item (redef 6) []; Item (pic UPacked 5) []] ].
Example C54_ex : ok_item sample /\ map p_off (p_ch (layout Bin248 true 0 sample)) = [0; 3] /\ p_size (layout Bin248 true 0 sample) = 63.
Proof.
  split; [|split; reflexivity]. unfold sample.
  repeat first [apply Forall_nil | apply Forall_cons | apply ok_it]; cbn; try lia; intros; try congruence; auto.
Qed.

(** ** C55 Every value allowed by the picture fits the storage *)
Theorem C55_binary : forall c digits sign realbin v, 1 <= digits <= 18 ->
  (Z.abs v < 10 ^ Z.of_nat digits)%Z -> (sign = false -> 0 <= v)%Z ->
  let n := Z.of_nat (binary_size c digits sign realbin) in
  if sign then (- 2 ^ (8 * n - 1) <= v < 2 ^ (8 * n - 1))%Z else (v < 2 ^ (8 * n))%Z.
Proof.
  intros c digits sign realbin v HD HV HS n. unfold n. clear n.
  assert (D : In digits (seq 1 18)) by (apply in_seq; lia). cbn [seq] in D.
  destruct sign; [clear HS|specialize (HS eq_refl)];
  repeat (destruct D as [<-|D]; [destruct c, realbin; cbn [binary_size compx_size Nat.leb andb];
    match type of HV with context [(10 ^ ?e)%Z] => let k := eval compute in (10 ^ e)%Z in change (10 ^ e)%Z with k in HV end;
    repeat match goal with |- context [(2 ^ ?e)%Z] => let k := eval compute in (2 ^ e)%Z in change (2 ^ e)%Z with k end; lia|]);
  destruct D.
Qed.
Print Assumptions C55_binary.
Theorem C55_comp_x : forall digits v, 1 <= digits <= 18 -> (0 <= v < 10 ^ Z.of_nat digits)%Z ->
  (v < 2 ^ (8 * Z.of_nat (compx_size digits)))%Z.
Proof.
  intros digits v HD HV. assert (D : In digits (seq 1 18)) by (apply in_seq; lia). cbn [seq] in D.
  repeat (destruct D as [<-|D]; [cbn [compx_size Nat.leb andb];
    match type of HV with context [(10 ^ ?e)%Z] => let k := eval compute in (10 ^ e)%Z in change (10 ^ e)%Z with k in HV end;
    repeat match goal with |- context [(2 ^ ?e)%Z] => let k := eval compute in (2 ^ e)%Z in change (2 ^ e)%Z with k end; lia|]);
  destruct D.
Qed.
Print Assumptions C55_comp_x.
(** Signed COMP-X: the sizes are those of unsigned items; PIC S9(7) COMP-X has
    three bytes, which hold no more than 8388607. *)
Theorem C55_comp_x_signed_refuted : exists digits v, 1 <= digits <= 18 /\ (Z.abs v < 10 ^ Z.of_nat digits)%Z /\
  (2 ^ (8 * Z.of_nat (compx_size digits) - 1) <= v)%Z.
Proof. exists 7, 9999999%Z. repeat split; try lia; reflexivity || (cbn; lia). Qed.
Print Assumptions C55_comp_x_signed_refuted.
(** COMP-3: a nibble for each digit and the sign; DISPLAY: a character for each
    digit, and one for a separate sign. *)
Theorem C55_packed_display : forall c d, d_pnum d = true ->
  (d_usage d = UPacked -> d_psize d + 1 <= 2 * elem_size c d <= d_psize d + 2) /\
  (d_usage d = UDisplay -> elem_size c d = d_psize d + if d_psign d && d_signsep d then 1 else 0).
Proof.
  intros c d H. unfold elem_size. split; intros ->.
  - pose proof (Nat.div_mod (d_psize d) 2 ltac:(lia)). pose proof (Nat.mod_upper_bound (d_psize d) 2 ltac:(lia)). lia.
  - rewrite H. reflexivity.
Qed.
Print Assumptions C55_packed_display.

(** ** C41 Bounds checks *)
Open Scope Z_scope.
(** The checks are exact. *)
Theorem C41_subscript : forall i lo hi, check_range i lo hi = Pass <-> lo <= i <= hi.
Proof. intros. unfold check_range. destruct (_ || _) eqn:E; split; intros; try discriminate; try lia. reflexivity. Qed.
Print Assumptions C41_subscript.
Theorem C41_never_undefined : forall odo hi sub, check_level odo hi sub = Pass \/ check_level odo hi sub = Stop.
Proof.
  intros [[n lo]|] hi sub; unfold check_level, check_range; [destruct (_ || _); [now right|]; cbn [v_and]|];
  destruct (_ || _); auto.
Qed.
Print Assumptions C41_never_undefined.
Theorem C41_level : forall odo hi sub, check_level odo hi sub = Pass <->
  match odo with Some (n, lo) => lo <= n <= hi /\ 1 <= sub <= n | None => 1 <= sub <= hi end.
Proof.
  intros [[n lo]|] hi sub; cbn [check_level]; [|apply C41_subscript].
  destruct (check_range n lo hi) eqn:E; cbn [v_and].
  - apply C41_subscript in E. rewrite C41_subscript. tauto.
  - split; [discriminate|]. intros [A _]. apply C41_subscript in A. congruence.
  - split; [discriminate|]. intros [A _]. apply C41_subscript in A. congruence.
Qed.
Print Assumptions C41_level.
Theorem C41_ref_mod : forall offset length size, is_int offset -> is_int length -> is_int size ->
  offset + length <= INT_MAX ->
  (check_ref_mod false offset length size = Pass <-> 1 <= offset /\ 1 <= length /\ offset + length - 1 <= size) /\
  (check_ref_mod false offset length size <> Pass -> check_ref_mod false offset length size = Stop).
Proof.
  intros offset length size HO HL HS HM. unfold check_ref_mod.
  destruct ((offset <? 1) || (size <? offset)) eqn:A; [split; [split; [discriminate|lia]|auto]|].
  destruct (Z.ltb_spec length 1) as [B|B]; [split; [split; [discriminate|lia]|auto]|].
  destruct (Z.ltb_spec INT_MAX (offset + length)) as [C|C]; [lia|].
  destruct (Z.ltb_spec size (offset + length - 1)) as [D|D]; [split; [split; [discriminate|lia]|auto]|].
  split; [split; [lia|reflexivity]|congruence].
Qed.
Print Assumptions C41_ref_mod.
(** A length that overflows the addition is not caught: the check itself is
    undefined. *)
Theorem C41_ref_mod_overflow_refuted : exists offset length size, is_int offset /\ is_int length /\ is_int size /\
  1 <= size /\ check_ref_mod false offset length size = Undefined.
Proof. exists 2, 2147483647, 10. unfold is_int, INT_MIN, INT_MAX. repeat split; try lia; reflexivity. Qed.
Print Assumptions C41_ref_mod_overflow_refuted.
(** National items, k-th character, n characters of m. *)
Theorem C41_ref_mod_national : forall k n m, 2 * k <= INT_MAX -> 0 <= n <= INT_MAX / 2 -> 0 <= m <= INT_MAX / 2 -> k + n <= INT_MAX ->
  (check_ref_mod_national false (2 * k - 1) (2 * n) (2 * m) = Pass <-> 1 <= k /\ 1 <= n /\ k + n - 1 <= m).
Proof.
  intros k n m HK HN HM HS. unfold check_ref_mod_national.
  replace (2 * k - 1 + 1) with (k * 2) by lia. rewrite (Z.mul_comm 2 n), (Z.mul_comm 2 m). rewrite !Z.quot_mul by lia.
  destruct (Z.ltb_spec INT_MAX (k * 2)) as [X|_]; [lia|].
  destruct ((k <? 1) || (m <? k)) eqn:A; [split; [discriminate|lia]|].
  destruct (Z.ltb_spec n 1) as [B|B]; [split; [discriminate|lia]|].
  destruct (Z.ltb_spec INT_MAX (k + n)) as [C|C]; [lia|].
  destruct (Z.ltb_spec m (k + n - 1)) as [D|D]; [split; [discriminate|lia]|]. split; [lia|reflexivity].
Qed.
Print Assumptions C41_ref_mod_national.

(** Address arithmetic. *)
Definition subs_ok (ups : list level) : Prop :=
  Forall (fun l => 1 <= snd l <= Z.of_nat (d_occ (p_decl (fst l)))) ups.
Definition base_addr (p : placed) (ups : list level) : Z := address p ups 1.

Lemma fold_shift : forall (ups : list level) a b,
  fold_left (fun a l => a + Z.of_nat (p_size (fst l)) * (snd l - 1)) ups (a + b) =
  a + fold_left (fun a l => a + Z.of_nat (p_size (fst l)) * (snd l - 1)) ups b.
Proof.
  induction ups as [|l ups IH]; intros a b; cbn [fold_left]; [reflexivity|]. rewrite <- IH. f_equal. lia.
Qed.
Lemma base_addr_up : forall p s q ups, base_addr p ((p, s) :: ups) =
  Z.of_nat (p_off p) + Z.of_nat (p_size p) * (s - 1) + (base_addr q ups - Z.of_nat (p_off q)).
Proof.
  intros p s q ups. unfold base_addr, address. cbn [fold_left fst snd].
  rewrite !Z.sub_diag, !Z.add_0_r.
  set (f := fold_left (fun a l => a + Z.of_nat (p_size (fst l)) * (snd l - 1)) ups).
  pose proof (fold_shift ups (Z.of_nat (p_off q)) 0) as X. rewrite Z.add_0_r in X.
  pose proof (fold_shift ups (Z.of_nat (p_off p) + Z.of_nat (p_size p) * (s - 1)) 0) as Y. rewrite Z.add_0_r in Y.
  fold f in X, Y. rewrite X, Y. lia.
Qed.

Lemma inside : forall p ups r, path p ups r -> well_placed r -> forall subs, length subs = length ups ->
  subs_ok (combine ups subs) ->
  let a := base_addr p (combine ups subs) in
  Z.of_nat (p_off r) <= a /\ a + Z.of_nat (p_size p) <= Z.of_nat (p_off r) + Z.of_nat (all_occurrences r).
Proof.
  intros p ups r P. induction P as [r|p q ups r I P IH]; intros W subs L S a.
  - destruct subs as [|s [|]]; try discriminate. cbn [combine] in *. inversion S as [|? ? S1 _]; subst. cbn [fst snd] in S1.
    unfold a, base_addr, address. cbn [fold_left fst snd]. unfold all_occurrences.
    assert (Z.of_nat (p_size r) * (s - 1) <= Z.of_nat (p_size r) * (Z.of_nat (d_occ (p_decl r)) - 1)) by (apply Z.mul_le_mono_nonneg_l; lia).
    assert (0 <= Z.of_nat (p_size r) * (s - 1)) by (apply Z.mul_nonneg_nonneg; lia).
    rewrite Nat.mul_comm, Nat2Z.inj_mul. lia.
  - destruct subs as [|s subs]; [discriminate|]. cbn [combine] in *. inversion S as [|? ? S1 S2]; subst. cbn [fst snd] in S1.
    injection L as L. specialize (IH W subs L S2). cbv zeta in IH. unfold a. rewrite (base_addr_up p s q).
    set (b := base_addr q (combine ups subs)) in *.
    assert (WB : within_bytes (p_off p) (all_occurrences p) (p_off q) (p_size q)).
    { pose proof (wp_path _ _ _ P W) as WQ. inversion WQ as [d off size ch K _]; subst. now apply K. }
    destruct WB as [B1 B2]. unfold all_occurrences in B2. rewrite Nat.mul_comm in B2.
    assert (Z.of_nat (p_size p) * (s - 1) <= Z.of_nat (p_size p) * (Z.of_nat (d_occ (p_decl p)) - 1)) by (apply Z.mul_le_mono_nonneg_l; lia).
    assert (0 <= Z.of_nat (p_size p) * (s - 1)) by (apply Z.mul_nonneg_nonneg; lia).
    assert (B3 : Z.of_nat (p_off p) + Z.of_nat (p_size p) * Z.of_nat (d_occ (p_decl p)) <= Z.of_nat (p_off q) + Z.of_nat (p_size q)) by (rewrite <- Nat2Z.inj_mul; lia).
    lia.
Qed.

(** A reference whose checks pass denotes bytes of the item itself: of the
    storage of the level 01 it belongs to. *)
Theorem C41_inside : forall p ups r subs odos ro len, path p ups r -> well_placed r ->
  length subs = length ups -> length odos = length ups ->
  Forall (fun x => check_level (snd x) (Z.of_nat (d_occ (p_decl (fst (fst x))))) (snd (fst x)) = Pass) (combine (combine ups subs) odos) ->
  is_int ro -> is_int len -> check_ref_mod false ro len (Z.of_nat (p_size p)) = Pass ->
  let a := address p (combine ups subs) ro in
  Z.of_nat (p_off r) <= a /\ a + len <= Z.of_nat (p_off r) + Z.of_nat (all_occurrences r).
Proof.
  intros p ups r subs odos ro len P W LS LO CH IR IL CR a.
  assert (S : subs_ok (combine ups subs)).
  { assert (LC : length odos = length (combine ups subs)) by (rewrite combine_length; lia).
    clear - CH LC. unfold subs_ok. revert odos LC CH. induction (combine ups subs) as [|l k IH]; intros odos LC CH; constructor.
    - destruct odos as [|o odos]; [discriminate|]. inversion CH as [|? ? C _]; subst. cbn [fst snd] in C. apply C41_level in C.
      destruct o as [[n lo]|]; lia.
    - destruct odos as [|o odos]; [discriminate|]. inversion CH as [|? ? _ C]; subst. injection LC as LC. eauto. }
  pose proof (inside p ups r P W subs LS S) as [A B].
  assert (R : 1 <= ro /\ 1 <= len /\ ro + len - 1 <= Z.of_nat (p_size p)).
  { unfold check_ref_mod in CR. destruct ((ro <? 1) || _) eqn:X1; [discriminate|]. destruct (Z.ltb_spec len 1); [discriminate|].
    destruct (INT_MAX <? ro + len); [discriminate|]. destruct (Z.ltb_spec (Z.of_nat (p_size p)) (ro + len - 1)); [discriminate|]. lia. }
  assert (E : a = base_addr p (combine ups subs) + (ro - 1)) by (unfold a, base_addr, address; lia).
  rewrite E. lia.
Qed.
Print Assumptions C41_inside.

(** Different subscripts denote different storage. *)
Theorem C41_elements_apart : forall p ups r, path p ups r -> well_placed r -> forall subs subs',
  length subs = length ups -> length subs' = length ups ->
  subs_ok (combine ups subs) -> subs_ok (combine ups subs') -> subs <> subs' ->
  let a := base_addr p (combine ups subs) in
  let a' := base_addr p (combine ups subs') in
  a + Z.of_nat (p_size p) <= a' \/ a' + Z.of_nat (p_size p) <= a.
Proof.
  intros p ups r P. induction P as [r|p q ups r I P IH]; intros W subs subs' L L' S S' NE a a'.
  - destruct subs as [|s [|]]; try discriminate. destruct subs' as [|s' [|]]; try discriminate.
    assert (N : s <> s') by congruence. unfold a, a', base_addr, address. cbn [combine fold_left fst snd].
    destruct (Z.lt_total s s') as [X|[X|X]]; [left|contradiction|right].
    + assert (Z.of_nat (p_size r) * s <= Z.of_nat (p_size r) * (s' - 1)) by (apply Z.mul_le_mono_nonneg_l; lia). lia.
    + assert (Z.of_nat (p_size r) * s' <= Z.of_nat (p_size r) * (s - 1)) by (apply Z.mul_le_mono_nonneg_l; lia). lia.
  - destruct subs as [|s subs]; [discriminate|]. destruct subs' as [|s' subs']; [discriminate|].
    injection L as L. injection L' as L'. cbn [combine] in *. inversion S as [|? ? S1 S2]; subst. inversion S' as [|? ? S1' S2']; subst.
    cbn [fst snd] in S1, S1'. unfold a, a'. rewrite !(base_addr_up p _ q).
    assert (WB : within_bytes (p_off p) (all_occurrences p) (p_off q) (p_size q)).
    { pose proof (wp_path _ _ _ P W) as WQ. inversion WQ as [d off size ch K _]; subst. now apply K. }
    destruct WB as [B1 B2]. unfold all_occurrences in B2. rewrite Nat.mul_comm in B2.
    assert (B3 : Z.of_nat (p_off p) + Z.of_nat (p_size p) * Z.of_nat (d_occ (p_decl p)) <= Z.of_nat (p_off q) + Z.of_nat (p_size q)) by (rewrite <- Nat2Z.inj_mul; lia).
    assert (U : forall t, 1 <= t <= Z.of_nat (d_occ (p_decl p)) ->
       0 <= Z.of_nat (p_size p) * (t - 1) /\ Z.of_nat (p_size p) * (t - 1) <= Z.of_nat (p_size p) * (Z.of_nat (d_occ (p_decl p)) - 1)).
    { intros t Ht. split; [apply Z.mul_nonneg_nonneg; lia|apply Z.mul_le_mono_nonneg_l; lia]. }
    pose proof (U s S1) as [U1 U2]. pose proof (U s' S1') as [U1' U2'].
    destruct (list_eq_dec Z.eq_dec subs subs') as [->|NE2].
    + assert (N : s <> s') by congruence.
      destruct (Z.lt_total s s') as [X|[X|X]]; [left|contradiction|right].
      * assert (Z.of_nat (p_size p) * s <= Z.of_nat (p_size p) * (s' - 1)) by (apply Z.mul_le_mono_nonneg_l; lia). lia.
      * assert (Z.of_nat (p_size p) * s' <= Z.of_nat (p_size p) * (s - 1)) by (apply Z.mul_le_mono_nonneg_l; lia). lia.
    + destruct (IH W subs subs' L L' S2 S2' NE2) as [H|H]; lia.
Qed.
Print Assumptions C41_elements_apart.

(** Element (4, 2) of the binary table of [sample], two bytes of it. *)
Definition smp := layout Bin248 true 0 sample.
Definition smp_g := nth 1 (p_ch smp) smp.
Definition smp_e := nth 0 (p_ch smp_g) smp.
Example C41_ex : path smp_e [smp_e; smp_g; smp] smp /\
  Forall (fun x => check_level (snd x) (Z.of_nat (d_occ (p_decl (fst (fst x))))) (snd (fst x)) = Pass)
    (combine (combine [smp_e; smp_g; smp] [2; 4; 1]) [None; Some (5, 1); None]) /\
  check_ref_mod false 3 2 (Z.of_nat (p_size smp_e)) = Pass /\ address smp_e (combine [smp_e; smp_g; smp] [2; 4; 1]) 3 = 46.
Proof.
  split; [|split; [|split; reflexivity]].
  - apply path_up with (q := smp_g); [left; reflexivity|]. apply path_up with (q := smp); [right; left; reflexivity|]. constructor.
  - repeat constructor.
Qed.
