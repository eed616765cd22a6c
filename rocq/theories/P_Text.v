(** Theorems C44 (text functions), C45 (SUBSTITUTE), C46 (NUMVAL, NUMVAL-C). *)
From Coq Require Import QArith.
From Verif Require Import Base BaseFacts Field Sign Decimal SpecNum Numeric SpecStore NumFacts.
From Verif Require Import BinProofs StoreProofs Move Edited MoveAll SpecMove P_Num P_Move.
From Verif Require Import Dates SpecDate DatesProofs SpecIntr Intr IntrProofs TextFunc SpecText.
Local Open Scope Z_scope.

Lemma nth_firstn_lt : forall n (l : list Z) i, (i < n)%nat -> nth i (firstn n l) 0 = nth i l 0.
Proof. induction n; destruct l, i; cbn [firstn nth]; intros; try lia; auto. apply IHn. lia. Qed.
Lemma nth_skipn : forall n (l : list Z) i, nth i (skipn n l) 0 = nth (n + i) l 0.
Proof. induction n; destruct l; cbn [skipn Nat.add]; intros; auto. - destruct i; reflexivity. - apply IHn. Qed.

(** ** C44 *)
(** Reference modification of a result: exactly the characters denoted. *)
Theorem C44_ref_mod : forall d off len,
  (off = 0 -> ref_mod off len d = d) /\
  (1 <= off -> 1 <= len -> off + len - 1 <= Z.of_nat (length d) ->
     Z.of_nat (length (ref_mod off len d)) = len /\
     forall i, 0 <= i < len -> nth (Z.to_nat i) (ref_mod off len d) 0 = nth (Z.to_nat (off - 1 + i)) d 0) /\
  (1 <= off <= Z.of_nat (length d) ->
     Z.of_nat (length (ref_mod off 0 d)) = Z.of_nat (length d) - off + 1 /\
     forall i, 0 <= i <= Z.of_nat (length d) - off -> nth (Z.to_nat i) (ref_mod off 0 d) 0 = nth (Z.to_nat (off - 1 + i)) d 0).
Proof.
  assert (G : forall d (off n : Z), 1 <= off -> 0 <= n -> off + n - 1 <= Z.of_nat (length d) ->
    let r := firstn (Z.to_nat n) (skipn (Z.to_nat (off - 1)) d) in
    Z.of_nat (length r) = n /\ forall i, 0 <= i < n -> nth (Z.to_nat i) r 0 = nth (Z.to_nat (off - 1 + i)) d 0).
  { intros d off n H1 H2 H3 r. split.
    - unfold r. rewrite firstn_length, skipn_length. lia.
    - intros i Hi. unfold r. rewrite nth_firstn_lt by lia. rewrite nth_skipn. f_equal. lia. }
  intros d off len. split; [|split].
  - intros ->. reflexivity.
  - intros H1 H2 H3. unfold ref_mod. destruct (Z.leb_spec off 0); [lia|].
    destruct (Z.leb_spec off (Z.of_nat (length d))); [|lia]. destruct (Z.ltb_spec 0 len); [|lia]. cbn [andb].
    destruct (Z.ltb_spec len (Z.of_nat (length d) - (off - 1))).
    + apply G; lia.
    + replace (Z.of_nat (length d) - (off - 1)) with len by lia. apply G; lia.
  - intros H1. unfold ref_mod. destruct (Z.leb_spec off 0); [lia|].
    destruct (Z.leb_spec off (Z.of_nat (length d))); [|lia]. change (0 <? 0) with false. cbn [andb].
    destruct (G d off (Z.of_nat (length d) - (off - 1))) as (A & B); try lia. cbv zeta in *. split; [lia|].
    intros i Hi. apply B. lia.
Qed.
Print Assumptions C44_ref_mod.
Example C44_ref_mod_ex : ref_mod 2 3 [65;66;67;68;69] = [66;67;68] /\ ref_mod 4 0 [65;66;67;68;69] = [68;69].
Proof. split; reflexivity. Qed.
(** Positions outside the result are not rejected: the whole result is used, or
    the length is cut. *)
Theorem C44_ref_mod_outside_refuted : ref_mod 6 1 [65;66;67;68;69] = [65;66;67;68;69] /\ ref_mod 4 5 [65;66;67;68;69] = [68;69].
Proof. split; reflexivity. Qed.
Print Assumptions C44_ref_mod_outside_refuted.

Lemma upper_spec : forall c, upper_of c (c_upper c).
Proof. intros c. unfold c_upper, upper_of. destruct (Z.leb_spec 97 c), (Z.leb_spec c 122); cbn [andb]; lia. Qed.
Lemma lower_spec : forall c, lower_of c (c_lower c).
Proof. intros c. unfold c_lower, lower_of. destruct (Z.leb_spec 65 c), (Z.leb_spec c 90); cbn [andb]; lia. Qed.
Lemma Forall2_map : forall A B (R : A -> B -> Prop) g l, (forall x, R x (g x)) -> Forall2 R l (map g l).
Proof. induction l; cbn [map]; constructor; auto. Qed.

Theorem C44_case : forall f,
  Forall2 upper_of (fd f) (fd (intr_upper 0 0 f)) /\ Forall2 lower_of (fd f) (fd (intr_lower 0 0 f)) /\
  f_size (intr_upper 0 0 f) = f_size f /\ f_size (intr_lower 0 0 f) = f_size f /\
  intr_upper 0 0 (intr_upper 0 0 f) = intr_upper 0 0 f /\ intr_lower 0 0 (intr_lower 0 0 f) = intr_lower 0 0 f.
Proof.
  intros f. unfold intr_upper, intr_lower, f_size, ref_mod. change (0 <=? 0) with true. cbv iota. cbn [fd fa]. rewrite !map_length.
  repeat split.
  - apply Forall2_map. apply upper_spec.
  - apply Forall2_map. apply lower_spec.
  - f_equal. rewrite map_map. apply map_ext. intros c. unfold c_upper.
    destruct (Z.leb_spec 97 c), (Z.leb_spec c 122); cbn [andb]; repeat (match goal with |- context [?a <=? ?b] => destruct (Z.leb_spec a b) end); cbn [andb]; lia.
  - f_equal. rewrite map_map. apply map_ext. intros c. unfold c_lower.
    destruct (Z.leb_spec 65 c), (Z.leb_spec c 90); cbn [andb]; repeat (match goal with |- context [?a <=? ?b] => destruct (Z.leb_spec a b) end); cbn [andb]; lia.
Qed.
Print Assumptions C44_case.
Example C44_case_ex : fd (intr_upper 0 0 (mkField alnum [97; 90; 49; 123])) = [65; 90; 49; 123].
Proof. reflexivity. Qed.

Lemma rev_loop_spec : forall d n i, (n + i = length d)%nat -> rev_loop n i d = rev (firstn n d).
Proof.
  intros d. induction n as [|k IH]; intros i H; cbn [rev_loop]; [reflexivity|].
  rewrite IH by lia. replace (length d - i - 1)%nat with k by lia.
  assert (E : firstn (S k) d = firstn k d ++ [nth k d 0]).
  { clear IH. assert (HK : (k < length d)%nat) by lia. clear H. revert k HK.
    induction d as [|x r IHd]; intros k HK; cbn in HK; [lia|]. destruct k; cbn [firstn nth app]; [reflexivity|].
    f_equal. apply IHd. lia. }
  rewrite E, rev_app_distr. reflexivity.
Qed.
Theorem C44_reverse : forall f, fd (intr_reverse 0 0 f) = rev (fd f) /\
  intr_reverse 0 0 (intr_reverse 0 0 f) = f.
Proof.
  intros f. assert (R : forall g, intr_reverse 0 0 g = mkField (fa g) (rev (fd g))).
  { intros g. unfold intr_reverse, ref_mod. change (0 <=? 0) with true. cbv iota. rewrite rev_loop_spec by lia. now rewrite firstn_all. }
  rewrite !R. cbn [fd fa]. rewrite rev_involutive. destruct f; auto.
Qed.
Print Assumptions C44_reverse.
Theorem C44_concatenate : forall fs, fd (intr_concatenate 0 0 fs) = concat (map fd fs).
Proof. intros fs. unfold intr_concatenate, ref_mod. change (0 <=? 0) with true. cbv iota. cbn [fd]. induction fs; cbn [concat_loop map concat]; congruence. Qed.
Print Assumptions C44_concatenate.

(** TRIM: for a text with [l] spaces in front and [r] behind. *)
Definition no_edge_space (core : list Z) : Prop :=
  core <> [] /\ hd 0 core <> 32 /\ last core 0 <> 32.
Lemma skip_spaces_app : forall l t, hd 0 t <> 32 -> skip_spaces (repeat 32 l ++ t) = t.
Proof.
  induction l; intros t H; cbn [repeat app skip_spaces].
  - destruct t; cbn [skip_spaces]; auto. cbn [hd] in H. destruct (Z.eqb_spec z 32); congruence.
  - change (32 =? 32) with true. cbv iota. auto.
Qed.
Lemma rev_spaces : forall n, rev (repeat 32 n) = repeat 32 n.
Proof.
  assert (S : forall n, repeat 32 n ++ [32] = 32 :: repeat 32 n) by (induction n; cbn [repeat app]; congruence).
  induction n; cbn [repeat rev]; auto. rewrite IHn. apply S.
Qed.
Lemma hd_rev : forall t, hd 0 (rev t) = last t 0.
Proof.
  intros t. destruct t using rev_ind; [reflexivity|]. rewrite rev_app_distr. cbn [rev app hd]. symmetry. apply last_last.
Qed.
Theorem C44_trim : forall a l core r, no_edge_space core ->
  let f := mkField a (repeat 32 l ++ core ++ repeat 32 r) in
  intr_trim 0 0 f 0 = mkField a core /\
  intr_trim 0 0 f 1 = mkField a (core ++ repeat 32 r) /\
  intr_trim 0 0 f 2 = mkField a (repeat 32 l ++ core).
Proof.
  intros a l core r (NE & H1 & H2) f. unfold intr_trim, f, ref_mod. cbn [fd fa]. change (0 <=? 0) with true. cbv iota.
  assert (NF : forallb (fun c => c =? 32) (repeat 32 l ++ core ++ repeat 32 r) = false).
  { rewrite !forallb_app. destruct core as [|c t]; [congruence|]. cbn [hd] in H1. cbn [forallb].
    destruct (Z.eqb_spec c 32); [congruence|]. cbn [andb]. apply andb_false_r. }
  rewrite NF.
  assert (HL : hd 0 (core ++ repeat 32 r) <> 32) by (destruct core; [congruence|exact H1]).
  assert (LH : forall x, skip_spaces (rev ((x ++ core) ++ repeat 32 r)) = rev (x ++ core)).
  { intros x. rewrite rev_app_distr, rev_spaces. apply skip_spaces_app. rewrite hd_rev.
    destruct core using rev_ind; [congruence|]. rewrite app_assoc, last_last. rewrite last_last in H2. exact H2. }
  change (0 =? 2) with false. change (0 =? 1) with false. change (1 =? 2) with false. change (1 =? 1) with true.
  change (2 =? 2) with true. change (2 =? 1) with false. cbv iota. rewrite !skip_spaces_app by exact HL.
  split; [|split].
  - pose proof (LH []) as X. cbn [app] in X. rewrite X. now rewrite rev_involutive.
  - reflexivity.
  - rewrite app_assoc, LH. now rewrite rev_involutive.
Qed.
Print Assumptions C44_trim.
(** A text of spaces only gives a single space. *)
Theorem C44_trim_spaces : forall a n dir off len, intr_trim off len (mkField a (repeat 32 n)) dir = mkField a [32].
Proof.
  intros a n dir off len. unfold intr_trim. cbn [fd fa].
  assert (E : forallb (fun c => c =? 32) (repeat 32 n) = true) by (induction n; cbn [repeat forallb]; auto). now rewrite E.
Qed.
Print Assumptions C44_trim_spaces.
Theorem C44_trim_every_text : forall t, (exists n, t = repeat 32 n) \/
  exists l core r, t = repeat 32 l ++ core ++ repeat 32 r /\ no_edge_space core.
Proof.
  assert (S : forall t, (exists n, t = repeat 32 n) \/ exists l u, t = repeat 32 l ++ u /\ u <> [] /\ hd 0 u <> 32).
  { induction t as [|c t IH]; [left; exists 0%nat; reflexivity|]. destruct (Z.eq_dec c 32) as [->|N].
    - destruct IH as [(n & ->)|(l & u & -> & X)]; [left; exists (S n); reflexivity|right; exists (S l), u; split; [reflexivity|auto]].
    - right. exists 0%nat, (c :: t). cbn [repeat app hd]. repeat split; auto. discriminate. }
  intros t. destruct (S t) as [H|(l & u & -> & NU & HU)]; auto. right.
  destruct (S (rev u)) as [(n & E)|(r & w & E & NW & HW)].
  - exfalso. apply (f_equal (@rev Z)) in E. rewrite rev_involutive, rev_spaces in E. subst u. destruct n; [apply NU; reflexivity|]. apply HU. reflexivity.
  - apply (f_equal (@rev Z)) in E. rewrite rev_involutive, rev_app_distr, rev_spaces in E. subst u.
    exists l, (rev w), r. split; auto. assert (WN : rev w <> []) by (intros X; apply (f_equal (@rev Z)) in X; rewrite rev_involutive in X; auto).
    split; auto. split.
    + destruct (rev w); [congruence|exact HU].
    + rewrite <- hd_rev, rev_involutive. exact HW.
Qed.
Print Assumptions C44_trim_every_text.
Example C44_trim_ex : fd (intr_trim 0 0 (mkField alnum [32;65;32;66;32]) 0) = [65;32;66].
Proof. reflexivity. Qed.

(** ORD and CHAR. *)
Lemma set_res_int : forall m n, 0 <= n < 100000000 -> exists r, set_int m res_int n = Ok r /\ holds_int (c_ebcdic m) r n.
Proof.
  intros m n H. destruct (int_result_spec m n false H) as (r & E & H1). unfold int_result in E.
  destruct (set_int m res_int n); cbn [obind] in E; try discriminate. injection E as <-. eauto.
Qed.
Theorem C44_ord_char : forall m a c, is_byte c ->
  exists r, intr_ord_char m (mkField a [c]) = Ok r /\ holds_int (c_ebcdic m) r (c + 1) /\
  exists r', intr_char m r = Ok r' /\ fd r' = [c].
Proof.
  intros m a c HB. unfold intr_ord_char. cbn [fd]. unfold is_byte in HB.
  destruct (set_res_int m (c + 1)) as (r & E & H1); [lia|]. exists r. split; auto. split; auto.
  unfold intr_char. assert (A : int_arg (c_ebcdic m) r (c + 1)).
  { destruct H1 as (D & S). exists (c + 1). split; auto. rewrite S. split; [apply trunc_id|]. split; [unfold INT_MAX; lia|].
    repeat split; intros; try lia. inversion D; subst; cbn [fa] in *; try congruence. lia. }
  rewrite (int_arg_get m r (c + 1) A). cbn [obind fst].
  destruct (Z.ltb_spec (c + 1) 1); [lia|]. destruct (Z.ltb_spec 256 (c + 1)); [lia|]. cbn [orb].
  eexists. split; [reflexivity|]. cbn [fd]. f_equal. lia.
Qed.
Print Assumptions C44_ord_char.
Theorem C44_char_ord : forall m f n, int_arg (c_ebcdic m) f n -> 1 <= n <= 256 ->
  exists r, intr_char m f = Ok r /\ exists r', intr_ord_char m r = Ok r' /\ holds_int (c_ebcdic m) r' n.
Proof.
  intros m f n A HN. unfold intr_char. rewrite (int_arg_get m f n A). cbn [obind fst].
  destruct (Z.ltb_spec n 1); [lia|]. destruct (Z.ltb_spec 256 n); [lia|]. cbn [orb]. eexists. split; [reflexivity|].
  unfold intr_ord_char. cbn [fd]. destruct (set_res_int m (n - 1 + 1)) as (r & E & H1); [lia|]. exists r. split; auto.
  now replace (n - 1 + 1) with n in H1 by lia.
Qed.
Print Assumptions C44_char_ord.
(** LENGTH and STORED-CHAR-LENGTH. *)
Theorem C44_length : forall m f, Z.of_nat (f_size f) < 100000000 ->
  exists r, intr_length m f = Ok r /\ holds_int (c_ebcdic m) r (Z.of_nat (f_size f)).
Proof. intros m f H. apply set_res_int. lia. Qed.
Print Assumptions C44_length.
Theorem C44_stored_length : forall m a core r, (core = [] \/ last core 0 <> 32) ->
  Z.of_nat (length core) < 100000000 ->
  exists q, intr_stored_length m (mkField a (core ++ repeat 32 r)) = Ok q /\ holds_int (c_ebcdic m) q (Z.of_nat (length core)).
Proof.
  intros m a core r HC HL. unfold intr_stored_length. cbn [fd].
  assert (E : length (skip_spaces (rev (core ++ repeat 32 r))) = length core).
  { rewrite rev_app_distr, rev_spaces. destruct HC as [->|HC].
    - cbn [rev]. rewrite app_nil_r. induction r; cbn [repeat skip_spaces]; auto.
    - rewrite skip_spaces_app by (now rewrite hd_rev). apply rev_length. }
  rewrite E. apply set_res_int. lia.
Qed.
Print Assumptions C44_stored_length.

Lemma Forall2_length : forall A B (R : A -> B -> Prop) l l', Forall2 R l l' -> length l = length l'.
Proof. intros A B R l l' F. induction F; cbn [length]; auto. Qed.
Arguments Forall2_length {A B R l l'} _.

(** ** C45 *)
Section SubstProof.
Variables (cmp : list Z -> list Z -> bool) (eq : Z -> Z -> Prop) (reps : list (list Z * list Z)).
Hypothesis cmp_ok : forall p r t, In (p, r) reps -> (length p <= length t)%nat -> (cmp p t = true <-> occurs eq p t).
Hypothesis nonempty : forall p r, In (p, r) reps -> p <> [].

Lemma occurs_len : forall p t, occurs eq p t -> (length p <= length t)%nat.
Proof. intros p t (a & b & -> & F). apply Forall2_length in F. rewrite app_length. lia. Qed.

Lemma first_match_spec : forall rs rest, incl rs reps ->
  match first_match cmp rs rest with
  | None => forall p r, In (p, r) rs -> ~ occurs eq p rest
  | Some (p, r) => exists before after, rs = before ++ (p, r) :: after /\
      (forall p' r', In (p', r') before -> ~ occurs eq p' rest) /\ occurs eq p rest
  end.
Proof.
  induction rs as [|[p r] q IH]; intros rest I; cbn [first_match].
  - intros p r [].
  - assert (IP : In (p, r) reps) by (apply I; left; reflexivity).
    assert (IQ : incl q reps) by (intros x X; apply I; right; auto). specialize (IH rest IQ).
    destruct (Nat.leb_spec (length p) (length rest)) as [L|L]; cbn [andb].
    + destruct (cmp p rest) eqn:C.
      * exists [], q. split; auto. split; [intros p' r' []|]. now apply (cmp_ok p r rest IP L).
      * assert (NO : ~ occurs eq p rest) by (intros X; apply (cmp_ok p r rest IP L) in X; congruence).
        destruct (first_match cmp q rest) as [[p1 r1]|].
        -- destruct IH as (bf & af & E & B & O). exists ((p, r) :: bf), af. rewrite E. split; auto. split; auto.
           intros p' r' [X|X]; [injection X as <- <-; auto|eauto].
        -- intros p' r' [X|X]; [injection X as <- <-; auto|eauto].
    + assert (NO : ~ occurs eq p rest) by (intros X; apply occurs_len in X; lia).
      destruct (first_match cmp q rest) as [[p1 r1]|].
      * destruct IH as (bf & af & E & B & O). exists ((p, r) :: bf), af. rewrite E. split; auto. split; auto.
        intros p' r' [X|X]; [injection X as <- <-; auto|eauto].
      * intros p' r' [X|X]; [injection X as <- <-; auto|eauto].
Qed.

Lemma passes_spec : forall fuel rest, (length rest < fuel)%nat ->
  exists out, substituted eq reps rest out /\
    (forall k, pass1 cmp reps fuel rest k = Some (k + length out)%nat) /\
    (forall pre, pass2 cmp reps fuel rest pre = Some (pre ++ out)).
Proof.
  induction fuel as [|g IH]; intros rest L; [lia|]. cbn [pass1 pass2]. destruct rest as [|c r].
  - exists []. split; [constructor|]. split; intros; [now rewrite Nat.add_0_r|now rewrite app_nil_r].
  - pose proof (first_match_spec reps (c :: r) (incl_refl _)) as FM.
    destruct (first_match cmp reps (c :: r)) as [[p w]|].
    + destruct FM as (bf & af & E & B & (a & b & EAB & F2)). pose proof (Forall2_length F2) as LP.
      assert (PN : p <> []) by (apply (nonempty p w); rewrite E; apply in_or_app; right; left; reflexivity).
      assert (SK : skipn (length p) (c :: r) = b).
      { rewrite EAB, LP. rewrite skipn_app, Nat.sub_diag, skipn_all. reflexivity. }
      rewrite SK. destruct (IH b) as (out & S & P1 & P2).
      { assert (length (c :: r) = (length a + length b)%nat) by (rewrite EAB, app_length; reflexivity).
        destruct p; [congruence|]. cbn [length] in *. lia. }
      exists (w ++ out). rewrite EAB in B |- *. split.
      * eapply sub_rep; eauto. rewrite <- EAB. discriminate.
      * split; intros.
        -- rewrite P1, app_length. f_equal. lia.
        -- rewrite P2. now rewrite app_assoc.
    + destruct (IH r) as (out & S & P1 & P2); [cbn [length] in L; lia|]. exists (c :: out). split; [constructor; auto|].
      split; intros.
      * rewrite P1. cbn [length]. f_equal. lia.
      * rewrite P2, <- app_assoc. reflexivity.
Qed.
Lemma substitute_spec : forall off len var fuel, (length var < fuel)%nat ->
  exists out, substituted eq reps var out /\
    substitute cmp reps fuel off len var = Some (Ok (mkField text_attr (ref_mod off len out))).
Proof.
  intros off len var fuel L. destruct (passes_spec fuel var L) as (out & S & P1 & P2). exists out. split; auto.
  unfold substitute. rewrite P1, P2. cbn [Nat.add app]. rewrite Nat.ltb_irrefl, Nat.sub_diag. cbn [repeat]. now rewrite app_nil_r.
Qed.
End SubstProof.

Lemma mem_eq_spec : forall p t, mem_eq p t = true <-> occurs Logic.eq p t.
Proof.
  induction p as [|x p IH]; intros t; cbn [mem_eq].
  - split; auto. intros _. exists [], t. split; auto.
  - destruct t as [|y t]; [split; [discriminate|]|].
    + intros (a & b & E & F). inversion F; subst. discriminate.
    + rewrite andb_true_iff, Z.eqb_eq, IH. split.
      * intros (-> & a & b & -> & F). exists (y :: a), b. split; auto.
      * intros (a & b & E & F). inversion F as [|? ? ? a' ? F']; subst. cbn [app] in E. injection E as <- ->. split; auto. exists a', b. auto.
Qed.
Lemma same_letter_iff : forall x y, c_lower x = c_lower y <-> same_letter x y.
Proof.
  assert (U : forall c d, lower_of c d -> d = c_lower c).
  { intros c d H. unfold lower_of, c_lower in *. destruct (Z.leb_spec 65 c), (Z.leb_spec c 90); cbn [andb]; lia. }
  intros x y. split.
  - intros E. exists (c_lower x). split; [apply lower_spec|]. rewrite E. apply lower_spec.
  - intros (l & A & B). apply U in A. apply U in B. congruence.
Qed.
Lemma case_eq_spec : forall p t, Forall (fun c => c <> 0) p -> (case_eq p t = true <-> occurs same_letter p t).
Proof.
  induction p as [|x p IH]; intros t H; cbn [case_eq].
  - split; auto. intros _. exists [], t. split; auto.
  - inversion H as [|? ? NX HP]; subst. destruct t as [|y t]; [split; [discriminate|]|].
    + intros (a & b & E & F). inversion F; subst. discriminate.
    + destruct (Z.eqb_spec x 0); [congruence|]. cbn [orb]. rewrite andb_true_iff, Z.eqb_eq, IH by auto. split.
      * intros (E & a & b & -> & F). exists (y :: a), b. split; auto. constructor; auto. now apply same_letter_iff.
      * intros (a & b & E & F). inversion F as [|? ? ? a' ? F']; subst. cbn [app] in E. injection E as <- ->. split; [now apply same_letter_iff|]. exists a', b. auto.
Qed.

(** SUBSTITUTE with non-empty patterns terminates, stays inside the size computed
    by its first pass, and the result is the left-to-right substitution. *)
Theorem C45_substitute : forall reps off len var fuel, (forall p r, In (p, r) reps -> p <> []) -> (length var < fuel)%nat ->
  exists out, substituted Logic.eq reps var out /\
    intr_substitute reps fuel off len var = Some (Ok (mkField text_attr (ref_mod off len out))).
Proof. intros reps off len var fuel NE L. apply substitute_spec; auto. intros. apply mem_eq_spec. Qed.
Print Assumptions C45_substitute.
Theorem C45_substitute_case : forall reps off len var fuel,
  (forall p r, In (p, r) reps -> p <> [] /\ Forall (fun c => c <> 0) p) -> (length var < fuel)%nat ->
  exists out, substituted same_letter reps var out /\
    intr_substitute_case reps fuel off len var = Some (Ok (mkField text_attr (ref_mod off len out))).
Proof.
  intros reps off len var fuel NE L. apply substitute_spec; auto.
  - intros p r t I _. apply case_eq_spec. apply (NE p r I).
  - intros p r I. apply (NE p r I).
Qed.
Print Assumptions C45_substitute_case.
(** The result is determined. *)
Theorem C45_deterministic : forall eq reps t out out', (forall p r, In (p, r) reps -> p <> []) ->
  substituted eq reps t out -> substituted eq reps t out' -> out = out'.
Proof.
  intros eq reps t out out' NE S. revert out'. induction S as [|c t out NO S IH|bf p r af a t out E B F NA S IH]; intros out' S'.
  - inversion S' as [| |? ? ? ? a' ? ? ? ? ? NA' ? E1]; auto. congruence.
  - inversion S' as [|c' t' o' NO' S2 E1|bf' p' r' af' a' t' o' E' B' F' NA' S2 E1].
    + f_equal. auto.
    + exfalso. apply (NO p' r'); [rewrite E'; apply in_or_app; right; left; reflexivity|]. rewrite <- E1. exists a', t'. auto.
  - inversion S' as [E1|c' t' o' NO' S2 E1|bf' p' r' af' a' t' o' E' B' F' NA' S2 E1].
    + congruence.
    + exfalso. apply (NO' p r); [rewrite E; apply in_or_app; right; left; reflexivity|]. rewrite E1. exists a, t. auto.
    + assert (PR : (p, r) = (p', r')).
      { assert (X : exists q, bf' = bf ++ q \/ bf = bf' ++ q).
        { clear - E E'. rewrite E in E'. clear E. revert bf' E'. induction bf as [|x bf IHb]; intros bf' E'.
          - exists bf'. left. reflexivity.
          - destruct bf' as [|y bf']; [exists (x :: bf); right; reflexivity|]. cbn [app] in E'. injection E' as -> E'.
            destruct (IHb _ E') as (q & [->| ->]); exists q; [left|right]; reflexivity. }
        assert (E2 : bf ++ (p, r) :: af = bf' ++ (p', r') :: af') by congruence.
        destruct X as (q & [X|X]).
        - subst bf'. destruct q as [|z q]; [rewrite app_nil_r in E2; apply app_inv_head in E2; congruence|].
          exfalso. rewrite <- app_assoc in E2. apply app_inv_head in E2. cbn [app] in E2. injection E2 as <- _.
          apply (B' p r); [apply in_or_app; right; left; reflexivity|]. rewrite E1. exists a, t. auto.
        - subst bf. destruct q as [|z q]; [rewrite app_nil_r in E2; apply app_inv_head in E2; congruence|].
          exfalso. rewrite <- app_assoc in E2. apply app_inv_head in E2. cbn [app] in E2. injection E2 as -> _.
          apply (B p' r'); [apply in_or_app; right; left; reflexivity|]. rewrite <- E1. exists a', t'. auto. }
      injection PR as <- <-. assert (LA : length a = length a') by (apply Forall2_length in F; apply Forall2_length in F'; congruence).
      assert (AT : a = a' /\ t = t').
      { clear - LA E1. revert a' LA E1. induction a as [|x a IHa]; intros [|y a'] LA E1; try discriminate LA; cbn [app] in *; auto.
        injection E1 as -> E1. injection LA as LA. destruct (IHa _ LA E1) as (-> & ->). auto. }
      destruct AT as (-> & ->). f_equal. apply IH. auto.
Qed.
Print Assumptions C45_deterministic.
(** "ABABC" with AB->x, B->yy, C->"" : "xx". *)
Example C45_ex : intr_substitute [([65;66], [120]); ([66], [121;121]); ([67], [])] 6 0 0 [65;66;65;66;67] = Some (Ok (mkField text_attr [120;120])).
Proof. reflexivity. Qed.
(** An empty pattern (an item of size 0, e.g. ANY LENGTH) never ends. *)
Theorem C45_empty_pattern_refuted : forall fuel var r off len, var <> [] ->
  intr_substitute [([], r)] fuel off len var = None.
Proof.
  intros fuel var r off len NE. unfold intr_substitute, substitute.
  assert (X : forall g k, pass1 mem_eq [([], r)] g var k = None).
  { induction g as [|g IH]; intros k; cbn [pass1]; auto. destruct var; [congruence|]. cbn [first_match length Nat.leb mem_eq andb skipn]. apply IH. }
  now rewrite X.
Qed.
Print Assumptions C45_empty_pattern_refuted.
(** SUBSTITUTE-CASE ignores what follows a NUL: pattern "A" X"00" "B" replaces "a" X"00" "z". *)
Theorem C45_case_nul_refuted : intr_substitute_case [([65;0;66], [49])] 4 0 0 [97;0;122] = Some (Ok (mkField text_attr [49])) /\
  ~ occurs same_letter [65;0;66] [97;0;122].
Proof.
  split; [reflexivity|]. intros (a & b & E & F). inversion F as [|? ? ? a1 ? F1]; subst. inversion F1 as [|? ? ? a2 ? F2]; subst.
  inversion F2 as [|? ? ? a3 L3 F3]; subst. cbn [app] in E. injection E as <- <- <- _. apply same_letter_iff in L3. discriminate L3.
Qed.
Print Assumptions C45_case_nul_refuted.

(** ** C46 *)
Definition nv_fold (m : cfg) (curr : bool) (t : list Z) (st : nvstate) : nvstate :=
  fold_left (fun s c => nv_char m curr c s) t st.
Definition nv_count (st : nvstate) : nat := (nv_int st + nv_dec st)%nat.
(** Not a letter C or D. *)
Definition no_cd (c : Z) : Prop := c_lower c <> 99 /\ c_lower c <> 100.
Lemma no_crdb : forall c r after, no_cd c -> crdb (c :: r) after = false.
Proof.
  intros c r after (A & B). unfold crdb, two_letters. destruct r; auto.
  destruct (Z.eqb_spec (c_lower c) 99); [congruence|]. destruct (Z.eqb_spec (c_lower c) 100); [congruence|]. reflexivity.
Qed.
Lemma nv_char_count : forall m curr c st, (nv_count st <= nv_count (nv_char m curr c st))%nat.
Proof.
  intros. unfold nv_char, nv_count.
  repeat (match goal with |- context [if ?b then _ else _] => destruct b end; cbn [nv_int nv_dec]; try lia).
Qed.
Lemma nv_fold_count : forall m curr t st, (nv_count st <= nv_count (nv_fold m curr t st))%nat.
Proof.
  intros m curr. induction t as [|c t IH]; intros st; cbn [nv_fold fold_left]; [lia|].
  eapply Nat.le_trans; [apply (nv_char_count m curr c)|apply IH].
Qed.
(** Characters that do not start a currency string or CR/DB are taken one by one. *)
Lemma nv_loop_plain : forall m curr cur after t rest st,
  Forall (fun c => no_cd c /\ match cur with [] => True | x :: _ => x <> c end) t ->
  (nv_count (nv_fold m curr t st) <= 30)%nat ->
  nv_loop m curr cur after 0 (t ++ rest) st = nv_loop m curr cur after 0 rest (nv_fold m curr t st).
Proof.
  intros m curr cur after. induction t as [|c t IH]; intros rest st F H; [reflexivity|].
  inversion F as [|? ? (NC & NX) FT]; subst. cbn [app nv_loop nv_fold fold_left] in *. rewrite no_crdb by auto.
  assert (M : negb match cur with [] => true | _ => false end && (length cur <? length (c :: t ++ rest))%nat && mem_eq cur (c :: t ++ rest) = false).
  { destruct cur as [|x cur]; [reflexivity|]. cbn [mem_eq]. destruct (Z.eqb_spec x c); [congruence|]. cbn [andb]. apply andb_false_r. }
  rewrite M. pose proof (nv_fold_count m curr t (nv_char m curr c st)) as CNT. unfold nv_fold in CNT at 1.
  destruct (Nat.ltb_spec 30 (nv_int (nv_char m curr c st) + nv_dec (nv_char m curr c st))) as [L|L].
  - exfalso. unfold nv_count in *. unfold nv_fold in *. lia.
  - apply IH; auto.
Qed.

Section NV.
Variables (m : cfg) (curr : bool).
Hypothesis pc : point_cfg m.
Hypothesis cc : curr = true -> ~ 48 <= c_currency m <= 57.
Lemma nv_fold_app : forall t u st, nv_fold m curr (t ++ u) st = nv_fold m curr u (nv_fold m curr t st).
Proof. intros. unfold nv_fold. apply fold_left_app. Qed.
Lemma nv_blanks : forall t st, blanks t -> nv_fold m curr t st = st.
Proof. induction t as [|c t IH]; intros st B; [reflexivity|]. inversion B as [|? ? E BT]; subst. cbn [nv_fold fold_left]. apply IH. auto. Qed.
Lemma nv_sign : forall s n st, sign_text s n -> nv_fold m curr s st = mkNV (nv_val st) (nv_int st) (nv_dec st) (n || nv_neg st) (nv_seen st).
Proof. intros s n st S. destruct S; destruct st; reflexivity. Qed.
Lemma nv_digit : forall d st, is_dig d -> nv_char m curr (digit_char d) st =
  if nv_seen st then mkNV (nv_val st * 10 + d) (nv_int st) (S (nv_dec st)) (nv_neg st) true
  else mkNV (nv_val st * 10 + d) (S (nv_int st)) (nv_dec st) (nv_neg st) false.
Proof.
  intros d st D. unfold is_dig in D. unfold nv_char, digit_char.
  destruct (Z.eqb_spec (48 + d) 32); [lia|]. destruct (Z.eqb_spec (48 + d) 43); [lia|]. destruct (Z.eqb_spec (48 + d) 45); [lia|].
  destruct (Z.eqb_spec (48 + d) (c_decpoint m)); [destruct pc as [[P _]|[P _]]; lia|].
  assert (E : curr && (48 + d =? c_currency m) = false).
  { destruct curr eqn:C; auto. cbn [andb]. apply Z.eqb_neq. specialize (cc eq_refl). lia. }
  rewrite E. destruct (Z.leb_spec 48 (48 + d)); [|lia]. destruct (Z.leb_spec (48 + d) 57); [|lia]. cbn [andb].
  replace (48 + d - 48) with d by lia. reflexivity.
Qed.
Lemma nv_int_digits : forall ds v i k neg, Forall is_dig ds ->
  nv_fold m curr (map digit_char ds) (mkNV v i k neg false) = mkNV (v * 10 ^ Z.of_nat (length ds) + digits_value ds) (i + length ds) k neg false.
Proof.
  induction ds as [|d ds IH]; intros v i k neg F; cbn [map nv_fold fold_left length].
  - change (10 ^ Z.of_nat 0) with 1. rewrite Nat.add_0_r. f_equal. unfold digits_value. cbn. lia.
  - inversion F; subst. rewrite nv_digit by auto. cbn [nv_seen nv_val nv_int nv_dec nv_neg].
    fold (nv_fold m curr (map digit_char ds) (mkNV (v * 10 + d) (S i) k neg false)). rewrite IH by auto. rewrite digits_value_cons.
    rewrite Nat2Z.inj_succ, Z.pow_succ_r by lia. f_equal; [ring|lia].
Qed.
Lemma nv_dec_digits : forall ds v i k neg, Forall is_dig ds ->
  nv_fold m curr (map digit_char ds) (mkNV v i k neg true) = mkNV (v * 10 ^ Z.of_nat (length ds) + digits_value ds) i (k + length ds) neg true.
Proof.
  induction ds as [|d ds IH]; intros v i k neg F; cbn [map nv_fold fold_left length].
  - change (10 ^ Z.of_nat 0) with 1. rewrite Nat.add_0_r. f_equal. unfold digits_value. cbn. lia.
  - inversion F; subst. rewrite nv_digit by auto. cbn [nv_seen nv_val nv_int nv_dec nv_neg].
    fold (nv_fold m curr (map digit_char ds) (mkNV (v * 10 + d) i (S k) neg true)). rewrite IH by auto. rewrite digits_value_cons.
    rewrite Nat2Z.inj_succ, Z.pow_succ_r by lia. f_equal; [ring|lia].
Qed.
Lemma nv_frac : forall fp t v i neg, fraction_text (c_decpoint m) fp t -> Forall is_dig fp ->
  exists seen, nv_fold m curr t (mkNV v i 0 neg false) = mkNV (v * 10 ^ Z.of_nat (length fp) + digits_value fp) i (length fp) neg seen.
Proof.
  intros fp t v i neg [(-> & ->)| ->] F.
  - exists false. cbn [nv_fold fold_left length]. change (10 ^ Z.of_nat 0) with 1. f_equal. unfold digits_value. cbn. lia.
  - exists true. cbn [nv_fold fold_left].
    assert (E : nv_char m curr (c_decpoint m) (mkNV v i 0 neg false) = mkNV v i 0 neg true).
    { unfold nv_char. rewrite Z.eqb_refl. destruct pc as [[-> _]|[-> _]]; reflexivity. }
    rewrite E. exact (nv_dec_digits fp v i 0 neg F).
Qed.
End NV.

Lemma nv_finish_spec : forall m st v, (nv_int st + nv_dec st <= 18)%nat -> v = (if nv_neg st then - nv_val st else nv_val st) ->
  Z.abs (nv_val st) < 10 ^ 18 ->
  exists r, nv_finish st = Ok r /\ denotes (c_ebcdic m) r v /\ a_scale (fa r) = Z.of_nat (nv_dec st).
Proof.
  intros m st v L EV B. unfold nv_finish. destruct (Nat.leb_spec (nv_int st + nv_dec st) 18); [|lia].
  rewrite <- EV. set (g := fresh (bin_attr 18 (Z.of_nat (nv_dec st)) true) 8).
  assert (SG : f_size g = 8%nat) by (unfold g; apply fresh_size).
  assert (H8 : (1 <= f_size g <= 8)%nat) by lia.
  destruct (binary_set_64_spec g v H8) as (A & S & BO & _). exists (binary_set_64 g v). split; auto.
  assert (V : bin_value true false (fd (binary_set_64 g v)) = v).
  { apply (bin_value_store g v); auto; try reflexivity. unfold bits. rewrite SG.
    change (8 * Z.of_nat 8 - 1) with 63. change (2 ^ 63) with 9223372036854775808. change (10 ^ 18) with 1000000000000000000 in B.
    destruct (nv_neg st); lia. }
  split; [|rewrite A; reflexivity].
  destruct (binary_set_64 g v) as [a l] eqn:E. cbn [fa fd] in *. rewrite <- V.
  assert (SA : a_sign a = true) by (rewrite A; reflexivity). assert (WA : a_swap a = false) by (rewrite A; reflexivity).
  rewrite <- SA, <- WA. apply den_binary; auto.
  - rewrite A. reflexivity.
  - rewrite SG in S. unfold f_size in S. cbn [fd] in S. lia.
Qed.

Section NVText.
Variables (m : cfg) (curr : bool).
Hypothesis pc : point_cfg m.
Hypothesis cc : curr = true -> ~ 48 <= c_currency m <= 57.
Variables (b1 s1 b2 b3 ip fp frac b4 s2 b5 : list Z) (n1 n2 : bool).
Hypotheses (B1 : blanks b1) (B2 : blanks b2) (B3 : blanks b3) (B4 : blanks b4) (B5 : blanks b5).
Hypotheses (S1 : sign_text s1 n1) (S2 : sign_text s2 n2) (IP : Forall is_dig ip) (FP : Forall is_dig fp).
Hypothesis FT : fraction_text (c_decpoint m) fp frac.
Hypothesis LEN : (length ip + length fp <= 18)%nat.

Definition plain_nv (c : Z) : Prop := c = 32 \/ c = 43 \/ c = 45 \/ c = 44 \/ c = 46 \/ 48 <= c <= 57.
Lemma plain_no_cd : forall c, plain_nv c -> no_cd c.
Proof.
  intros c H. unfold no_cd, c_lower. unfold plain_nv in H.
  destruct (Z.leb_spec 65 c); [lia|]. cbn [andb]. lia.
Qed.
Lemma plain_blanks : forall b, blanks b -> Forall plain_nv b.
Proof. intros b H. eapply Forall_impl; [|exact H]. intros c ->. now left. Qed.
Lemma plain_sign : forall s n, sign_text s n -> Forall plain_nv s.
Proof. intros s n []; repeat constructor; unfold plain_nv; lia. Qed.
Lemma plain_digits : forall ds, Forall is_dig ds -> Forall plain_nv (map digit_char ds).
Proof. intros ds H. rewrite Forall_map. eapply Forall_impl; [|exact H]. intros d D. unfold is_dig, plain_nv, digit_char in *. lia. Qed.
Lemma plain_point : plain_nv (c_decpoint m).
Proof. unfold plain_nv. destruct pc as [[-> _]|[-> _]]; lia. Qed.
Lemma plain_frac : Forall plain_nv frac.
Proof.
  destruct FT as [(_ & ->)| ->]; [constructor|]. constructor; [apply plain_point|apply plain_digits; auto].
Qed.
Let P := b1 ++ s1 ++ b2.
Let Q := b3 ++ map digit_char ip ++ frac ++ b4 ++ s2 ++ b5.
Lemma plain_P : Forall plain_nv P.
Proof. unfold P. rewrite !Forall_app. split; [|split]; eauto using plain_blanks, plain_sign. Qed.
Lemma plain_Q : Forall plain_nv Q.
Proof. unfold Q. rewrite !Forall_app. repeat split; eauto using plain_blanks, plain_sign, plain_digits, plain_frac. Qed.
Lemma fold_P : nv_fold m curr P nv0 = mkNV 0 0 0 n1 false.
Proof.
  unfold P. rewrite !nv_fold_app. rewrite (nv_blanks m curr b1) by auto. rewrite (nv_sign m curr s1 n1) by auto.
  rewrite (nv_blanks m curr b2) by auto. cbn [nv0 nv_val nv_int nv_dec nv_neg nv_seen]. now rewrite orb_false_r.
Qed.
Lemma fold_Q : exists seen, nv_fold m curr Q (mkNV 0 0 0 n1 false) =
  mkNV (digits_value (ip ++ fp)) (length ip) (length fp) (n2 || n1) seen.
Proof.
  unfold Q. rewrite !nv_fold_app. rewrite (nv_blanks m curr b3) by auto. rewrite nv_int_digits by auto.
  destruct (nv_frac m curr pc cc fp frac (0 * 10 ^ Z.of_nat (length ip) + digits_value ip) (0 + length ip) n1 FT FP) as (seen & E).
  rewrite E. rewrite (nv_blanks m curr b4) by auto. rewrite (nv_sign m curr s2 n2) by auto. rewrite (nv_blanks m curr b5) by auto.
  cbn [nv_val nv_int nv_dec nv_neg nv_seen]. exists seen. rewrite digits_value_app. rewrite Z.mul_0_l, Z.add_0_l, Nat.add_0_l. reflexivity.
Qed.
Lemma whole : forall cur after C,
  (match cur with [] => True | x :: _ => ~ plain_nv x end) ->
  (forall st, (nv_count st <= 30)%nat -> nv_loop m curr cur after 0 (C ++ Q) st = nv_loop m curr cur after 0 Q st) ->
  exists r, nv_finish (nv_loop m curr cur after 0 (P ++ C ++ Q) nv0) = Ok r /\
    denotes (c_ebcdic m) r (signed_value (n1 || n2) (ip ++ fp)) /\ a_scale (fa r) = Z.of_nat (length fp).
Proof.
  intros cur after C HX HC.
  assert (PL : forall l, Forall plain_nv l -> Forall (fun c => no_cd c /\ match cur with [] => True | x :: _ => x <> c end) l).
  { intros l F. eapply Forall_impl; [|exact F]. intros c Hc. split; [now apply plain_no_cd|]. destruct cur; auto. intros ->. auto. }
  rewrite nv_loop_plain; [|apply PL; apply plain_P|rewrite fold_P; unfold nv_count; cbn; lia]. rewrite fold_P.
  rewrite HC by (unfold nv_count; cbn; lia).
  destruct fold_Q as (seen & EQ).
  rewrite <- (app_nil_r Q), nv_loop_plain; [|apply PL; apply plain_Q|rewrite EQ; unfold nv_count; cbn [nv_int nv_dec]; lia].
  cbn [nv_loop]. rewrite EQ.
  assert (BD : Z.abs (digits_value (ip ++ fp)) < 10 ^ 18).
  { assert (F : Forall is_dig (ip ++ fp)) by (rewrite Forall_app; auto). pose proof (digits_value_bound _ F) as B.
    rewrite Z.abs_eq by lia. apply Z.lt_le_trans with (1 := proj2 B). apply Z.pow_le_mono_r; [lia|]. rewrite app_length. lia. }
  eapply nv_finish_spec; cbn [nv_int nv_dec nv_neg nv_val]; auto. unfold signed_value. rewrite (orb_comm n2). reflexivity.
Qed.
End NVText.

(** NUMVAL: any text in the format with at most 18 digits, whatever storage
    follows the item. *)
Theorem C46_numval : forall m a t neg ip fp after, point_cfg m ->
  numval_text (c_decpoint m) [] t neg ip fp -> (length ip + length fp <= 18)%nat ->
  exists r, intr_numval m after (mkField a t) = Ok r /\
    denotes (c_ebcdic m) r (signed_value neg (ip ++ fp)) /\ a_scale (fa r) = Z.of_nat (length fp).
Proof.
  intros m a t neg ip fp after PC T L.
  inversion T as [b1 s1 n1 b2 c b3 ip' fp' frac b4 s2 n2 b5 B1 B2 B3 B4 B5 HC S1 S2 _ IP FP FT]; subst.
  assert (C0 : c = []) by (destruct HC; auto). subst c. unfold intr_numval. cbn [fd].
  pose proof (whole m false PC ltac:(discriminate) b1 s1 b2 b3 ip fp frac b4 s2 b5 n1 n2 B1 B2 B3 B4 B5 S1 S2 IP FP FT L [] after [] I) as W.
  rewrite <- !app_assoc in W. cbn [app] in W |- *. apply W. auto.
Qed.
Print Assumptions C46_numval.
(** " - 12.50 " *)
Example C46_ex : exists r, intr_numval default_cfg 65 (mkField alnum [32;45;32;49;50;46;53;48;32]) = Ok r /\
  binary_get_int64 r = -1250 /\ a_scale (fa r) = 2.
Proof. eexists. split; [vm_compute; reflexivity|split; vm_compute; reflexivity]. Qed.
Example C46_hyp : numval_text 46 [] [32;45;32;49;50;46;53;48;32] true [1;2] [5;0].
Proof.
  apply (nv_text 46 [] [32] [45] true [32] [] [] [1;2] [5;0] [46;53;48] [32] [] false []);
    try (repeat constructor; unfold is_dig; lia); auto.
Qed.

(** NUMVAL-C: the currency sign is the module's symbol, or the second argument. *)
Theorem C46_numval_c : forall m a t neg ip fp after cs, point_cfg m ->
  let x := c_currency m in
  ~ (x = 32 \/ x = 43 \/ x = 45 \/ x = 44 \/ x = 46 \/ 48 <= x <= 57) -> c_lower x <> 99 -> c_lower x <> 100 ->
  numval_text (c_decpoint m) (match cs with None => [x] | Some c => fd c end) t neg ip fp ->
  (1 <= length ip + length fp <= 18)%nat ->
  match cs with None => True | Some c => match fd c with [] => False | y :: _ =>
    ~ (y = 32 \/ y = 43 \/ y = 45 \/ y = 44 \/ y = 46 \/ 48 <= y <= 57) /\ c_lower y <> 99 /\ c_lower y <> 100 end end ->
  exists r, intr_numval_c m after (mkField a t) cs = Ok r /\
    denotes (c_ebcdic m) r (signed_value neg (ip ++ fp)) /\ a_scale (fa r) = Z.of_nat (length fp).
Proof.
  intros m a t neg ip fp after cs PC x HX HX1 HX2 T L HCS.
  inversion T as [b1 s1 n1 b2 c b3 ip' fp' frac b4 s2 n2 b5 B1 B2 B3 B4 B5 HC S1 S2 _ IP FP FT]; subst.
  unfold intr_numval_c. cbn [fd].
  set (Q := b3 ++ map digit_char ip ++ frac ++ b4 ++ s2 ++ b5).
  assert (QL : (1 <= length Q)%nat).
  { unfold Q. rewrite !app_length, map_length. destruct FT as [(-> & ->)| ->]; cbn [length] in *; rewrite ?map_length; lia. }
  assert (W : forall cur, (match cur with [] => True | y :: _ => ~ plain_nv y end) ->
    (forall st, (nv_count st <= 30)%nat -> nv_loop m true cur after 0 (c ++ Q) st = nv_loop m true cur after 0 Q st) ->
    exists r, nv_finish (nv_loop m true cur after 0 (b1 ++ s1 ++ b2 ++ c ++ b3 ++ map digit_char ip ++ frac ++ b4 ++ s2 ++ b5) nv0) = Ok r /\
      denotes (c_ebcdic m) r (signed_value (n1 || n2) (ip ++ fp)) /\ a_scale (fa r) = Z.of_nat (length fp)).
  { intros cur H1 H2.
    assert (CD : true = true -> ~ 48 <= c_currency m <= 57) by (intros _; fold x; lia).
    pose proof (whole m true PC CD b1 s1 b2 b3 ip fp frac b4 s2 b5 n1 n2 B1 B2 B3 B4 B5 S1 S2 IP FP FT ltac:(lia) cur after c H1 H2) as X.
    rewrite <- !app_assoc in X. exact X. }
  destruct cs as [g|].
  - destruct (fd g) as [|y ys] eqn:EG; [contradiction|]. destruct HCS as (Y1 & Y2 & Y3).
    assert (CASE : c = [] \/ (c = y :: ys /\ (f_size g <? length (b1 ++ s1 ++ b2 ++ c ++ Q))%nat = true)).
    { destruct HC as [HC|HC]; auto. right. split; auto. apply Nat.ltb_lt. unfold f_size. rewrite EG, HC, !app_length. lia. }
    unfold f_size at 2. cbn [fd]. fold Q. fold Q in W. destruct CASE as [->|(-> & LT)].
    + cbn [app] in *. apply W.
      * destruct (f_size g <? _)%nat; auto.
      * intros st _. reflexivity.
    + rewrite LT. apply W; [exact Y1|].
      intros st SC. cbn [app nv_loop]. rewrite no_crdb by (split; auto). cbn [negb andb].
      assert (LL : (length (y :: ys) <? length (y :: ys ++ Q))%nat = true) by (apply Nat.ltb_lt; cbn [length]; rewrite app_length; lia).
      rewrite LL. cbn [andb].
      assert (ME : mem_eq (y :: ys) (y :: ys ++ Q) = true).
      { apply mem_eq_spec. exists (y :: ys), Q. split; auto. clear. induction (y :: ys); constructor; auto. }
      rewrite ME. cbn [length]. rewrite Nat.sub_succ, Nat.sub_0_r.
      assert (SK : forall zs cur, nv_loop m true cur after (length zs) (zs ++ Q) st = nv_loop m true cur after 0 Q st).
      { induction zs as [|z zs IH]; intros cur; cbn [length app nv_loop]; auto. }
      apply SK.
  - apply W; [exact I|]. destruct HC as [->| ->]; intros st SC; [reflexivity|].
    cbn [app nv_loop]. rewrite no_crdb by (split; auto). cbn [negb andb].
    assert (EC : nv_char m true x st = st).
    { unfold nv_char. fold x. destruct (Z.eqb_spec x 32); [lia|]. destruct (Z.eqb_spec x 43); [lia|]. destruct (Z.eqb_spec x 45); [lia|].
      destruct (Z.eqb_spec x (c_decpoint m)); [destruct PC as [[PP _]|[PP _]]; lia|]. rewrite Z.eqb_refl. reflexivity. }
    rewrite EC. destruct (Nat.ltb_spec 30 (nv_int st + nv_dec st)); [unfold nv_count in SC; lia|reflexivity].
Qed.
Print Assumptions C46_numval_c.
(** "-$1,234.5" and " EUR 7" with currency "EUR". *)
Example C46_c_ex : exists r, intr_numval_c default_cfg 65 (mkField alnum [45;36;49;44;50;51;52;46;53]) None = Ok r /\ binary_get_int64 r = -12345 /\
  exists r', intr_numval_c default_cfg 65 (mkField alnum [32;69;85;82;32;55]) (Some (mkField alnum [69;85;82])) = Ok r' /\ binary_get_int64 r' = 7.
Proof. eexists. split; [vm_compute; reflexivity|]. split; [vm_compute; reflexivity|]. eexists. split; [vm_compute; reflexivity|vm_compute; reflexivity]. Qed.

(** The signs CR and DB: recognised only when the byte after them is X"00": for
    "12CR" the result depends on the storage that follows the item, and in
    "12CR " (in a larger item) the sign is lost. *)
Theorem C46_crdb_refuted : forall a,
  (exists r, intr_numval default_cfg 0 (mkField a [49;50;67;82]) = Ok r /\ binary_get_int64 r = -12) /\
  (forall after, after <> 0 -> exists r, intr_numval default_cfg after (mkField a [49;50;67;82]) = Ok r /\ binary_get_int64 r = 12) /\
  (forall after, exists r, intr_numval default_cfg after (mkField a [49;50;67;82;32]) = Ok r /\ binary_get_int64 r = 12).
Proof.
  intros a. split; [|split].
  - eexists. split; [vm_compute; reflexivity|vm_compute; reflexivity].
  - intros after H. unfold intr_numval. cbn [fd nv_loop crdb two_letters c_lower]. apply Z.eqb_neq in H.
    assert (X : crdb [67;82] after = false).
    { unfold crdb, two_letters. rewrite H. reflexivity. }
    cbn [nv_loop]. change (crdb [49;50;67;82] after) with false. change (crdb [50;67;82] after) with false. rewrite X.
    change (crdb [82] after) with false. eexists. split; [vm_compute; reflexivity|vm_compute; reflexivity].
  - intros after. eexists. split; [vm_compute; reflexivity|vm_compute; reflexivity].
Qed.
Print Assumptions C46_crdb_refuted.
