(** Proofs about text comparison. *)
From Verif Require Import Base BaseFacts Field Sign Decimal Numeric Move Edited MoveAll Compare SpecCmp MoveMore.

Lemma collate_rank : forall col c, collate col c = rank col c.
Proof. destruct col; reflexivity. Qed.

(** ** The order itself *)
Section Order.
Variable col : option (list Z).

Lemma text_lt_irrefl : forall t, ~ text_lt col t t.
Proof. intros t (i & _ & H). lia. Qed.

Lemma text_lt_trans : forall t u v, text_lt col t u -> text_lt col u v -> text_lt col t v.
Proof.
  intros t u v (i & A & B) (j & C & D).
  destruct (Nat.lt_trichotomy i j) as [L | [L | L]].
  - exists i. split; [intros; rewrite A by lia; apply C; lia|]. rewrite <- C by lia. auto.
  - subst j. exists i. split; [intros; rewrite A by lia; apply C; lia|]. lia.
  - exists j. split; [intros; rewrite A by lia; apply C; lia|]. rewrite A by lia. auto.
Qed.

Lemma text_eq_refl : forall t, text_eq col t t.
Proof. intros t i. auto. Qed.
Lemma text_eq_sym : forall t u, text_eq col t u -> text_eq col u t.
Proof. intros t u H i. auto. Qed.
Lemma text_eq_lt : forall t u v, text_eq col t u -> text_lt col u v -> text_lt col t v.
Proof. intros t u v H (i & A & B). exists i. split; intros; rewrite H; auto. Qed.
Lemma text_lt_eq : forall t u v, text_lt col t u -> text_eq col u v -> text_lt col t v.
Proof. intros t u v (i & A & B) H. exists i. split; intros; rewrite <- H; auto. Qed.
Lemma text_eq_trans : forall t u v, text_eq col t u -> text_eq col u v -> text_eq col t v.
Proof. intros t u v A B i. rewrite A. auto. Qed.

Lemma text_lt_asym : forall t u, text_lt col t u -> text_lt col u t -> False.
Proof. intros t u A B. exact (text_lt_irrefl _ (text_lt_trans _ _ _ A B)). Qed.
Lemma text_lt_neq : forall t u, text_lt col t u -> text_eq col t u -> False.
Proof. intros t u (i & _ & A) B. specialize (B i). lia. Qed.

Lemma agrees_lt : forall t u c, c < 0 -> text_lt col t u -> cmp_agrees col t u c.
Proof.
  intros t u c L H. unfold cmp_agrees. split; [tauto|]. split; split; intros; try lia.
  - exfalso; eapply text_lt_neq; eauto.
  - exfalso; eapply text_lt_asym; eauto.
Qed.
Lemma agrees_eq : forall t u c, c = 0 -> text_eq col t u -> cmp_agrees col t u c.
Proof.
  intros t u c L H. unfold cmp_agrees. split; [|split; [tauto|]]; split; intros; try lia.
  - exfalso; eapply text_lt_neq; eauto.
  - exfalso; eapply text_lt_neq; eauto using text_eq_sym.
Qed.
Lemma agrees_sym : forall t u c, cmp_agrees col t u c -> cmp_agrees col u t (- c).
Proof.
  intros t u c (A & B & C). unfold cmp_agrees. split; [|split].
  - rewrite <- C. lia.
  - split; intros.
    + apply text_eq_sym, B. lia.
    + apply text_eq_sym, B in H. lia.
  - rewrite <- A. lia.
Qed.
Lemma agrees_gt : forall t u c, 0 < c -> text_lt col u t -> cmp_agrees col t u c.
Proof. intros. replace c with (- - c) by lia. apply agrees_sym, agrees_lt; auto; lia. Qed.

(** ** Step lemmas *)
Lemma char_rank_0 : forall x r, char_rank col (x :: r) 0 = rank col x.
Proof. reflexivity. Qed.
Lemma char_rank_S : forall x r i, char_rank col (x :: r) (S i) = char_rank col r i.
Proof. reflexivity. Qed.
Lemma char_rank_nil : forall i, char_rank col [] i = rank col 32.
Proof. intros. unfold char_rank. destruct i; reflexivity. Qed.

Lemma agrees_head : forall x r y s, rank col x <> rank col y ->
  cmp_agrees col (x :: r) (y :: s) (rank col x - rank col y).
Proof.
  intros x r y s N. destruct (Z_lt_dec (rank col x) (rank col y)).
  - apply agrees_lt; [lia|]. exists 0%nat. split; [intros; lia|]. rewrite !char_rank_0. auto.
  - apply agrees_gt; [lia|]. exists 0%nat. split; [intros; lia|]. rewrite !char_rank_0. lia.
Qed.
Lemma text_lt_cons : forall x r y s, rank col x = rank col y ->
  (text_lt col (x :: r) (y :: s) <-> text_lt col r s).
Proof.
  intros x r y s E. split.
  - intros (i & A & B). destruct i as [|i].
    + rewrite !char_rank_0 in B. lia.
    + exists i. split; [|rewrite !char_rank_S in B; auto].
      intros j Hj. specialize (A (S j) ltac:(lia)). now rewrite !char_rank_S in A.
  - intros (i & A & B). exists (S i). split; [|now rewrite !char_rank_S].
    intros j Hj. destruct j; [rewrite !char_rank_0; auto|rewrite !char_rank_S; apply A; lia].
Qed.
Lemma text_eq_cons : forall x r y s, rank col x = rank col y ->
  (text_eq col (x :: r) (y :: s) <-> text_eq col r s).
Proof.
  intros x r y s E. split; intros H i.
  - specialize (H (S i)). now rewrite !char_rank_S in H.
  - destruct i; [rewrite !char_rank_0; auto|rewrite !char_rank_S; auto].
Qed.
Lemma agrees_cons : forall x r y s c, rank col x = rank col y ->
  cmp_agrees col r s c -> cmp_agrees col (x :: r) (y :: s) c.
Proof.
  intros x r y s c E (A & B & C). unfold cmp_agrees.
  rewrite (text_lt_cons x r y s), (text_eq_cons x r y s), (text_lt_cons y s x r) by auto. auto.
Qed.

(** Padding on one side only. *)
Lemma nil_as_space : forall t, text_eq col [] (32 :: t) <-> text_eq col [] t.
Proof.
  intros. split; intros H i.
  - specialize (H (S i)). rewrite char_rank_S, char_rank_nil in H. now rewrite char_rank_nil.
  - destruct i; [rewrite char_rank_nil, char_rank_0; auto|].
    rewrite char_rank_S, char_rank_nil. specialize (H i). now rewrite char_rank_nil in H.
Qed.
Lemma pad_one : text_eq col [] [32].
Proof. intros i. rewrite char_rank_nil. destruct i as [|i]; [reflexivity|rewrite char_rank_S, char_rank_nil; auto]. Qed.

Lemma agrees_eq_r : forall t u u' c, text_eq col u u' -> cmp_agrees col t u c -> cmp_agrees col t u' c.
Proof.
  intros t u u' c E (A & B & C). unfold cmp_agrees. split; [|split].
  - rewrite A. split; intros; eauto using text_lt_eq, text_eq_sym.
  - rewrite B. split; intros; eauto using text_eq_trans, text_eq_sym.
  - rewrite C. split; intros; eauto using text_eq_lt, text_eq_sym.
Qed.

Lemma common_cmpc_spaces : forall t, cmp_agrees col t [] (common_cmpc col t 32).
Proof.
  induction t as [|x r IH].
  - apply agrees_eq; auto using text_eq_refl.
  - cbn [common_cmpc]. cbv zeta. rewrite (collate_rank col x), (collate_rank col 32). apply (agrees_eq_r _ [32]); [apply text_eq_sym, pad_one|].
    destruct (Z.eqb_spec (rank col x - rank col 32) 0).
    + apply agrees_cons; [lia|auto].
    + apply agrees_head. lia.
Qed.

Lemma common_cmpc_char : forall t c, cmp_agrees col t (repeat c (length t)) (common_cmpc col t c).
Proof.
  induction t as [|x r IH]; intros.
  - apply agrees_eq; auto using text_eq_refl.
  - cbn [common_cmpc length repeat]. cbv zeta. rewrite (collate_rank col x), (collate_rank col c).
    destruct (Z.eqb_spec (rank col x - rank col c) 0).
    + apply agrees_cons; [lia|auto].
    + apply agrees_head. lia.
Qed.

Lemma alnum_cmps_agrees : forall t u, length t = length u -> cmp_agrees col t u (alnum_cmps col t u).
Proof.
  induction t as [|x r IH]; destruct u as [|y s]; simpl; intros; try discriminate.
  - apply agrees_eq; auto using text_eq_refl.
  - cbv zeta; rewrite (collate_rank col x), (collate_rank col y). destruct (Z.eqb_spec (rank col x - rank col y) 0).
    + apply agrees_cons; [lia|]. apply IH. congruence.
    + apply agrees_head. lia.
Qed.

(** Comparing pieces one after the other. *)
Lemma agrees_app : forall t u t' u' c, length t = length t' ->
  alnum_cmps col t t' = 0 -> cmp_agrees col u u' c -> cmp_agrees col (t ++ u) (t' ++ u') c.
Proof.
  induction t as [|x r IH]; destruct t' as [|y s]; simpl; intros; try discriminate; auto.
  cbv zeta in *; rewrite (collate_rank col x), (collate_rank col y) in H0. destruct (Z.eqb_spec (rank col x - rank col y) 0).
  - apply agrees_cons; [lia|]. apply IH; auto; congruence.
  - lia.
Qed.
Lemma agrees_app_neq : forall t u t' u', length t = length t' ->
  alnum_cmps col t t' <> 0 -> cmp_agrees col (t ++ u) (t' ++ u') (alnum_cmps col t t').
Proof.
  induction t as [|x r IH]; destruct t' as [|y s]; simpl; intros; try discriminate; try congruence.
  cbv zeta in *; rewrite (collate_rank col x), (collate_rank col y) in *. destruct (Z.eqb_spec (rank col x - rank col y) 0).
  - apply agrees_cons; [lia|]. apply IH; auto; congruence.
  - apply agrees_head; lia.
Qed.

Theorem cmp_simple_str_agrees : forall t u, cmp_agrees col t u (cmp_simple_str col t u).
Proof.
  intros. unfold cmp_simple_str. set (n := Nat.min (length t) (length u)).
  assert (L : length (firstn n t) = length (firstn n u)) by (rewrite !firstn_length; lia).
  cbv zeta.
  destruct (Z.eqb_spec (alnum_cmps col (firstn n t) (firstn n u)) 0) as [E|E].
  - destruct (Nat.ltb_spec (length t) (length u)).
    + rewrite <- (firstn_skipn n u) at 1. rewrite <- (firstn_skipn n t) at 1.
      apply agrees_app; auto. rewrite (skipn_all2 t) by lia.
      apply agrees_sym, common_cmpc_spaces.
    + destruct (Nat.ltb_spec (length u) (length t)).
      * rewrite <- (firstn_skipn n u) at 1. rewrite <- (firstn_skipn n t) at 1.
        apply agrees_app; auto. rewrite (skipn_all2 u) by lia. apply common_cmpc_spaces.
      * rewrite !firstn_all2 by lia. apply alnum_cmps_agrees. lia.
  - rewrite <- (firstn_skipn n u) at 1. rewrite <- (firstn_skipn n t) at 1.
    apply agrees_app_neq; auto.
Qed.

(** ** ALL literals *)
(** The first n characters of the literal repeated for ever. *)
Lemma fill_all_len : forall lit n, length (fill_all lit n) = n.
Proof. intros. unfold fill_all. now rewrite map_length, seq_length. Qed.

Lemma nth_fill_all : forall lit n i, (i < n)%nat -> nth i (fill_all lit n) 0 = nth (i mod length lit) lit 0.
Proof. exact MoveMore.fill_all_nth. Qed.
Lemma fill_all_short : forall lit n, (n <= length lit)%nat -> fill_all lit n = firstn n lit.
Proof.
  intros. apply nth_ext_Z; rewrite fill_all_len; [rewrite firstn_length; lia|].
  intros i Hi. rewrite nth_fill_all by auto. rewrite Nat.mod_small by lia.
  rewrite <- (firstn_skipn n lit) at 1. rewrite app_nth1 by (rewrite firstn_length; lia). auto.
Qed.
Lemma fill_all_long : forall lit n, lit <> [] -> fill_all lit (length lit + n) = lit ++ fill_all lit n.
Proof.
  intros. assert (length lit <> 0)%nat by (destruct lit; simpl; congruence || lia).
  apply nth_ext_Z; rewrite fill_all_len; [rewrite app_length, fill_all_len; lia|].
  intros i Hi. rewrite nth_fill_all by auto. destruct (Nat.lt_ge_cases i (length lit)).
  - rewrite app_nth1 by auto. now rewrite Nat.mod_small.
  - rewrite app_nth2 by auto. rewrite nth_fill_all by lia.
    f_equal. replace i with (i - length lit + 1 * length lit)%nat at 1 by lia.
    apply Nat.mod_add. auto.
Qed.

Lemma fill_all_one : forall c n, fill_all [c] n = repeat c n.
Proof.
  intros. apply nth_ext_Z; rewrite fill_all_len; [now rewrite repeat_length|].
  intros i Hi. rewrite nth_fill_all by auto. simpl (length [c]). rewrite Nat.mod_1_r.
  symmetry. rewrite (nth_indep _ 0 c) by (now rewrite repeat_length). apply nth_repeat.
Qed.

Lemma cmp_all_loop_agrees : forall fuel (swap : bool) data lit, lit <> [] -> (length data < fuel)%nat ->
  exists c, cmp_all_loop fuel swap col data lit = Ok c /\
    if swap then cmp_agrees col (fill_all lit (length data)) data c
    else cmp_agrees col data (fill_all lit (length data)) c.
Proof.
  induction fuel as [|g IH]; intros swap data lit NE Hf; [lia|].
  cbn [cmp_all_loop]. cbv zeta. destruct (Nat.ltb_spec (length data) (length lit)).
  - eexists. split; [reflexivity|]. rewrite fill_all_short by lia.
    destruct swap; apply alnum_cmps_agrees; rewrite firstn_length; lia.
  - assert (length lit <> 0)%nat by (destruct lit; simpl; congruence || lia).
    set (n := length lit) in *.
    assert (L : length (firstn n data) = n) by (rewrite firstn_length; lia).
    replace (length data) with (n + (length data - n))%nat by lia.
    rewrite (fill_all_long lit) by auto. fold n.
    destruct (IH swap (skipn n data) lit NE) as (c & E & A).
    { rewrite skipn_length. lia. }
    rewrite skipn_length in A.
    match goal with |- context [if (?x =? 0) then _ else _] => destruct (Z.eqb_spec x 0) as [Z0|NZ] end.
    + exists c. split; [exact E|]. destruct swap.
      * rewrite <- (firstn_skipn n data) at 2. apply agrees_app; auto.
      * rewrite <- (firstn_skipn n data) at 1. apply agrees_app; auto.
    + eexists. split; [reflexivity|]. destruct swap.
      * rewrite <- (firstn_skipn n data) at 2. apply agrees_app_neq; auto.
      * rewrite <- (firstn_skipn n data) at 1. apply agrees_app_neq; auto.
Qed.
End Order.

(** ** cob_cmp *)
Definition text_type (t : ftype) : Prop :=
  t = TAlnum \/ t = TAlnumEdited \/ t = TNumEdited \/ t = TGroup.

Lemma get_sign_text : forall m f, text_type (a_type (fa f)) \/ a_type (fa f) = TAlnumAll ->
  get_sign m f = (0, f).
Proof.
  intros m f H. unfold get_sign. destruct (a_sign (fa f)); auto. unfold real_get_sign.
  destruct H as [[H | [H | [H | H]]] | H]; rewrite H; reflexivity.
Qed.
Lemma put_sign_text : forall m f s, text_type (a_type (fa f)) \/ a_type (fa f) = TAlnumAll ->
  put_sign_np m f s = f.
Proof.
  intros m f s H. unfold put_sign_np, put_sign, real_put_sign.
  destruct H as [[H | [H | [H | H]]] | H]; rewrite H; destruct (a_sign (fa f)); reflexivity.
Qed.

Lemma cob_cmp_text : forall m col f1 f2 z1 z2, text_type (a_type (fa f1)) -> text_type (a_type (fa f2)) ->
  cob_cmp m col (mkOpnd f1 z1) (mkOpnd f2 z2) = Ok (cmp_simple_str col (fd f1) (fd f2), f1, f2).
Proof.
  intros m col f1 f2 z1 z2 H1 H2. unfold cob_cmp. cbn [o_f o_zero].
  assert (G1 := get_sign_text m f1 (or_introl H1)). assert (G2 := get_sign_text m f2 (or_introl H2)).
  assert (P1 := put_sign_text m f1 0 (or_introl H1)). assert (P2 := put_sign_text m f2 0 (or_introl H2)).
  unfold is_all, is_group, cmp_operand, cmp_alnum.
  destruct H1 as [H1 | [H1 | [H1 | H1]]]; destruct H2 as [H2 | [H2 | [H2 | H2]]]; rewrite H1, H2;
    cbn [is_national is_numeric_type andb orb obind fst snd]; rewrite ?G1, ?G2, ?P1, ?P2; reflexivity.
Qed.

Lemma cmp_char_text : forall m col f c, text_type (a_type (fa f)) \/ a_type (fa f) = TAlnumAll ->
  cmp_char m col f c = (common_cmpc col (fd f) c, f).
Proof. intros. unfold cmp_char. rewrite get_sign_text, put_sign_text by auto. reflexivity. Qed.

Lemma cmp_all_text : forall m col f lit, text_type (a_type (fa f)) -> fd lit <> [] ->
  exists c, cmp_all m col f lit = Ok (c, f, lit) /\
    cmp_agrees col (fd f) (fill_all (fd lit) (f_size f)) c.
Proof.
  intros m col f lit H NE.
  destruct (cmp_all_loop_agrees col (S (f_size f)) false (fd f) (fd lit)) as (c & E & A); auto.
  exists c. split; auto. unfold cmp_all. rewrite (get_sign_text m f) by auto. rewrite E. cbn [obind].
  rewrite (put_sign_text m f) by auto. destruct H as [H | [H | [H | H]]]; rewrite H; reflexivity.
Qed.

Theorem cob_cmp_all_spec : forall m col f1 lit, text_type (a_type (fa f1)) ->
  a_type (fa lit) = TAlnumAll -> fd lit <> [] ->
  (exists c, cob_cmp m col (item f1) (item lit) = Ok (c, f1, lit) /\
     cmp_agrees col (fd f1) (fill_all (fd lit) (f_size f1)) c) /\
  (exists c, cob_cmp m col (item lit) (item f1) = Ok (c, lit, f1) /\
     cmp_agrees col (fill_all (fd lit) (f_size f1)) (fd f1) c).
Proof.
  intros m col f1 lit H A NE.
  assert (N1 : is_national (a_type (fa f1)) = false) by (destruct H as [H | [H | [H | H]]]; rewrite H; reflexivity).
  assert (N2 : is_numeric_type (a_type (fa f1)) = false) by (destruct H as [H | [H | [H | H]]]; rewrite H; reflexivity).
  assert (N3 : is_all f1 = false) by (unfold is_all; destruct H as [H | [H | [H | H]]]; rewrite H; reflexivity).
  assert (N4 : is_all lit = true) by (unfold is_all; now rewrite A).
  destruct (cmp_all_text m col f1 lit H NE) as (c & E & Ag).
  assert (One : (f_size lit =? 1)%nat = true -> exists x, fd lit = [x]).
  { unfold f_size. destruct (fd lit) as [|x [|]]; simpl; try discriminate. eauto. }
  unfold cob_cmp, item. cbn [o_f o_zero]. rewrite A, N1, N2, N3, N4. cbn [is_national is_numeric_type andb orb].
  rewrite cmp_char_text by auto.
  destruct (f_size lit =? 1)%nat eqn:S1.
  - destruct (One eq_refl) as (x & Ex). rewrite Ex. change (nth 0 [x] 0) with x.
    rewrite fill_all_one. split; eexists; (split; [reflexivity|]).
    + apply common_cmpc_char.
    + apply agrees_sym, common_cmpc_char.
  - split.
    + eauto.
    + rewrite E. cbn [obind]. eexists. split; [reflexivity|]. now apply agrees_sym.
Qed.

(** Two ALL literals: compared over the length of the longer one. *)
Theorem cob_cmp_all_all : forall m col l1 l2, a_type (fa l1) = TAlnumAll -> a_type (fa l2) = TAlnumAll ->
  fd l1 <> [] -> fd l2 <> [] ->
  let n := Nat.max (f_size l1) (f_size l2) in
  exists c, cob_cmp m col (item l1) (item l2) = Ok (c, l1, l2) /\
    cmp_agrees col (fill_all (fd l1) n) (fill_all (fd l2) n) c.
Proof.
  intros m col l1 l2 A1 A2 N1 N2 n.
  assert (S1 : (1 <= f_size l1)%nat) by (unfold f_size; destruct (fd l1); simpl; congruence || lia).
  assert (S2 : (1 <= f_size l2)%nat) by (unfold f_size; destruct (fd l2); simpl; congruence || lia).
  unfold cob_cmp, item, is_all. cbn [o_f o_zero]. rewrite A1, A2. cbn [is_national is_numeric_type andb orb].
  rewrite cmp_char_text by auto.
  destruct (f_size l2 =? 1)%nat eqn:E1.
  - assert (exists x, fd l2 = [x]) as (x & Ex).
    { revert E1. unfold f_size. destruct (fd l2) as [|x [|]]; simpl; try discriminate. eauto. }
    rewrite Ex. change (nth 0 [x] 0) with x. eexists. split; [reflexivity|].
    rewrite fill_all_one. apply Nat.eqb_eq in E1.
    replace n with (length (fd l1)) by (unfold n, f_size in *; lia).
    rewrite fill_all_short, firstn_all by lia. apply common_cmpc_char.
  - unfold cmp_all. rewrite A1. cbn [andb]. rewrite !get_sign_text by auto.
    destruct (Nat.ltb_spec (f_size l1) (f_size l2)).
    + destruct (cmp_all_loop_agrees col (S (f_size l2)) true (fd l2) (fd l1)) as (c & E & A); auto.
      rewrite E. cbn [obind]. rewrite put_sign_text by auto. eexists; split; [reflexivity|].
      replace n with (length (fd l2)) by (unfold n, f_size in *; lia).
      rewrite (fill_all_short (fd l2)), firstn_all by lia. auto.
    + destruct (cmp_all_loop_agrees col (S (f_size l1)) false (fd l1) (fd l2)) as (c & E & A); auto.
      rewrite E. cbn [obind]. rewrite put_sign_text by auto. eexists; split; [reflexivity|].
      replace n with (length (fd l1)) by (unfold n, f_size in *; lia).
      rewrite (fill_all_short (fd l1)), firstn_all by lia. auto.
Qed.
