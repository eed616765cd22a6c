(** Proofs about conditional compilation. *)
From Verif Require Import Base FixedSrc SpecFixedSrc FixedSrcThm FixedSrcThm2 CondComp SpecCondComp.
From Coq Require Import Lia.
Local Open Scope Z_scope.

(** *** Words *)
Lemma fold_case_eq a b : fold_case a = fold_case b <-> letter_case a b.
Proof.
  unfold fold_case, letter_case.
  destruct ((65 <=? a) && (a <=? 90)) eqn:A; destruct ((65 <=? b) && (b <=? 90)) eqn:B;
    rewrite ?andb_true_iff, ?andb_false_iff, ?Z.leb_le, ?Z.leb_gt in *; lia.
Qed.
Lemma same_iff a : forall b, same a b = true <-> word_eq a b.
Proof.
  unfold word_eq. induction a as [|x a IH]; intros [|y b]; cbn [same].
  - split; [constructor|reflexivity].
  - split; [discriminate|intro H; inversion H].
  - split; [discriminate|intro H; inversion H].
  - rewrite andb_true_iff, Z.eqb_eq, fold_case_eq, IH. split.
    + intros [H1 H2]. constructor; assumption.
    + intro H. inversion H; auto.
Qed.
Lemma same_false a b : ~ word_eq a b -> same a b = false.
Proof. intro H. destruct (same a b) eqn:E; [|reflexivity]. apply same_iff in E. contradiction. Qed.

Lemma is_space_word c : 32 < c -> is_space c = false.
Proof.
  intro H. unfold is_space. apply orb_false_iff. split; [apply Z.eqb_neq; lia|].
  apply andb_false_iff. right. apply Z.leb_gt. lia.
Qed.
Lemma words_blank k : forall l, words_from [] (repeat 32 k ++ l) = words_from [] l.
Proof. induction k as [|k IH]; intro l; [reflexivity|]. cbn [repeat app words_from]. apply IH. Qed.
Lemma words_word w : Forall (fun c => 32 < c) w -> forall acc l,
  words_from acc (w ++ l) = words_from (rev w ++ acc) l.
Proof.
  induction 1 as [|c w Hc _ IH]; intros acc l; [reflexivity|].
  cbn [app words_from rev]. rewrite (is_space_word c Hc), IH, <- app_assoc. reflexivity.
Qed.
Lemma words_split l ws : split l ws -> words_from [] l = ws.
Proof.
  induction 1 as [k|k w Hn Hw|k w l ws Hn Hw _ IH].
  - rewrite <- (app_nil_r (repeat 32 k)), words_blank. reflexivity.
  - rewrite words_blank, <- (app_nil_r w) at 1. rewrite words_word by exact Hw. rewrite app_nil_r.
    cbn [words_from]. destruct (rev w) eqn:E.
    + exfalso. apply Hn. rewrite <- (rev_involutive w), E. reflexivity.
    + rewrite <- E, rev_involutive. reflexivity.
  - rewrite words_blank, words_word by exact Hw. rewrite app_nil_r. cbn [words_from].
    change (is_space 32) with true. cbv iota.
    destruct (rev w) eqn:E.
    + exfalso. apply Hn. rewrite <- (rev_involutive w), E. reflexivity.
    + rewrite <- E, rev_involutive, IH. reflexivity.
Qed.

(** *** Constants *)
Lemma cut_at_none x l : ~ In x l -> cut_at x l = None.
Proof.
  induction l as [|c r IH]; intro H; [reflexivity|]. cbn [cut_at].
  replace (c =? x) with false.
  - rewrite IH; [reflexivity|]. intro; apply H; right; assumption.
  - symmetry. apply Z.eqb_neq. intros ->. apply H. left. reflexivity.
Qed.
Lemma cut_at_first x a b : ~ In x a -> cut_at x (a ++ x :: b) = Some (a, b).
Proof.
  induction a as [|c r IH]; intro H; cbn [app cut_at].
  - rewrite Z.eqb_refl. reflexivity.
  - replace (c =? x) with false.
    + rewrite IH; [reflexivity|]. intro; apply H; right; assumption.
    + symmetry. apply Z.eqb_neq. intros ->. apply H. left. reflexivity.
Qed.
Lemma const_of_spec o c : option_for o c -> const_of o = Some c.
Proof.
  intros [n H1 H2|n v Hn Hv H1 H2 H3 H4]; unfold const_of.
  - rewrite !cut_at_none by assumption. reflexivity.
  - rewrite (cut_at_first 34 n) by exact H1.
    rewrite cut_at_none.
    2:{ intro K. apply in_app_or in K. destruct K as [K|[K|K]]; [auto|discriminate|].
        apply in_app_or in K. destruct K as [K|[K|[]]]; [auto|discriminate]. }
    destruct n as [|x y]; [congruence|].
    rewrite app_length. cbn [length].
    replace (length v + 1 <? 2)%nat with false.
    2:{ symmetry. apply Nat.ltb_ge. destruct v; [congruence|cbn [length]; lia]. }
    rewrite (cut_at_first 34 v []) by exact H3. reflexivity.
Qed.
Lemma const_list_spec os cs : Forall2 option_for os cs -> const_list os = cs.
Proof.
  induction 1 as [|o c os cs H _ IH]; [reflexivity|].
  cbn [const_list]. rewrite (const_of_spec o c H), IH. reflexivity.
Qed.

Lemma lit_text_spec u : u <> [] -> ~ In 34 u -> lit_text (34 :: u ++ [34]) = Some u.
Proof.
  intros Hu H. unfold lit_text. cbn [length]. rewrite app_length. cbn [length].
  replace (S (length u + 1) <? 3)%nat with false.
  2:{ symmetry. apply Nat.ltb_ge. destruct u; [congruence|cbn [length]; lia]. }
  rewrite (cut_at_first 34 u []) by exact H. reflexivity.
Qed.

Lemma eval_const_defined cs n v : lookup_const cs n v -> forall lit neg,
  eval_const cs n lit true neg = Some (xorb neg (match v with Some _ => true | None => false end)).
Proof.
  induction 1 as [n|m v r n E|m v r n x E _ IH]; intros lit neg; cbn [eval_const].
  - rewrite xorb_false_r. reflexivity.
  - apply same_iff in E. rewrite E, xorb_true_r. reflexivity.
  - rewrite (same_false _ _ E). apply IH.
Qed.
Lemma eval_const_equal cs n v : lookup_const cs n v -> forall lit u neg, lit_text lit = Some u ->
  eval_const cs n lit false neg
  = Some (xorb neg (match v with Some (Some t) => same u t | _ => false end)).
Proof.
  induction 1 as [n|m v r n E|m v r n x E _ IH]; intros lit u neg L; cbn [eval_const].
  - rewrite xorb_false_r. reflexivity.
  - apply same_iff in E. rewrite E. destruct v as [t|].
    + rewrite L. destruct (same u t); [rewrite xorb_true_r|rewrite xorb_false_r]; reflexivity.
    + rewrite xorb_false_r. reflexivity.
  - rewrite (same_false _ _ E). apply IH. exact L.
Qed.

Lemma word_eq_nil a b : word_eq a b -> (a = [] <-> b = []).
Proof. intro H. inversion H; split; intro; auto; discriminate. Qed.
Lemma same_trans_l a b c : word_eq a b -> same a c = same b c.
Proof.
  unfold word_eq. intro H. revert c. induction H as [|x y a b Hxy _ IH]; intro c; [reflexivity|].
  destruct c as [|z c]; [reflexivity|]. cbn [same]. apply fold_case_eq in Hxy. rewrite Hxy, IH. reflexivity.
Qed.

Lemma test_bool v ws P : test v ws P ->
  exists b : bool, (if b then P else ~ P) /\
   forall cs n neg, lookup_const cs n v ->
   (let a := nth 0 ws [] in let l := nth 1 ws [] in
    if same a w_defined then eval_const cs n [] true neg
    else if negb (same a w_eq) || (length l =? 0)%nat then None
    else eval_const cs n l false neg) = Some (xorb neg b) /\
    same (nth 0 ws []) w_not = false /\ (length ws <= 2)%nat.
Proof.
  intros [w Hw|u Hu H34].
  - exists (match v with Some _ => true | None => false end). split.
    + destruct v; [discriminate|]. intro H. apply H. reflexivity.
    + intros cs n neg L. cbn [nth length]. split; [|split; [|lia]].
      * assert (E := Hw). apply same_iff in E. change s_defined with w_defined in E. cbv zeta.
        rewrite E. apply eval_const_defined. exact L.
      * rewrite (same_trans_l _ _ w_not Hw). reflexivity.
  - exists (match v with Some (Some t) => same u t | _ => false end). split.
    + destruct v as [[t|]|]; [|intros (x & E & _); discriminate|intros (x & E & _); discriminate].
      destruct (same u t) eqn:E.
      * exists t. split; [reflexivity|]. apply same_iff. exact E.
      * intros (x & K & W). inversion K; subst x. apply same_iff in W. congruence.
    + intros cs n neg L. cbn [nth length]. split; [|split; [reflexivity|lia]].
      cbv zeta. change (same [61] w_defined) with false. change (same [61] w_eq) with true.
      cbn [negb orb Nat.eqb].
      exact (eval_const_equal cs n v L _ _ neg (lit_text_spec u Hu H34)).
Qed.

Lemma says_words d ws : says d ws -> words_from [] (skipn 6 (firstn 72 d)) = ws.
Proof. intros (_ & _ & _ & _ & S). apply words_split, S. Qed.
Lemma split_nonempty l ws : split l ws -> Forall (fun w => w <> []) ws.
Proof. induction 1; constructor; auto. Qed.

Lemma condition_eval cs ws P (c : bool) : condition cs ws P -> (if c then P else ~ P) ->
  Forall (fun w => w <> []) ws ->
  same (word ws 0) w_if = true /\ eval_if cs ws = Some c.
Proof.
  intros Hc HP HN.
  assert (W : forall i w, nth i ws [] = w -> (i < 5)%nat -> word ws i = w).
  { intros i w E Hi. unfold word. rewrite <- E. clear - Hi.
    revert ws. do 5 (destruct i as [|i]; [intro ws; do 5 (destruct ws as [|? ws]; [reflexivity|]); reflexivity|]).
    lia. }
  destruct Hc as [i n v ws P Hi L T|i n o v ws P Hi Ho L T].
  - destruct (test_bool v ws P T) as (b & Hb & E).
    destruct (E cs n false L) as (E1 & E2 & E3). cbv zeta in E1.
    assert (b = c) by (destruct b, c; auto; contradiction). subst b.
    rewrite (W 0%nat i) by (reflexivity || lia). split.
    { apply same_iff. exact Hi. }
    unfold eval_if. rewrite (W 1%nat n) by (reflexivity || lia).
    inversion HN as [|? ? _ HN']; subst. inversion HN' as [|? ? Nn _]; subst.
    replace (length n =? 0)%nat with false by (symmetry; apply Nat.eqb_neq; destruct n; [congruence|discriminate]).
    rewrite (W 2%nat (nth 0 ws [])) by (reflexivity || lia). cbv zeta. rewrite E2.
    change (2 + 0)%nat with 2%nat. change (3 + 0)%nat with 3%nat.
    rewrite (W 2%nat (nth 0 ws [])), (W 3%nat (nth 1 ws [])) by (reflexivity || lia).
    rewrite E1. destruct c; reflexivity.
  - destruct (test_bool v ws P T) as (b & Hb & E).
    destruct (E cs n true L) as (E1 & E2 & E3). cbv zeta in E1.
    assert (negb b = c) by (destruct b, c; try reflexivity; exfalso; auto).
    subst c.
    rewrite (W 0%nat i) by (reflexivity || lia). split.
    { apply same_iff. exact Hi. }
    unfold eval_if. rewrite (W 1%nat n) by (reflexivity || lia).
    inversion HN as [|? ? _ HN']; subst. inversion HN' as [|? ? Nn _]; subst.
    replace (length n =? 0)%nat with false by (symmetry; apply Nat.eqb_neq; destruct n; [congruence|discriminate]).
    rewrite (W 2%nat o) by (reflexivity || lia). cbv zeta.
    apply same_iff in Ho. change s_not with w_not in Ho. rewrite Ho.
    change (2 + 1)%nat with 3%nat. change (3 + 1)%nat with 4%nat.
    rewrite (W 3%nat (nth 0 ws [])), (W 4%nat (nth 1 ws [])) by (reflexivity || lia).
    rewrite E1. destruct b; reflexivity.
Qed.
