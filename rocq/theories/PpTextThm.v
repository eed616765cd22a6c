(** Proofs about the text replacement. *)
From Verif Require Import Base PpText SpecPpText.
Local Open Scope Z_scope.

(** * Words and blanks *)
Lemma is_blank_iff : forall t, is_blank t = true <-> blank t.
Proof.
  intros [|c t]; unfold blank; cbn [is_blank].
  - split; [discriminate|]. intros (u & [E|E]); discriminate.
  - rewrite Bool.orb_true_iff, !Z.eqb_eq. split.
    + intros [->| ->]; exists t; auto.
    + intros (u & [E|E]); injection E; auto.
Qed.
Lemma not_blank_iff : forall t, is_blank t = false <-> ~ blank t.
Proof. intros t. rewrite <- is_blank_iff. destruct (is_blank t); split; intros; congruence. Qed.

Lemma lower_32 : forall c, lower c = 32 <-> c = 32.
Proof. intros c. unfold lower. destruct (Z.leb_spec 65 c), (Z.leb_spec c 90); cbn [andb]; lia. Qed.
Lemma lower_10 : forall c, lower c = 10 <-> c = 10.
Proof. intros c. unfold lower. destruct (Z.leb_spec 65 c), (Z.leb_spec c 90); cbn [andb]; lia. Qed.

Lemma same_blank : forall a b, same_word a b -> is_blank a = is_blank b.
Proof.
  intros a b E. unfold same_word in E. destruct a as [|x a], b as [|y b]; try discriminate; auto.
  cbn [map] in E. injection E as E _. cbn [is_blank].
  assert (A := lower_32 x). assert (B := lower_32 y). assert (C := lower_10 x). assert (D := lower_10 y).
  destruct (Z.eqb_spec x 32), (Z.eqb_spec y 32), (Z.eqb_spec x 10), (Z.eqb_spec y 10); cbn [orb]; try reflexivity; exfalso; lia.
Qed.

Lemma ci_eq_iff : forall a b, ci_eq a b = true <-> same_word a b.
Proof.
  unfold same_word. induction a as [|x a IH]; intros [|y b]; cbn [ci_eq map]; try (split; congruence).
  rewrite Bool.andb_true_iff, Z.eqb_eq, IH. split; [intros [-> ->]; reflexivity|]. intros E. injection E; auto.
Qed.

Lemma skip_split : forall q, q = lead_blanks q ++ skip_blanks q /\ Forall blank (lead_blanks q).
Proof.
  induction q as [|t q IH]; [split; constructor|]; destruct IH as [E F]. cbn [lead_blanks skip_blanks]. destruct (is_blank t) eqn:B.
  - cbn [app]. rewrite <- E. split; [reflexivity|]. constructor; auto. now apply is_blank_iff.
  - split; auto.
Qed.
Lemma skip_head : forall q t q', skip_blanks q = t :: q' -> is_blank t = false.
Proof.
  induction q as [|u q IH]; intros t q' E; [discriminate|]. cbn [skip_blanks] in E. destruct (is_blank u) eqn:B; eauto. congruence.
Qed.
Lemma skip_app : forall bl s, Forall blank bl -> skip_blanks (bl ++ s) = skip_blanks s.
Proof.
  induction bl as [|b bl IH]; intros s F; [reflexivity|]. inversion F; subst. cbn [app skip_blanks].
  replace (is_blank b) with true by (symmetry; now apply is_blank_iff). auto.
Qed.
Lemma skip_ext : forall q r t q', skip_blanks q = t :: q' -> skip_blanks (q ++ r) = t :: (q' ++ r).
Proof.
  induction q as [|u q IH]; intros r t q' E; [discriminate|]. cbn [skip_blanks app] in *. destruct (is_blank u); auto. injection E as -> ->. reflexivity.
Qed.
Lemma lead_ext : forall q r t q', skip_blanks q = t :: q' -> lead_blanks (q ++ r) = lead_blanks q.
Proof.
  induction q as [|u q IH]; intros r t q' E; [discriminate|]. cbn [skip_blanks app lead_blanks] in *. destruct (is_blank u); auto. f_equal. eauto.
Qed.
Lemma skip_words : forall q, hd_error (skip_blanks q) = hd_error (words q).
Proof.
  unfold words. induction q as [|u q IH]; [reflexivity|]. cbn [skip_blanks filter]. destruct (is_blank u); cbn [negb]; auto.
Qed.
Lemma firstn1_words : forall q, match skip_blanks q with [] => [] | a :: _ => [a] end = firstn 1 (words q).
Proof.
  intros q. assert (E := skip_words q). destruct (skip_blanks q), (words q); cbn [hd_error] in E; try congruence; try reflexivity.
  injection E as ->. reflexivity.
Qed.
Lemma words_app : forall a b, words (a ++ b) = words a ++ words b.
Proof. intros. apply filter_app. Qed.
Lemma words_blanks : forall bl, Forall blank bl -> words bl = [].
Proof.
  induction 1; [reflexivity|]. unfold words in *. cbn [filter]. replace (is_blank x) with true by (symmetry; now apply is_blank_iff). auto.
Qed.
Lemma words_nonblank : forall l w, In w (words l) -> is_blank w = false.
Proof. intros l w I. apply filter_In in I as [_ I]. destruct (is_blank w); auto. Qed.

(** * One entry *)
Lemma mo_ext : forall l q r x, match_other l q = Some x ->
  match_other l (q ++ r) = Some (option_map (fun q' => q' ++ r) x).
Proof.
  induction l as [|w l IH]; intros q r x E; cbn [match_other] in *.
  - injection E as <-. reflexivity.
  - destruct (is_blank w); auto. destruct (skip_blanks q) as [|v q'] eqn:S; [discriminate|]. rewrite (skip_ext _ _ _ _ S).
    destruct (ci_eq w v); auto. injection E as <-. reflexivity.
Qed.

Lemma mo_empty : forall l q, words l = [] -> match_other l q = Some (Some q).
Proof.
  unfold words. induction l as [|w l IH]; intros q E; [reflexivity|]. cbn [filter match_other] in *.
  destruct (is_blank w); cbn [negb] in E; [auto|discriminate].
Qed.

Lemma mo_sound : forall l q q', match_other l q = Some (Some q') -> words l <> [] ->
  exists bl s, q = bl ++ s /\ Forall blank bl /\ stands (words l) s q'.
Proof.
  induction l as [|w l IH]; intros q q' E N; [now cbn in N|]. cbn [match_other] in E. unfold words in *. cbn [filter] in *.
  destruct (is_blank w) eqn:B; cbn [negb] in *; [eauto|].
  destruct (skip_split q) as [Q F]. destruct (skip_blanks q) as [|v q1] eqn:S; [discriminate|].
  destruct (ci_eq w v) eqn:C; [|discriminate]. apply ci_eq_iff in C.
  exists (lead_blanks q), (v :: q1). split; [auto|]. split; [auto|].
  destruct (filter (fun t => negb (is_blank t)) l) as [|p ps] eqn:W.
  - rewrite (mo_empty l q1 W) in E. injection E as <-. now constructor.
  - destruct (IH q1 q' E) as (bl & s & -> & F2 & ST); [discriminate|]. now apply stands_more.
Qed.

Lemma mo_complete : forall l s rest bl, stands (words l) s rest -> Forall blank bl ->
  match_other l (bl ++ s) = Some (Some rest).
Proof.
  induction l as [|w l IH]; intros s rest bl ST F; [inversion ST|]. cbn [match_other]. unfold words in *. cbn [filter] in *.
  destruct (is_blank w) eqn:B; cbn [negb] in *; [auto|]. rewrite (skip_app _ _ F).
  inversion ST as [p1 w1 r1 SM E1 E2 E3|p1 w1 ps bl1 s1 r1 SM F1 ST1 E1 E2 E3]; subst.
  - cbn [skip_blanks]. rewrite <- (same_blank _ _ SM), B. apply ci_eq_iff in SM as ->. now apply mo_empty.
  - cbn [skip_blanks]. rewrite <- (same_blank _ _ SM), B. apply ci_eq_iff in SM as ->. auto.
Qed.

Lemma mo_len : forall l q q', match_other l q = Some (Some q') -> (length q' <= length q)%nat /\ (words l <> [] -> (length q' < length q)%nat).
Proof.
  induction l as [|w l IH]; intros q q' E; cbn [match_other] in E.
  - injection E as <-. split; [lia|]. now intros [].
  - unfold words in *. cbn [filter]. destruct (is_blank w); cbn [negb]; [auto|].
    destruct (skip_split q) as [Q _]. assert (L : length q = length (lead_blanks q ++ skip_blanks q)) by now rewrite <- Q. rewrite app_length in L.
    destruct (skip_blanks q) as [|v q1]; [discriminate|]. destruct (ci_eq w v); [|discriminate].
    destruct (IH _ _ E) as [A _]. cbn [length] in L. split; [lia|]. intros _. lia.
Qed.

Lemma mo_partial : forall l q, match_other l q = None ->
  exists p1 p2, words l = p1 ++ p2 /\ p2 <> [] /\ Forall2 same_word p1 (words q).
Proof.
  induction l as [|w l IH]; intros q E; [discriminate|]. cbn [match_other] in E. unfold words in *. cbn [filter] in *.
  destruct (is_blank w) eqn:B; cbn [negb]; [auto|]. destruct (skip_split q) as [Q F].
  assert (WQ : filter (fun t => negb (is_blank t)) q = filter (fun t => negb (is_blank t)) (skip_blanks q)).
  { rewrite Q at 1. rewrite filter_app. fold (words (lead_blanks q)). now rewrite words_blanks. }
  destruct (skip_blanks q) as [|v q1] eqn:S.
  - exists [], (w :: filter (fun t => negb (is_blank t)) l). rewrite WQ. repeat split; [discriminate|constructor].
  - destruct (ci_eq w v) eqn:C; [|discriminate]. apply ci_eq_iff in C.
    destruct (IH _ E) as (p1 & p2 & E1 & N & F2). exists (w :: p1), p2. split; [cbn [app]; now rewrite E1|]. split; auto.
    rewrite WQ. cbn [filter]. rewrite (skip_head _ _ _ S). cbn [negb]. constructor; auto.
Qed.

Lemma texts_echo : forall l, texts (map Echo l) = l.
Proof. intros. unfold texts. rewrite map_map. apply map_id. Qed.
Lemma texts_app : forall a b, texts (a ++ b) = texts a ++ texts b.
Proof. intros. apply map_app. Qed.

Lemma app_eq_len : forall (A : Type) (a b c d : list A), a ++ b = c ++ d -> length a = length c -> a = c /\ b = d.
Proof.
  induction a as [|x a IH]; intros b [|y c] d E L; cbn [length] in L; try discriminate; auto.
  cbn [app] in E. injection E as -> E. destruct (IH b c d E) as [-> ->]; auto.
Qed.
Lemma same_len : forall a b, same_word a b -> length a = length b.
Proof. intros a b E. apply (f_equal (@length Z)) in E. now rewrite !map_length in E. Qed.

Lemma prefix_iff : forall w v, ci_prefix w v = true <-> exists a b, v = a ++ b /\ same_word w a.
Proof.
  intros w v. unfold ci_prefix. rewrite ci_eq_iff. split.
  - intros S. exists (firstn (length w) v), (skipn (length w) v). now rewrite firstn_skipn.
  - intros (a & b & -> & S). rewrite (same_len _ _ S), firstn_app, Nat.sub_diag, firstn_all. cbn [firstn]. now rewrite app_nil_r.
Qed.

Lemma ok_other : forall e, entry_ok e -> words (e_old e) <> [].
Proof. now intros e []. Qed.
Lemma ok_skip : forall e, entry_ok e -> exists w l, skip_blanks (e_old e) = w :: l /\ hd_error (words (e_old e)) = Some w.
Proof.
  intros e [N _]. assert (E := skip_words (e_old e)). destruct (skip_blanks (e_old e)) as [|w l]; cbn [hd_error] in E.
  - destruct (words (e_old e)); [congruence|discriminate].
  - exists w, l. auto.
Qed.
Lemma ok_trail : forall e w l, entry_ok e -> e_kind e = KTrailing -> skip_blanks (e_old e) = w :: l -> hd [] (e_old e) = w.
Proof.
  intros e w l [_ T] K S. destruct (T K) as (w' & l' & E & NB). rewrite E in *. cbn [skip_blanks hd] in *.
  apply not_blank_iff in NB. rewrite NB in S. congruence.
Qed.

Lemma te_ext : forall e q r, entry_ok e ->
  match try_entry e q with
  | CPartial => True
  | CNo => try_entry e (q ++ r) = CNo
  | CHit a q' => try_entry e (q ++ r) = CHit a (q' ++ r)
  | CBad => False
  end.
Proof.
  intros e q r OK. destruct (ok_skip e OK) as (w & l & SW & _). unfold try_entry. destruct (e_kind e) eqn:K.
  - destruct (match_other (e_old e) q) as [[q'|]|] eqn:M; auto; rewrite (mo_ext _ _ r _ M); reflexivity.
  - rewrite SW. destruct (skip_blanks q) as [|v q'] eqn:S; auto. rewrite (skip_ext _ r _ _ S), (lead_ext _ r _ _ S).
    destruct (ci_prefix w v); reflexivity.
  - rewrite SW, (ok_trail e w l OK K SW). destruct (skip_blanks q) as [|v q'] eqn:S; auto. rewrite (skip_ext _ r _ _ S), (lead_ext _ r _ _ S).
    destruct (length v <? length w)%nat; auto. destruct (ci_eq _ w); reflexivity.
Qed.

Lemma te_hit : forall e q a q', entry_ok e -> try_entry e q = CHit a q' ->
  exists bl s new, q = bl ++ s /\ Forall blank bl /\ applies e s new q' /\
    (texts a = new /\ e_kind e = KOther \/ texts a = bl ++ new).
Proof.
  intros e q a q' OK H. destruct (ok_skip e OK) as (w & l & SW & HW). unfold try_entry in H. destruct (e_kind e) eqn:K.
  - destruct (match_other (e_old e) q) as [[q2|]|] eqn:M; try discriminate. injection H as <- <-.
    destruct (mo_sound _ _ _ M (ok_other e OK)) as (bl & s & -> & F & ST). exists bl, s, (e_new e).
    split; [auto|]. split; [auto|]. split; [now apply applies_whole|]. left. now rewrite texts_echo.
  - rewrite SW in H. destruct (skip_split q) as [Q F]. destruct (skip_blanks q) as [|v q2] eqn:S; [discriminate|].
    destruct (ci_prefix w v) eqn:C; [|discriminate]. injection H as <- <-.
    apply prefix_iff in C as (a & b & -> & SM). exists (lead_blanks q), ((a ++ b) :: q2), (firstn 1 (words (e_new e)) ++ [b]).
    split; [auto|]. split; [auto|]. split.
    + apply (applies_leading e w); auto. apply not_blank_iff. eapply skip_head; eauto.
    + right. rewrite !texts_app, !texts_echo. cbn [firstn]. rewrite firstn1_words. cbn [texts map]. rewrite (same_len _ _ SM), skipn_app, Nat.sub_diag, skipn_all. reflexivity.
  - rewrite SW, (ok_trail e w l OK K SW) in H. destruct (skip_split q) as [Q F]. destruct (skip_blanks q) as [|v q2] eqn:S; [discriminate|].
    destruct (length v <? length w)%nat eqn:LT; [discriminate|]. apply Nat.ltb_ge in LT.
    destruct (ci_eq (skipn (length v - length w) v) w) eqn:C; [|discriminate]. injection H as <- <-.
    apply ci_eq_iff in C.
    exists (lead_blanks q), (v :: q2), (firstn (length v - length w) v :: firstn 1 (words (e_new e))).
    split; [auto|]. split; [auto|]. split.
    + rewrite <- (firstn_skipn (length v - length w) v) at 1. apply (applies_trailing e w); auto.
      * now symmetry.
      * rewrite firstn_skipn. apply not_blank_iff. eapply skip_head; eauto.
    + right. rewrite !texts_app, !texts_echo. cbn [firstn]. rewrite firstn1_words. cbn [texts map app]. fold (texts (map Echo (firstn 1 (words (e_new e))))). rewrite texts_echo. reflexivity.
Qed.

Lemma te_complete : forall e s new rest bl, entry_ok e -> applies e s new rest -> Forall blank bl ->
  exists a, try_entry e (bl ++ s) = CHit a rest.
Proof.
  intros e s new rest bl OK AP F. destruct (ok_skip e OK) as (w & l & SW & HW). unfold try_entry.
  inversion AP; subst; rewrite H.
  - rewrite (mo_complete _ _ _ _ H0 F). eauto.
  - rewrite SW, (skip_app _ _ F). cbn [skip_blanks]. rewrite HW in H0. injection H0 as ->. apply not_blank_iff in H2. rewrite H2.
    replace (ci_prefix p (a ++ b)) with true by (symmetry; apply prefix_iff; eauto). eauto.
  - rewrite SW, (ok_trail e w l OK H SW), (skip_app _ _ F). cbn [skip_blanks]. rewrite HW in H0. injection H0 as ->. apply not_blank_iff in H2. rewrite H2.
    assert (E := same_len _ _ H1). assert (LA : length (a ++ b) = (length a + length b)%nat) by apply app_length.
    replace (length (a ++ b) <? length p)%nat with false by (symmetry; apply Nat.ltb_ge; lia).
    replace (length (a ++ b) - length p)%nat with (length a) by lia.
    rewrite skipn_app, Nat.sub_diag, skipn_all. cbn [skipn app].
    replace (ci_eq b p) with true by (symmetry; apply ci_eq_iff; now symmetry). eauto.
Qed.

Lemma te_no : forall e s bl r, entry_ok e -> Forall blank bl -> try_entry e (bl ++ s) = CNo -> ~ applies_to e (s ++ r).
Proof.
  intros e s bl r OK F H (new & rest & AP). assert (X := te_ext e (bl ++ s) r OK). rewrite H in X.
  destruct (te_complete e _ _ _ bl OK AP F) as (a & Y). rewrite app_assoc in Y. congruence.
Qed.

Lemma te_len : forall e q a q', entry_ok e -> try_entry e q = CHit a q' -> (length q' < length q)%nat.
Proof.
  intros e q a q' OK H. destruct (ok_skip e OK) as (w & l & SW & HW). unfold try_entry in H.
  assert (SL : (length (skip_blanks q) <= length q)%nat).
  { destruct (skip_split q) as [Q _]. rewrite Q at 2. rewrite app_length. lia. }
  destruct (e_kind e) eqn:K.
  - destruct (match_other (e_old e) q) as [[q2|]|] eqn:M; try discriminate. injection H as <- <-. destruct (mo_len _ _ _ M) as [_ X]. apply X, ok_other, OK.
  - rewrite SW in H. destruct (skip_blanks q) as [|v q2]; [discriminate|]. destruct (ci_prefix w v); [|discriminate]. injection H as <- <-. cbn [length] in SL. lia.
  - rewrite SW, (ok_trail e w l OK K SW) in H. destruct (skip_blanks q) as [|v q2]; [discriminate|].
    destruct (length v <? length w)%nat; [discriminate|]. destruct (ci_eq _ w); [|discriminate]. injection H as <- <-. cbn [length] in SL. lia.
Qed.

(** * The list *)
Lemma tl_hit : forall L q a q', try_list L q = CHit a q' ->
  exists L1 e L2, L = L1 ++ e :: L2 /\ try_entry e q = CHit a q' /\ forall e', In e' L1 -> try_entry e' q = CNo.
Proof.
  induction L as [|e L IH]; intros q a q' H; [discriminate|]. cbn [try_list] in H. destruct (try_entry e q) eqn:T; try discriminate.
  - destruct (IH _ _ _ H) as (L1 & e1 & L2 & -> & A & B). exists (e :: L1), e1, L2. repeat split; auto. intros e' [<-|I]; auto.
  - injection H as <- <-. exists [], e, L. repeat split; auto. now intros e' [].
Qed.
Lemma tl_no : forall L q, try_list L q = CNo -> forall e, In e L -> try_entry e q = CNo.
Proof.
  induction L as [|e L IH]; intros q H e' I; [destruct I|]. cbn [try_list] in H. destruct (try_entry e q) eqn:T; try discriminate.
  destruct I as [<-|I]; auto.
Qed.
Lemma tl_partial : forall L q, try_list L q = CPartial -> exists e, In e L /\ try_entry e q = CPartial.
Proof.
  induction L as [|e L IH]; intros q H; [discriminate|]. cbn [try_list] in H. destruct (try_entry e q) eqn:T; try discriminate.
  - exists e. split; auto. now left.
  - destruct (IH _ H) as (e' & I & P). exists e'. split; auto. now right.
Qed.
Lemma tl_bad : forall L q, Forall entry_ok L -> try_list L q <> CBad.
Proof.
  induction 1 as [|e L OK _ IH]; [discriminate|]. cbn [try_list]. assert (X := te_ext e q [] OK). destruct (try_entry e q); congruence || auto.
Qed.

Lemma te_partial : forall e q, entry_ok e -> try_entry e q = CPartial ->
  exists p1 p2, words (e_old e) = p1 ++ p2 /\ p2 <> [] /\ Forall2 same_word p1 (words q) /\ (e_kind e <> KOther -> p1 = []).
Proof.
  intros e q OK H. destruct (ok_skip e OK) as (w & l & SW & HW). unfold try_entry in H.
  assert (NB : skip_blanks q = [] -> words q = []).
  { intros S. destruct (skip_split q) as [Q F]. rewrite Q, S, app_nil_r. now apply words_blanks. }
  destruct (e_kind e) eqn:K.
  - destruct (match_other (e_old e) q) as [[q2|]|] eqn:M; try discriminate. destruct (mo_partial _ _ M) as (p1 & p2 & A & B & C). exists p1, p2. repeat split; auto. congruence.
  - rewrite SW in H. destruct (skip_blanks q) as [|v q2]; [|destruct (ci_prefix w v); discriminate].
    exists [], (words (e_old e)). rewrite NB by auto. repeat split; auto. apply ok_other, OK.
  - rewrite SW, (ok_trail e w l OK K SW) in H. destruct (skip_blanks q) as [|v q2].
    + exists [], (words (e_old e)). rewrite NB by auto. repeat split; auto. apply ok_other, OK.
    + destruct (length v <? length w)%nat; [discriminate|]. destruct (ci_eq _ w); discriminate.
Qed.

(** * The loop *)
Lemma drain_total : forall n L q, Forall entry_ok L -> (length q <= n)%nat ->
  exists a r, drain n L q = Ok (a, r) /\ (r = [] \/ try_list L r = CPartial).
Proof.
  induction n as [|n IH]; intros L q OK LN; (destruct q as [|t q]; [exists [], []; split; auto|]); cbn [length] in LN; [lia|].
  cbn [drain]. destruct (try_list L (t :: q)) eqn:T.
  - exists [], (t :: q). auto.
  - destruct (IH L q OK) as (a & r & -> & P); [lia|]. cbn [obind]. eauto.
  - destruct (tl_hit _ _ _ _ T) as (L1 & e & L2 & E & H & _). assert (OE : entry_ok e).
    { rewrite Forall_forall in OK. apply OK. rewrite E. apply in_elt. }
    assert (LL := te_len _ _ _ _ OE H). cbn [length] in LL. destruct (IH L q0 OK) as (a2 & r & -> & P); [lia|]. cbn [obind]. eauto.
  - now apply tl_bad in T.
Qed.

Lemma rep_blanks : forall g L bl s o, Forall blank bl -> replaced g L s o -> replaced g L (bl ++ s) (bl ++ o).
Proof. induction 1; intros; [auto|]. cbn [app]. apply rep_blank; auto. Qed.

Lemma drain_sound : forall n L q a r, Forall entry_ok L -> drain n L q = Ok (a, r) ->
  forall rest o, replaced true L (r ++ rest) o -> replaced true L (q ++ rest) (texts a ++ o).
Proof.
  induction n as [|n IH]; intros L q a r OK H rest o R.
  { destruct q; cbn [drain] in H; [injection H as <- <-; auto|discriminate]. }
  destruct q as [|t q]; cbn [drain] in H; [injection H as <- <-; auto|].
  destruct (try_list L (t :: q)) eqn:T; try discriminate.
  - injection H as <- <-. exact R.
  - destruct (drain n L q) as [[a2 r2]| |] eqn:D; try discriminate. cbn [obind] in H. injection H as <- <-.
    assert (X := IH _ _ _ _ OK D rest o R). cbn [texts map app]. fold (texts a2). destruct (is_blank t) eqn:B.
    + apply rep_blank; [now apply is_blank_iff|exact X].
    + apply rep_keep; [now apply not_blank_iff| |exact X]. intros e I. rewrite Forall_forall in OK.
      apply (te_no e (t :: q) [] rest (OK e I)); [constructor|]. now apply (tl_no L (t :: q)).
  - destruct (drain n L q0) as [[a2 r2]| |] eqn:D; try discriminate. cbn [obind] in H. injection H as <- <-.
    assert (X := IH _ _ _ _ OK D rest o R).
    destruct (tl_hit _ _ _ _ T) as (L1 & e & L2 & E & H & NO).
    assert (OK' := OK). rewrite Forall_forall in OK'.
    assert (OE : entry_ok e) by (apply OK'; rewrite E; apply in_elt).
    destruct (te_hit _ _ _ _ OE H) as (bl & s & new & Q & F & AP & TX).
    assert (AP2 : applies e (s ++ rest) new (q0 ++ rest)).
    { assert (X2 := te_ext e (t :: q) rest OE). rewrite H in X2. clear - AP.
      inversion AP; subst; cbn [app].
      - apply applies_whole; auto. clear - H0. induction H0; [now constructor|]. cbn [app]. rewrite <- app_assoc. apply stands_more; auto.
      - now apply (applies_leading e p).
      - now apply (applies_trailing e p). }
    assert (NO2 : forall e', In e' L1 -> ~ applies_to e' (s ++ rest)).
    { intros e' I. apply (te_no e' s bl rest); auto; [apply OK'; rewrite E; apply in_or_app; auto|]. rewrite <- Q. auto. }
    rewrite Q, texts_app. rewrite <- !app_assoc. destruct TX as [[-> K]| ->].
    + apply (rep_hit true L L1 e L2 bl (s ++ rest) new (q0 ++ rest)); auto.
    + rewrite <- app_assoc. apply rep_blanks; auto. apply (rep_hit true L L1 e L2 [] (s ++ rest) new (q0 ++ rest)); auto.
Qed.

(** * A stage *)
Definition stage_ok (st : stage) : Prop :=
  match s_list st with
  | Some L => Forall entry_ok L /\ (s_queue st = [] \/ try_list L (s_queue st) = CPartial)
  | None => True
  end.

Lemma echo_total : forall st t, stage_ok st -> exists a st', ppecho_0 st t = Ok (a, st') /\ stage_ok st' /\ s_list st' = s_list st.
Proof.
  intros [Lo q] t OK. unfold ppecho_0, stage_ok in *. cbn [s_list s_queue] in *. destruct Lo as [L|].
  - destruct OK as [OK P]. destruct q as [|t0 q].
    + destruct (is_blank t).
      * eexists _, _. split; [reflexivity|]. cbn [s_list s_queue]. auto.
      * destruct (drain_total (length ([] ++ [t])) L ([] ++ [t]) OK) as (a & r & -> & P2); [lia|]. cbn [obind]. eexists _, _. split; [reflexivity|]. cbn [s_list s_queue]. auto.
    + destruct (drain_total (length ((t0 :: q) ++ [t])) L ((t0 :: q) ++ [t]) OK) as (a & r & -> & P2); [lia|]. cbn [obind]. eexists _, _. split; [reflexivity|]. cbn [s_list s_queue]. auto.
  - destruct q; [destruct (is_blank t)|]; eexists _, _; split; try reflexivity; cbn [s_list]; auto.
Qed.

Lemma echo_sound : forall st L t a st', s_list st = Some L -> Forall entry_ok L -> ppecho_0 st t = Ok (a, st') ->
  forall rest o, replaced true L (s_queue st' ++ rest) o -> replaced true L (s_queue st ++ t :: rest) (texts a ++ o).
Proof.
  intros [Lo q] L t a st' SL OK H rest o R. cbn [s_list s_queue] in *. subst Lo. unfold ppecho_0 in H. cbn [s_list s_queue] in H.
  assert (G : forall n, obind (drain n L (q ++ [t])) (fun x => let (a, r) := x in Ok (a, mkStage (Some L) r)) = Ok (a, st') ->
          replaced true L (q ++ t :: rest) (texts a ++ o)).
  { intros n E. destruct (drain n L (q ++ [t])) as [[a2 r]| |] eqn:D; try discriminate. cbn [obind] in E. injection E as <- <-.
    cbn [s_queue] in R. assert (X := drain_sound n L _ _ _ OK D rest o R). rewrite <- app_assoc in X. exact X. }
  destruct q as [|t0 q].
  - destruct (is_blank t) eqn:B.
    + injection H as <- <-. cbn [s_queue app] in R. cbn [texts map app]. apply rep_blank; auto. now apply is_blank_iff.
    + eapply G. exact H.
  - eapply G. exact H.
Qed.

Lemma feed_total : forall ts st, stage_ok st -> exists a st', feed st ts = Ok (a, st') /\ stage_ok st' /\ s_list st' = s_list st.
Proof.
  induction ts as [|t ts IH]; intros st OK; cbn [feed]; [eauto|].
  destruct (echo_total st t OK) as (a & s1 & -> & OK1 & E1). cbn [obind].
  destruct (IH s1 OK1) as (a2 & s2 & -> & OK2 & E2). cbn [obind]. eexists _, _. split; [reflexivity|]. split; congruence.
Qed.

Lemma feed_sound : forall ts st L a st', s_list st = Some L -> Forall entry_ok L -> stage_ok st -> feed st ts = Ok (a, st') ->
  forall rest o, replaced true L (s_queue st' ++ rest) o -> replaced true L (s_queue st ++ ts ++ rest) (texts a ++ o).
Proof.
  induction ts as [|t ts IH]; intros st L a st' SL OK SO H rest o R; cbn [feed] in H.
  - injection H as <- <-. exact R.
  - destruct (echo_total st t SO) as (a1 & s1 & E1 & SO1 & SL1). rewrite E1 in H. cbn [obind] in H.
    destruct (feed s1 ts) as [[a2 s2]| |] eqn:F; try discriminate. cbn [obind] in H. injection H as <- <-.
    assert (X := IH s1 L a2 s2 (eq_trans SL1 SL) OK SO1 F rest o R).
    rewrite texts_app, <- app_assoc. cbn [app]. apply (echo_sound st L t a1 s1 SL OK E1 (ts ++ rest)). exact X.
Qed.

Lemma feed_none : forall ts, feed (mkStage None []) ts = Ok (map Echo ts, mkStage None []).
Proof.
  induction ts as [|t ts IH]; [reflexivity|]. cbn [feed]. unfold ppecho_0. cbn [s_queue s_list].
  destruct (is_blank t); cbn [obind app map]; rewrite IH; reflexivity.
Qed.
Lemma feed_app : forall x y st, feed st (x ++ y) =
  obind (feed st x) (fun p => let (a, s) := p in obind (feed s y) (fun p => let (b, s') := p in Ok (a ++ b, s'))).
Proof.
  induction x as [|t x IH]; intros y st; cbn [app feed obind].
  - destruct (feed st y) as [[b s']| |]; reflexivity.
  - destruct (ppecho_0 st t) as [[a s]| |]; cbn [obind]; try reflexivity. rewrite IH.
    destruct (feed s x) as [[a1 s1]| |]; cbn [obind]; try reflexivity.
    destruct (feed s1 y) as [[a2 s2]| |]; cbn [obind]; try reflexivity. now rewrite app_assoc.
Qed.

Lemma replaced_nil : forall g s, replaced g [] s s.
Proof.
  intros g. induction s as [|t s IH]; [constructor|]. destruct (is_blank t) eqn:B.
  - apply rep_blank; auto. now apply is_blank_iff.
  - apply rep_keep; auto. now apply not_blank_iff.
Qed.
