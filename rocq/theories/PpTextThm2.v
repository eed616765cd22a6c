(** More proofs about the text replacement. *)
From Verif Require Import Base PpText SpecPpText PpTextThm.
Local Open Scope Z_scope.

(** * The specification determines the result *)
Lemma words_word : forall l, Forall (fun w => is_blank w = false) (words l).
Proof. intros l. apply Forall_forall. intros w. apply words_nonblank. Qed.
Lemma words_id : forall p, Forall (fun w => is_blank w = false) p -> words p = p.
Proof.
  unfold words. induction 1 as [|w l B _ IH]; [reflexivity|]. cbn [filter]. rewrite B. cbn [negb]. now rewrite IH.
Qed.
Lemma stands_fun : forall p s r, stands p s r -> Forall (fun w => is_blank w = false) p -> match_other p s = Some (Some r).
Proof.
  intros p s r H F. rewrite <- (words_id p F) in H. exact (mo_complete p s r [] H (Forall_nil _)).
Qed.
Lemma stands_head : forall p s r, stands p s r -> Forall (fun w => is_blank w = false) p ->
  exists w s', s = w :: s' /\ is_blank w = false.
Proof.
  intros p s r H F. destruct H as [p w rest S|p w ps bl s rest S FB ST]; inversion F; subst.
  - eexists _, _. split; [reflexivity|]. now rewrite <- (same_blank _ _ S).
  - eexists _, _. split; [reflexivity|]. now rewrite <- (same_blank _ _ S).
Qed.
Lemma stands_words : forall p s r, stands p s r -> Forall (fun w => is_blank w = false) p -> (length p <= length (words s))%nat.
Proof.
  induction 1 as [p w rest S|p w ps bl s rest S FB ST IH]; intros F; inversion F; subst; unfold words in *; cbn [filter];
    rewrite <- (same_blank _ _ S), H1; cbn [negb length].
  - lia.
  - rewrite filter_app, app_length. apply IH in H2. lia.
Qed.
Lemma stands_len : forall p s r, stands p s r -> (length r < length s)%nat.
Proof. induction 1; cbn [length]; [lia|]. rewrite app_length. lia. Qed.

Lemma applies_head : forall e s n r, applies e s n r -> exists w s', s = w :: s' /\ is_blank w = false.
Proof.
  intros e s n r H. destruct H as [s rest K ST|p a b rest K HW S NB|p a b rest K HW S NB].
  - eapply stands_head; eauto. apply words_word.
  - eexists _, _. split; [reflexivity|]. now apply not_blank_iff.
  - eexists _, _. split; [reflexivity|]. now apply not_blank_iff.
Qed.
Lemma applies_len : forall e s n r, applies e s n r -> (length r < length s)%nat.
Proof. intros e s n r H. destruct H; cbn [length]; try lia. eapply stands_len; eauto. Qed.

Lemma applies_fun : forall e s n1 r1 n2 r2, applies e s n1 r1 -> applies e s n2 r2 -> n1 = n2 /\ r1 = r2.
Proof.
  intros e s n1 r1 n2 r2 A B. destruct A as [s rest K ST|p a b rest K HW S NB|p a b rest K HW S NB].
  - inversion B as [s' rest' K' ST' E1 E2 E3|p' a' b' rest' K' HW' S' NB' E1 E2 E3|p' a' b' rest' K' HW' S' NB' E1 E2 E3]; subst; try congruence.
    split; auto. apply stands_fun in ST; [|apply words_word]. apply stands_fun in ST'; [|apply words_word]. congruence.
  - inversion B as [s' rest' K' ST' E1 E2 E3|p' a' b' rest' K' HW' S' NB' E1 E2 E3|p' a' b' rest' K' HW' S' NB' E1 E2 E3]; subst; try congruence.
    assert (p' = p) by congruence. subst. apply same_len in S. apply same_len in S'.
    destruct (app_eq_len _ a' b' a b E1) as [-> ->]; [congruence|auto].
  - inversion B as [s' rest' K' ST' E1 E2 E3|p' a' b' rest' K' HW' S' NB' E1 E2 E3|p' a' b' rest' K' HW' S' NB' E1 E2 E3]; subst; try congruence.
    assert (p' = p) by congruence. subst. apply same_len in S. apply same_len in S'.
    assert (L := f_equal (@length Z) E1). rewrite !app_length in L.
    destruct (app_eq_len _ a' b' a b E1) as [-> ->]; [lia|auto].
Qed.

Lemma rep_inv_nil : forall g L o, replaced g L [] o -> o = [].
Proof.
  intros g L o H. inversion H as [|? ? ? ? ? E1|? ? ? ? ? ? E1|L1 e L2 bl s new rest o' EL NO AP FB GL R E1 E2]; subst; auto.
  apply app_eq_nil in E1 as [-> ->]. apply applies_head in AP as (w & s' & E & _). discriminate.
Qed.

Lemma rep_inv_blank : forall g L b s o, is_blank b = true -> replaced g L (b :: s) o ->
  exists o', replaced g L s o' /\ words o = words o' /\ (g = false -> o = b :: o').
Proof.
  intros g L b s o B H. inversion H as [|b' s' o' BB R E1 E2|w s' o' NB NO R E1 E2|L1 e L2 bl s' new rest o' EL NO AP FB GL R E1 E2]; subst.
  - exists o'. split; auto. split; auto. unfold words. cbn [filter]. rewrite B. reflexivity.
  - apply not_blank_iff in NB. congruence.
  - destruct bl as [|b' bl].
    + cbn [app] in E1. subst. apply applies_head in AP as (w & s1 & E & W). injection E as -> ->. congruence.
    + cbn [app] in E1. injection E1 as -> <-. destruct GL as [GL|GL]; [discriminate|]. subst g.
      exists (new ++ o'). inversion FB; subst. split; [|split; [auto|discriminate]]. eapply rep_hit; eauto.
Qed.

Lemma rep_inv_word : forall g L w s o, is_blank w = false -> replaced g L (w :: s) o ->
  (exists o', (forall e, In e L -> ~ applies_to e (w :: s)) /\ replaced g L s o' /\ o = w :: o') \/
  (exists L1 e L2 new rest o', L = L1 ++ e :: L2 /\ (forall e', In e' L1 -> ~ applies_to e' (w :: s)) /\
     applies e (w :: s) new rest /\ replaced g L rest o' /\ o = new ++ o').
Proof.
  intros g L w s o B H. inversion H as [|b' s' o' BB R E1 E2|w' s' o' NB NO R E1 E2|L1 e L2 bl s' new rest o' EL NO AP FB GL R E1 E2]; subst.
  - apply is_blank_iff in BB. congruence.
  - left. exists o'. auto.
  - destruct bl as [|b' bl].
    + cbn [app] in E1. subst. right. exists L1, e, L2, new, rest, o'. auto.
    + cbn [app] in E1. injection E1 as -> <-. inversion FB; subst. apply is_blank_iff in H2. congruence.
Qed.

Lemma first_unique : forall (A : Type) (P : A -> Prop) L1 (e : A) L2 M1 f M2, L1 ++ e :: L2 = M1 ++ f :: M2 ->
  (forall x, In x L1 -> ~ P x) -> (forall x, In x M1 -> ~ P x) -> P e -> P f -> e = f.
Proof.
  induction L1 as [|x L1 IH]; intros e L2 [|y M1] f M2 E N1 N2 PE PF; cbn [app] in E; injection E as E1 E2; subst; auto.
  - exfalso. apply (N2 y); auto. now left.
  - exfalso. apply (N1 f); auto. now left.
  - eapply IH; eauto; intros z I; [apply N1|apply N2]; now right.
Qed.

Lemma rep_det : forall g L n s o1 o2, (length s <= n)%nat -> replaced g L s o1 -> replaced g L s o2 ->
  words o1 = words o2 /\ (g = false -> o1 = o2).
Proof.
  induction n as [|n IH]; intros s o1 o2 LN R1 R2; (destruct s as [|t s]; [apply rep_inv_nil in R1 as ->; apply rep_inv_nil in R2 as ->; auto|]); cbn [length] in LN; [lia|].
  destruct (is_blank t) eqn:B.
  - destruct (rep_inv_blank _ _ _ _ _ B R1) as (p1 & A1 & W1 & G1). destruct (rep_inv_blank _ _ _ _ _ B R2) as (p2 & A2 & W2 & G2).
    destruct (IH s p1 p2) as [X Y]; auto; [lia|]. split; [congruence|]. intros G. rewrite (G1 G), (G2 G), (Y G). reflexivity.
  - destruct (rep_inv_word _ _ _ _ _ B R1) as [(p1 & N1 & A1 & ->)|(L1 & e & L2 & n1 & r1 & p1 & E1 & N1 & AP1 & A1 & ->)];
    destruct (rep_inv_word _ _ _ _ _ B R2) as [(p2 & N2 & A2 & ->)|(M1 & f & M2 & n2 & r2 & p2 & E2 & N2 & AP2 & A2 & ->)].
    + destruct (IH s p1 p2) as [X Y]; auto; [lia|]. split; [|intros G; now rewrite (Y G)]. unfold words in *. cbn [filter]. now rewrite X.
    + exfalso. apply (N1 f); [rewrite E2; apply in_elt|]. unfold applies_to. eauto.
    + exfalso. apply (N2 e); [rewrite E1; apply in_elt|]. unfold applies_to. eauto.
    + assert (EF : e = f).
      { apply (first_unique _ (fun x => applies_to x (t :: s)) L1 e L2 M1 f M2); auto; [congruence|unfold applies_to; eauto|unfold applies_to; eauto]. }
      subst f. destruct (applies_fun _ _ _ _ _ _ AP1 AP2) as [-> ->]. assert (LL := applies_len _ _ _ _ AP2). cbn [length] in LL.
      destruct (IH r2 p1 p2) as [X Y]; auto; [lia|]. split; [rewrite !words_app; now rewrite X|intros G; now rewrite (Y G)].
Qed.

Lemma dec_apply : forall L s, Forall entry_ok L ->
  (forall e, In e L -> ~ applies_to e s) \/
  (exists L1 e L2 new rest, L = L1 ++ e :: L2 /\ (forall e', In e' L1 -> ~ applies_to e' s) /\ applies e s new rest).
Proof.
  intros L s OK. induction OK as [|e L OE _ IH]; [left; intros e []|].
  assert (D : applies_to e s \/ ~ applies_to e s).
  { destruct (try_entry e s) as [| |a q'|] eqn:T; try (right; intros (n & r & AP); destruct (te_complete e s n r [] OE AP (Forall_nil _)) as (a' & Y); cbn [app] in Y; congruence).
    destruct (te_hit e s a q' OE T) as (bl & s' & new & -> & F & AP & _).
    destruct bl as [|b bl]; [left; exists new, q'; exact AP|]. right. intros (n & r & AP2).
    apply applies_head in AP2 as (w & s2 & E & W). cbn [app] in E. injection E as -> _. inversion F; subst. apply is_blank_iff in H1. congruence. }
  destruct D as [(new & rest & AP)|N].
  - right. exists [], e, L, new, rest. repeat split; auto.
  - destruct IH as [IH|(L1 & f & L2 & new & rest & -> & N1 & AP)].
    + left. intros e' [<-|I]; auto.
    + right. exists (e :: L1), f, L2, new, rest. repeat split; auto. intros e' [<-|I]; auto.
Qed.

Lemma rep_total : forall L n s, Forall entry_ok L -> (length s <= n)%nat -> exists o, replaced false L s o.
Proof.
  induction n as [|n IH]; intros s OK LN; (destruct s as [|t s]; [exists []; constructor|]); cbn [length] in LN; [lia|].
  destruct (is_blank t) eqn:B.
  - destruct (IH s OK) as (o & R); [lia|]. exists (t :: o). apply rep_blank; auto. now apply is_blank_iff.
  - destruct (dec_apply L (t :: s) OK) as [N|(L1 & e & L2 & new & rest & E & N & AP)].
    + destruct (IH s OK) as (o & R); [lia|]. exists (t :: o). apply rep_keep; auto. now apply not_blank_iff.
    + assert (LL := applies_len _ _ _ _ AP). cbn [length] in LL. destruct (IH rest OK) as (o & R); [lia|].
      exists (new ++ o). apply (rep_hit false L L1 e L2 [] (t :: s) new rest); auto.
Qed.

Lemma rep_glue : forall L s o, replaced false L s o -> replaced true L s o.
Proof.
  induction 1; [constructor|now constructor|now constructor|]. eapply rep_hit; eauto.
Qed.

(** * Pending words *)
Lemma ok_pending : forall st L, s_list st = Some L -> stage_ok st -> pending L (s_queue st).
Proof.
  intros st L SL OK. unfold stage_ok in OK. rewrite SL in OK. destruct OK as [OK [E|P]]; [now left|]. right.
  destruct (tl_partial _ _ P) as (e & I & T). rewrite Forall_forall in OK. destruct (te_partial e _ (OK e I) T) as (p1 & p2 & A & B & C & D).
  exists e, p1, p2. auto.
Qed.

Lemma short_none : forall e s, (length (words s) < span e)%nat -> ~ applies_to e s.
Proof.
  intros e s LT (new & rest & AP). unfold span in LT. destruct AP as [s rest K ST|p a b rest K HW S NB|p a b rest K HW S NB]; rewrite K in LT.
  - apply stands_words in ST; [lia|apply words_word].
  - apply not_blank_iff in NB. unfold words in LT. cbn [filter] in LT. rewrite NB in LT. cbn [negb length] in LT. lia.
  - apply not_blank_iff in NB. unfold words in LT. cbn [filter] in LT. rewrite NB in LT. cbn [negb length] in LT. lia.
Qed.

Lemma short_id : forall g L n q, Forall (fun e => span e = n) L -> (length (words q) < n)%nat -> replaced g L q q.
Proof.
  intros g L n q F. induction q as [|t q IH]; intros LT; [constructor|]. unfold words in LT. cbn [filter] in LT. destruct (is_blank t) eqn:B; cbn [negb length] in LT.
  - apply rep_blank; [now apply is_blank_iff|auto].
  - apply rep_keep; [now apply not_blank_iff| |apply IH; unfold words; lia].
    intros e I. rewrite Forall_forall in F. apply short_none. rewrite (F e I). unfold words. cbn [filter]. rewrite B. cbn [negb length]. exact LT.
Qed.

Lemma f2_length : forall (A B : Type) (P : A -> B -> Prop) l m, Forall2 P l m -> length l = length m.
Proof. induction 1; cbn [length]; congruence. Qed.

Lemma pending_id : forall g L n q, Forall entry_ok L -> Forall (fun e => span e = n) L -> pending L q -> replaced g L q q.
Proof.
  intros g L n q OK F [->|(e & p1 & p2 & I & W & N & S & K)]; [constructor|]. apply (short_id g L n q F).
  assert (LS := f2_length _ _ _ _ _ S). rewrite Forall_forall in F. rewrite <- (F e I). unfold span.
  assert (length p2 <> 0)%nat by (destruct p2; [congruence|discriminate]).
  destruct (e_kind e) eqn:KE; [rewrite W, app_length; lia| |]; (rewrite K in LS by discriminate; cbn [length] in LS; lia).
Qed.

(** * Patterns of one word *)
Lemma one_entry : forall e t, entry_ok e -> one_word e -> is_blank t = false ->
  try_entry e [t] = CNo \/ exists a, try_entry e [t] = CHit a [].
Proof.
  intros e t OK OW B. destruct (ok_skip e OK) as (w & l & SW & HW). unfold try_entry. destruct (e_kind e) eqn:K.
  - destruct (OW K) as (p & W). clear - B W.
    enough (E : match_other (e_old e) [t] = Some None \/ match_other (e_old e) [t] = Some (Some [])) by (destruct E as [-> | ->]; eauto).
    revert W. induction (e_old e) as [|x l IH]; intros W; [discriminate|]. cbn [match_other]. unfold words in W. cbn [filter] in W.
    destruct (is_blank x); cbn [negb] in W; [auto|]. cbn [skip_blanks]. rewrite B. injection W as -> W. destruct (ci_eq p t); [|auto]. right. now apply mo_empty.
  - rewrite SW. cbn [skip_blanks]. rewrite B. destruct (ci_prefix w t); eauto.
  - rewrite SW, (ok_trail e w l OK K SW). cbn [skip_blanks]. rewrite B. destruct (length t <? length w)%nat; auto. destruct (ci_eq _ w); eauto.
Qed.

Lemma one_list : forall L t, Forall entry_ok L -> Forall one_word L -> is_blank t = false ->
  try_list L [t] = CNo \/ exists a, try_list L [t] = CHit a [].
Proof.
  intros L t OK OW B. induction OK as [|e L OE OK IH]; [now left|]. inversion OW; subst. cbn [try_list].
  destruct (one_entry e t OE H1 B) as [-> |(a & ->)]; eauto.
Qed.

Lemma stands_one : forall p t rest, stands p [t] [] -> stands p (t :: rest) rest.
Proof.
  intros p t rest H. inversion H; subst; [now constructor|].
  match goal with E : _ ++ _ = [] |- _ => apply app_eq_nil in E as [-> ->] end.
  match goal with E : stands _ [] _ |- _ => inversion E end.
Qed.

Lemma one_echo : forall L t, Forall entry_ok L -> Forall one_word L ->
  exists a, ppecho_0 (mkStage (Some L) []) t = Ok (a, mkStage (Some L) []) /\
    forall rest o, replaced false L rest o -> replaced false L (t :: rest) (texts a ++ o).
Proof.
  intros L t OK OW. unfold ppecho_0. cbn [s_queue s_list app length]. destruct (is_blank t) eqn:B.
  - eexists. split; [reflexivity|]. intros rest o R. cbn [texts map app]. apply rep_blank; auto. now apply is_blank_iff.
  - cbn [drain]. destruct (one_list L t OK OW B) as [T|(a & T)]; rewrite T; cbn [obind drain].
    + eexists. split; [reflexivity|]. intros rest o R. cbn [texts map app]. apply rep_keep; auto; [now apply not_blank_iff|].
      intros e I. rewrite Forall_forall in OK. apply (te_no e [t] [] rest (OK e I)); [constructor|]. now apply (tl_no L [t]).
    + eexists. split; [reflexivity|]. intros rest o R. rewrite app_nil_r.
      destruct (tl_hit _ _ _ _ T) as (L1 & e & L2 & E & H & NO). assert (OK' := OK). rewrite Forall_forall in OK'.
      assert (OE : entry_ok e) by (apply OK'; rewrite E; apply in_elt).
      destruct (te_hit _ _ _ _ OE H) as (bl & s & new & Q & F & AP & TX).
      assert (BL : bl = []). { destruct bl as [|b bl]; auto. cbn [app] in Q. injection Q as -> _. inversion F; subst. apply is_blank_iff in H2. congruence. }
      subst bl. cbn [app] in Q, TX. subst s. assert (TX' : texts a = new) by (destruct TX as [[? _]|?]; auto). rewrite TX'.
      assert (AP2 : applies e (t :: rest) new rest).
      { inversion AP as [s rest' K ST E1 E2 E3|p x y rest' K HW S NB E1 E2 E3|p x y rest' K HW S NB E1 E2 E3]; subst.
        - apply applies_whole; auto. now apply stands_one.
        - now apply (applies_leading e p).
        - now apply (applies_trailing e p). }
      apply (rep_hit false L L1 e L2 [] (t :: rest) new rest o); auto.
      intros e' I. apply (te_no e' [t] [] rest); [apply OK'; rewrite E; apply in_or_app; auto|constructor|auto].
Qed.

Lemma one_feed : forall ts L, Forall entry_ok L -> Forall one_word L ->
  exists a, feed (mkStage (Some L) []) ts = Ok (a, mkStage (Some L) []) /\ replaced false L ts (texts a).
Proof.
  induction ts as [|t ts IH]; intros L OK OW.
  - exists []. split; [reflexivity|constructor].
  - destruct (one_echo L t OK OW) as (a & E & R). destruct (IH L OK OW) as (a2 & E2 & R2). cbn [feed]. rewrite E. cbn [obind]. rewrite E2. cbn [obind].
    exists (a ++ a2). split; [reflexivity|]. rewrite texts_app. auto.
Qed.
