(** Consequences: margins, continuations, inline comments. *)
From Verif Require Import Base FixedSrc SpecFixedSrc FixedSrcThm.
From Coq Require Import Lia.
Local Open Scope Z_scope.

Definition file_of (rs : list (list Z * list Z)) : list Z := concat (map (fun x => fst x ++ snd x) rs).

Lemma source_spec c rs : c_col c = 72%nat -> (0 < c_tab c)%nat ->
  Forall (fun x => raw_ok (c_tab c) (fst x) /\ eol (snd x)) rs ->
  Forall (fun x => plain (expand (c_tab c) 0 (fst x))) rs ->
  Z.of_nat (length rs) + 75 <= c_cap c ->
  source_text c (file_of rs)
  = Ok (option_map program_text
         (program ENo (map (fun x => kind_of (c_debug c) (c_mfc c) (expand (c_tab c) 0 (fst x))) rs))).
Proof.
  intros Hc Ht Hr Hp Hcap. unfold source_text, file_of.
  rewrite rd_lines_spec; [|exact Ht|exact Hr|].
  2:{ apply file_len. eapply Forall_impl; [|exact Hr]. intros x [_ H]. exact H. }
  change rst0 with (state 0 ENo).
  rewrite do_lines_spec; [|exact Hc| |exact I|].
  - rewrite map_map. destruct (program ENo _) as [[tl sl]|]; reflexivity.
  - apply Forall_map. exact Hp.
  - rewrite map_length. change (Z.of_nat 0) with 0. lia.
Qed.

Lemma expand_id w l : ~ In 9 l -> forall n, expand w n l = l.
Proof.
  induction l as [|c r IH]; intros H n; [reflexivity|].
  cbn [expand]. replace (c =? 9) with false.
  - rewrite IH; [reflexivity|]. intro; apply H; right; assumption.
  - symmetry. apply Z.eqb_neq. intros ->. apply H. left. reflexivity.
Qed.

Definition typed (l : list Z) : Prop :=
  ~ In 9 l /\ ~ In 13 l /\ (length l <= 255)%nat /\ plain l.

Lemma source_typed c ls : c_col c = 72%nat -> (0 < c_tab c)%nat ->
  Forall typed ls -> Z.of_nat (length ls) + 75 <= c_cap c ->
  source_text c (unlines ls)
  = Ok (option_map program_text (program ENo (map (kind_of (c_debug c) (c_mfc c)) ls))).
Proof.
  intros Hc Ht H Hcap.
  assert (E : unlines ls = file_of (map (fun l => (l, [10])) ls)).
  { unfold unlines, file_of. rewrite map_map. reflexivity. }
  rewrite E, source_spec; auto.
  - rewrite map_map. cbn [fst]. f_equal. f_equal. f_equal. apply map_ext_in. intros l Hl.
    rewrite Forall_forall in H. destruct (H l Hl) as (A & _). rewrite expand_id by exact A. reflexivity.
  - apply Forall_map. eapply Forall_impl; [|exact H]. intros l (A & B & C & D).
    cbn [fst snd]. split; [|left; reflexivity]. unfold raw_ok. rewrite expand_id by exact A.
    split; [|split]; auto. apply D.
  - apply Forall_map. eapply Forall_impl; [|exact H]. intros l (A & B & C & D).
    cbn [fst]. rewrite expand_id by exact A. exact D.
  - rewrite map_length. exact Hcap.
Qed.

(** *** Lines keep their numbers *)
Lemma program_length ks : forall e tl sl, program e ks = Some (tl, sl) -> length sl = length ks.
Proof.
  induction ks as [|k r IH]; intros e tl sl H; cbn [program] in H.
  - inversion H. reflexivity.
  - cbn [length].
    destruct k as [|t|t|]; cbv zeta in H.
    + destruct (program e r) as [[a b]|] eqn:E; inversion H; subst. cbn [length]. f_equal. eapply IH, E.
    + destruct (program (ending_of (full t) None t) r) as [[a b]|] eqn:E; inversion H; subst.
      cbn [length]. f_equal. eapply IH, E.
    + destruct (resume e t) as [[u q]|]; [|discriminate].
      destruct (program (ending_of (full t) q u) r) as [[a b]|] eqn:E; inversion H; subst.
      cbn [length]. f_equal. eapply IH, E.
    + discriminate.
Qed.

Definition no10 (l : list Z) : Prop := ~ In 10 l.
Lemma drop_blanks_in x l : In x (drop_blanks l) -> In x l.
Proof.
  destruct (drop_blanks_suffix l) as [a H]. intro K. rewrite H. apply in_or_app. right. exact K.
Qed.
Lemma trim_end_in x l : In x (trim_end l) -> In x l.
Proof. unfold trim_end. rewrite <- in_rev. intro H. apply drop_blanks_in in H. rewrite <- in_rev in H. exact H. Qed.
Lemma shown_no10 pad t e : no10 t -> no10 (shown pad t e).
Proof.
  unfold no10, shown. intros H K. destruct e.
  - cbv zeta in K. assert (K' : In 10 (trim_end t)).
    { destruct (rev (trim_end t)) as [|c r]; [exact K|].
      destruct (is_quote c); [|exact K]. apply in_app_or in K. destruct K as [K|[K|[]]]; [exact K|discriminate]. }
    apply H, trim_end_in, K'.
  - apply in_app_or in K. destruct K as [K|K]; [auto|]. apply repeat_spec in K. discriminate.
  - apply in_app_or in K. destruct K as [K|K]; [auto|]. apply repeat_spec in K. discriminate.
Qed.
Lemma resume_no10 e t u q : no10 t -> resume e t = Some (u, q) -> no10 u.
Proof.
  unfold no10, resume. intros H R K.
  assert (G : forall x, In x (drop_blanks t) -> In x t) by (intro; apply drop_blanks_in).
  destruct e; destruct (drop_blanks t) as [|a [|b v]]; try discriminate R;
    repeat match type of R with context [if ?b then _ else _] => destruct b end;
    inversion R; subst; apply H, G; cbn [In] in *; tauto.
Qed.
Definition kind10 (k : kind) : Prop := match k with KText t | KCont t => no10 t | _ => True end.
Lemma program_no10 ks : Forall kind10 ks -> forall e tl sl,
  program e ks = Some (tl, sl) -> no10 tl /\ Forall no10 sl.
Proof.
  induction 1 as [|k r Hk _ IH]; intros e tl sl H; cbn [program] in H.
  - inversion H. split; [intros []|constructor].
  - destruct k as [|t|t|]; cbv zeta in H; cbn [kind10] in Hk.
    + destruct (program e r) as [[a b]|] eqn:E; inversion H; subst.
      destruct (IH _ _ _ E). split; [assumption|]. constructor; [intros []|assumption].
    + destruct (program (ending_of (full t) None t) r) as [[a b]|] eqn:E; inversion H; subst.
      destruct (IH _ _ _ E). split; [intros []|]. constructor; [|assumption].
      intro K. apply in_app_or in K. destruct K as [K|K]; [|contradiction]. exact (shown_no10 _ _ _ Hk K).
    + destruct (resume e t) as [[u q]|] eqn:R; [|discriminate].
      destruct (program (ending_of (full t) q u) r) as [[a b]|] eqn:E; inversion H; subst.
      destruct (IH _ _ _ E). split; [|constructor; [intros []|assumption]].
      intro K. apply in_app_or in K. destruct K as [K|K]; [|contradiction].
      exact (shown_no10 _ _ _ (resume_no10 _ _ _ _ Hk R) K).
    + discriminate.
Qed.
Lemma firstn_in (x : Z) n l : In x (firstn n l) -> In x l.
Proof. intro H. rewrite <- (firstn_skipn n l). apply in_or_app. left. exact H. Qed.
Lemma skipn_in (x : Z) n l : In x (skipn n l) -> In x l.
Proof. intro H. rewrite <- (firstn_skipn n l). apply in_or_app. right. exact H. Qed.
Lemma kind_of_no10 d m l : no10 l -> kind10 (kind_of d m l).
Proof.
  intro H. assert (T : no10 (text_area l)).
  { intro K. apply H. unfold text_area in K. apply skipn_in, firstn_in in K. exact K. }
  unfold kind_of. destruct (length l <? 7)%nat; [exact I|].
  repeat match goal with |- context [if ?b then _ else _] => destruct b end; cbn [kind10]; auto.
Qed.

(** *** The margins *)
Lemma kind_margins d a b l l' : length a = 6%nat -> length b = 6%nat ->
  firstn 66 l = firstn 66 l' -> (1 <= length l)%nat -> (1 <= length l')%nat ->
  kind_of d false (a ++ l) = kind_of d false (b ++ l').
Proof.
  intros Ha Hb E Hl Hl'.
  assert (T : forall x y, length x = 6%nat -> text_area (x ++ y) = skipn 1 (firstn 66 y)).
  { intros x y Hx. unfold text_area.
    replace 72%nat with (length x + 66)%nat by lia. rewrite firstn_app_2.
    rewrite skipn_app, skipn_all2 by lia.
    replace (7 - length x)%nat with 1%nat by lia. reflexivity. }
  assert (I : forall x y, length x = 6%nat -> indicator (x ++ y) = nth 0 (firstn 66 y) 32).
  { intros x y Hx. unfold indicator. rewrite app_nth2 by lia. rewrite Hx.
    replace (6 - 6)%nat with 0%nat by lia. destruct y; reflexivity. }
  unfold kind_of. rewrite !app_length, Ha, Hb.
  replace (6 + length l <? 7)%nat with false by (symmetry; apply Nat.ltb_ge; lia).
  replace (6 + length l' <? 7)%nat with false by (symmetry; apply Nat.ltb_ge; lia).
  rewrite !T, !I, E by assumption. reflexivity.
Qed.

(** *** Continuations *)
Lemma kind_area d ind seq t : length seq = 6%nat -> (length t <= 65)%nat ->
  text_area (seq ++ ind :: t) = t /\ indicator (seq ++ ind :: t) = ind /\
  (length (seq ++ ind :: t) <? 7)%nat = false /\
  kind_of d false (seq ++ 32 :: t) = match drop_blanks t with [] => KSkip | _ => KText t end /\
  kind_of d false (seq ++ 45 :: t) = match drop_blanks t with [] => KSkip | _ => KCont t end.
Proof.
  intros Hs Ht.
  assert (T : forall i, text_area (seq ++ i :: t) = t).
  { intro i. unfold text_area. rewrite firstn_all2 by (rewrite app_length; cbn [length]; lia).
    rewrite skipn_app, skipn_all2 by lia.
    replace (7 - length seq)%nat with 1%nat by lia. reflexivity. }
  assert (I : forall i, indicator (seq ++ i :: t) = i).
  { intro i. unfold indicator. rewrite app_nth2 by lia. rewrite Hs. reflexivity. }
  assert (L : forall i, (length (seq ++ i :: t) <? 7)%nat = false).
  { intro i. apply Nat.ltb_ge. rewrite app_length. cbn [length]. lia. }
  split; [apply T|]. split; [apply I|]. split; [apply L|].
  unfold kind_of. rewrite !L, !T, !I. cbn [andb]. split.
  - change (existsb (Z.eqb 32) [42; 47]) with false.
    change (existsb (Z.eqb 32) [100; 68]) with false. change (32 =? 32) with true. cbv zeta iota.
    destruct (drop_blanks t); reflexivity.
  - change (existsb (Z.eqb 45) [42; 47]) with false.
    change (existsb (Z.eqb 45) [100; 68]) with false. change (45 =? 32) with false.
    change (45 =? 45) with true. cbv zeta iota. destruct (drop_blanks t); reflexivity.
Qed.

Lemma open_app q a b : open_after q (a ++ b) = open_after (open_after q a) b.
Proof. unfold open_after. apply fold_left_app. Qed.
Lemma open_none_noquote t : (forall x, In x t -> is_quote x = false) -> open_after None t = None.
Proof.
  induction t as [|c r IH]; intro H; [reflexivity|].
  unfold open_after in *. cbn [fold_left toggle]. rewrite (H c) by (left; reflexivity).
  apply IH. intros x Hx. apply H. right. exact Hx.
Qed.
Lemma open_some_piece d t : ~ In d t -> open_after (Some d) t = Some d.
Proof.
  induction t as [|c r IH]; intro H; [reflexivity|].
  unfold open_after in *. cbn [fold_left toggle].
  replace (c =? d) with false.
  - apply IH. intro; apply H; right; assumption.
  - symmetry. apply Z.eqb_neq. intros ->. apply H. left. reflexivity.
Qed.
Lemma drop_blanks_repeat k c t : c <> 32 -> drop_blanks (repeat 32 k ++ c :: t) = c :: t.
Proof.
  intro H. induction k as [|k IH]; cbn [repeat app drop_blanks].
  - replace (c =? 32) with false by (symmetry; apply Z.eqb_neq, H). reflexivity.
  - exact IH.
Qed.
Lemma trim_end_id t c : c <> 32 -> trim_end (t ++ [c]) = t ++ [c].
Proof.
  intro H. unfold trim_end. rewrite rev_app_distr. cbn [rev app drop_blanks].
  replace (c =? 32) with false by (symmetry; apply Z.eqb_neq, H).
  cbn [rev]. rewrite rev_involutive. reflexivity.
Qed.
Lemma shown_noquote pad t : (forall x, In x t -> is_quote x = false) ->
  shown pad t ENo = trim_end t.
Proof.
  intro H. unfold shown. cbv zeta. destruct (rev (trim_end t)) as [|c r] eqn:E; [reflexivity|].
  rewrite H; [reflexivity|]. apply trim_end_in. rewrite in_rev, E. left. reflexivity.
Qed.
Lemma shown_last pad t c : c <> 32 -> is_quote c = false -> shown pad (t ++ [c]) ENo = t ++ [c].
Proof.
  intros H Q. unfold shown. cbv zeta. rewrite trim_end_id by exact H.
  rewrite rev_app_distr. cbn [rev app]. rewrite Q. reflexivity.
Qed.
Lemma quote_not_blank q : is_quote q = true -> q <> 32.
Proof. intros H ->. discriminate. Qed.

(** A piece of a literal on a continuation line: [k] blanks, the delimiter
    and the piece. *)
Definition cont_piece (q : Z) (k : nat) (p : list Z) : list Z := repeat 32 k ++ q :: p.
Definition filled (t p : list Z) : list Z := p ++ repeat 32 (missing t).

Lemma program_pieces q post z (k : nat) pn : is_quote q = true ->
  z <> 32 -> (forall x, In x (post ++ [z]) -> is_quote x = false) ->
  ~ In q pn ->
  forall mids, Forall (fun m => ~ In q (snd m)) mids ->
  program (EIn q) (map (fun m => KCont (cont_piece q (fst m) (snd m))) mids
                   ++ [KCont (repeat 32 k ++ q :: pn ++ q :: post ++ [z])])
  = Some (concat (map (fun m => filled (cont_piece q (fst m) (snd m)) (snd m)) mids)
            ++ pn ++ q :: post ++ [z], repeat [] (S (length mids))).
Proof.
  intros Hq Hz Hpost Hpn. induction 1 as [|[j p] r Hp _ IH].
  - cbn [map app program concat length repeat]. unfold resume.
    rewrite drop_blanks_repeat by (apply quote_not_blank, Hq).
    rewrite Z.eqb_refl. cbv zeta.
    assert (E : forall f, ending_of f (Some q) (pn ++ q :: post ++ [z]) = ENo).
    { intro f. unfold ending_of. rewrite open_app, open_some_piece by exact Hpn.
      change (q :: post ++ [z]) with ([q] ++ (post ++ [z])). rewrite open_app.
      unfold open_after at 2. cbn [fold_left toggle]. rewrite Z.eqb_refl.
      rewrite open_none_noquote by exact Hpost.
      rewrite !app_assoc, rev_app_distr. cbn [rev app].
      rewrite Hpost by (apply in_or_app; right; left; reflexivity).
      rewrite andb_false_r. reflexivity. }
    rewrite E. rewrite app_nil_r.
    replace (pn ++ q :: post ++ [z]) with ((pn ++ q :: post) ++ [z]) by (rewrite <- app_assoc; reflexivity).
    rewrite shown_last; [reflexivity|exact Hz|].
    apply Hpost. apply in_or_app; right; left; reflexivity.
  - cbn [map app program fst snd] in *. unfold resume. unfold cont_piece at 1.
    rewrite drop_blanks_repeat by (apply quote_not_blank, Hq).
    rewrite Z.eqb_refl. cbv zeta.
    assert (E : forall f, ending_of f (Some q) p = EIn q)
      by (intro f; unfold ending_of; rewrite open_some_piece by exact Hp; reflexivity).
    rewrite !E. rewrite IH. cbn [concat length repeat shown]. unfold filled at 2.
    rewrite <- !app_assoc. reflexivity.
Qed.

Lemma program_literal q pre p0 post z k pn mids : is_quote q = true ->
  (forall x, In x pre -> is_quote x = false) -> ~ In q p0 ->
  z <> 32 -> (forall x, In x (post ++ [z]) -> is_quote x = false) ->
  ~ In q pn -> Forall (fun m => ~ In q (snd m)) mids ->
  program ENo (KText (pre ++ q :: p0)
    :: map (fun m => KCont (cont_piece q (fst m) (snd m))) mids
                   ++ [KCont (repeat 32 k ++ q :: pn ++ q :: post ++ [z])])
  = Some ([], (pre ++ q :: filled (pre ++ q :: p0) p0
      ++ concat (map (fun m => filled (cont_piece q (fst m) (snd m)) (snd m)) mids)
            ++ pn ++ q :: post ++ [z]) :: repeat [] (S (length mids))).
Proof.
  intros Hq Hpre Hp0 Hz Hpost Hpn Hm.
  cbn [program].
  assert (E : forall f, ending_of f None (pre ++ q :: p0) = EIn q).
  { intro f. unfold ending_of. rewrite open_app, open_none_noquote by exact Hpre.
    change (q :: p0) with ([q] ++ p0). rewrite open_app.
    unfold open_after at 2. cbn [fold_left toggle]. rewrite Hq.
    rewrite open_some_piece by exact Hp0. reflexivity. }
  cbv zeta. rewrite !E, program_pieces by assumption.
  cbn [shown]. unfold filled at 2. rewrite <- !app_assoc. cbn [app]. rewrite <- ?app_assoc. reflexivity.
Qed.

Lemma program_word t k u z : 
  (forall x, In x t -> is_quote x = false) ->
  hd z u <> 32 -> z <> 32 -> (forall x, In x (u ++ [z]) -> is_quote x = false) ->
  program ENo [KText t; KCont (repeat 32 k ++ u ++ [z])]
  = Some ([], [trim_end t ++ u ++ [z]; []]).
Proof.
  intros Ht Hu Hz Huz. cbn [program]. cbv zeta.
  assert (E : forall f x, (forall y, In y x -> is_quote y = false) -> ending_of f None x = ENo).
  { intros f x Hx. unfold ending_of. rewrite open_none_noquote by exact Hx.
    destruct (rev x) as [|c r] eqn:R; [reflexivity|]. rewrite Hx, andb_false_r; [reflexivity|].
    rewrite in_rev, R. left. reflexivity. }
  rewrite !(E _ t Ht). unfold resume.
  assert (D : drop_blanks (repeat 32 k ++ u ++ [z]) = u ++ [z]).
  { destruct u as [|c v]; cbn [hd app] in *; apply drop_blanks_repeat; assumption. }
  rewrite D. rewrite !(E _ _ Huz). rewrite shown_last; [|exact Hz|].
  - rewrite shown_noquote by exact Ht. rewrite app_nil_r. reflexivity.
  - apply Huz. apply in_or_app. right. left. reflexivity.
Qed.

(** *** Inline comments *)
Lemma find_inline_app a b : ~ has_inline a -> forall i,
  find_inline i (a ++ 42 :: 62 :: b) = Some (i + length a)%nat.
Proof.
  induction a as [|c r IH]; intros H i.
  - cbn [app length find_inline]. rewrite Nat.add_0_r. reflexivity.
  - assert (H' : ~ has_inline r).
    { intros (x & y & E). apply H. exists (c :: x), y. rewrite E. reflexivity. }
    specialize (IH H' (S i)). cbn [length]. rewrite <- Nat.add_succ_comm, <- IH.
    destruct (Z.eq_dec c 42) as [->|Nc].
    + destruct r as [|d r']; [reflexivity|].
      destruct (Z.eq_dec d 62) as [->|Nd].
      * exfalso. apply H. exists [], r'. reflexivity.
      * cbn [app find_inline]. destruct d as [|p|p]; try reflexivity.
        do 6 (try (destruct p as [p|p|]; try reflexivity)). exfalso; apply Nd; reflexivity.
    + cbn [app find_inline]. destruct c as [|p|p]; try reflexivity.
      do 6 (try (destruct p as [p|p|]; try reflexivity)). exfalso; apply Nc; reflexivity.
Qed.

(** [l'] is [l] followed by an inline comment. *)
Definition commented (l l' : list Z) : Prop :=
  l' = l \/
  ((7 <= length l)%nat /\ ~ has_inline l /\ exists b, ~ In 34 b /\ ~ In 0 b /\ l' = l ++ 42 :: 62 :: b).

Lemma existsb_in x l : existsb (Z.eqb x) l = false <-> ~ In x l.
Proof.
  split.
  - intros H K. assert (existsb (Z.eqb x) l = true); [|congruence].
    apply existsb_exists. exists x. split; [exact K|apply Z.eqb_refl].
  - intro H. destruct (existsb (Z.eqb x) l) eqn:E; [|reflexivity].
    apply existsb_exists in E. destruct E as (y & Hy & Ey). apply Z.eqb_eq in Ey. subst y. contradiction.
Qed.
Lemma do_line_commented c l l' s : commented l l' -> do_line c l' s = do_line c l s.
Proof.
  intros [->|(L & H & b & B34 & B0 & ->)]; [reflexivity|].
  unfold do_line.
  assert (E0 : existsb (Z.eqb 0) (l ++ 42 :: 62 :: b) = existsb (Z.eqb 0) l).
  { rewrite existsb_app. cbn [existsb]. change (0 =? 42) with false. change (0 =? 62) with false.
    apply existsb_in in B0. rewrite B0. cbn [orb]. apply orb_false_r. }
  rewrite E0. destruct (existsb (Z.eqb 0) l); [reflexivity|].
  assert (C : cut_inline (l ++ 42 :: 62 :: b) = l).
  { unfold cut_inline. rewrite find_inline_app by exact H. cbn [Nat.add].
    replace (7 <=? length l)%nat with true by (symmetry; apply Nat.leb_le, L).
    rewrite skipn_app, skipn_all, Nat.sub_diag. cbn [skipn app existsb].
    change (34 =? 42) with false. change (34 =? 62) with false. cbn [orb].
    apply existsb_in in B34. rewrite B34. cbn [negb andb].
    rewrite firstn_app, firstn_all, Nat.sub_diag. cbn [firstn]. apply app_nil_r. }
  rewrite C, (cut_plain l H). reflexivity.
Qed.
Lemma do_lines_commented c : forall ls ls', Forall2 commented ls ls' -> forall s,
  do_lines c ls' s = do_lines c ls s.
Proof.
  induction 1 as [|l l' ls ls' H _ IH]; intro s; [reflexivity|].
  cbn [do_lines]. rewrite (do_line_commented c l l' s H).
  destruct (do_line c l s) as [x| |]; cbn [obind]; try reflexivity.
  destruct x as [s'|o s'|]; rewrite ?IH; reflexivity.
Qed.
