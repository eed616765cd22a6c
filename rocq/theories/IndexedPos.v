(** The cursors of START, READ NEXT and READ PREVIOUS. *)
From Coq Require Import Permutation Sorted.
From Verif Require Import Base FileIO Indexed SpecIndexed IndexedDb IndexedInv.
Local Open Scope Z_scope.

Definition cent (c : option cursor) : option ent := match c with Some c => Some (c_ent c) | None => None end.

(** ** Positions: a key and the number of a duplicate *)
Definition pbefore (dup : bool) (k : list Z) (n : Z) (e : ent) : bool :=
  blt (e_key e) k || (beq (e_key e) k && (dup && (e_dup e <? n))).
Definition pafter (dup : bool) (k : list Z) (n : Z) (e : ent) : bool :=
  blt k (e_key e) || (beq (e_key e) k && (dup && (n <? e_dup e))).
Definition pat (dup : bool) (k : list Z) (n : Z) (e : ent) : bool :=
  beq (e_key e) k && (negb dup || (e_dup e =? n)).

Lemma pcases dup k n e :
  (pbefore dup k n e = true /\ pat dup k n e = false /\ pafter dup k n e = false) \/
  (pbefore dup k n e = false /\ pat dup k n e = true /\ pafter dup k n e = false) \/
  (pbefore dup k n e = false /\ pat dup k n e = false /\ pafter dup k n e = true).
Proof.
  unfold pbefore, pafter, pat.
  destruct (blt_total (e_key e) k) as [L|[L|L]].
  - assert (N := blt_neq _ _ L). rewrite L, (blt_asym _ _ L), (proj2 (beq_false _ _) N). cbn. auto.
  - rewrite L, beq_refl, blt_irrefl. cbn [orb andb]. destruct dup; cbn [negb orb andb]; auto.
    destruct (Z.ltb_spec (e_dup e) n), (Z.eqb_spec (e_dup e) n), (Z.ltb_spec n (e_dup e)); try lia; auto.
  - assert (N := blt_neq _ _ L).
    assert (N' : beq (e_key e) k = false) by (apply beq_false; congruence).
    rewrite L, (blt_asym _ _ L), N'. cbn. auto.
Qed.

Lemma elt_at dup k n e x : pat dup k n e = true -> elt dup e x = pafter dup k n x.
Proof.
  unfold pat, elt, pafter. intro H. apply andb_true_iff in H as [H1 H2]. apply beq_true in H1. rewrite H1, (beq_sym k (e_key x)).
  destruct dup; cbn [negb orb andb] in *; auto. apply Z.eqb_eq in H2. now rewrite H2.
Qed.
Lemma elt_before dup k n e x : elt dup e x = true -> pbefore dup k n x = true -> pbefore dup k n e = true.
Proof.
  unfold elt, pbefore. intros A B. apply orb_true_iff in A, B. apply orb_true_iff.
  destruct A as [A|A], B as [B|B].
  - left. eapply blt_trans; eauto.
  - apply andb_true_iff in B as [B _]. apply beq_true in B. left. congruence.
  - apply andb_true_iff in A as [A _]. apply beq_true in A. left. congruence.
  - apply andb_true_iff in A as [A A2]. apply beq_true in A. apply andb_true_iff in A2 as [D A2].
    apply andb_true_iff in B as [B B2]. apply beq_true in B. apply andb_true_iff in B2 as [_ B2].
    right. rewrite A, B, beq_refl, D. cbn [andb]. apply Z.ltb_lt in A2, B2. apply Z.ltb_lt. lia.
Qed.
Lemma elt_after dup k n e x : elt dup e x = true -> pafter dup k n e = true -> pafter dup k n x = true.
Proof.
  unfold elt, pafter. intros A B. apply orb_true_iff in A, B. apply orb_true_iff.
  destruct A as [A|A], B as [B|B].
  - left. eapply blt_trans; eauto.
  - apply andb_true_iff in B as [B _]. apply beq_true in B. left. congruence.
  - apply andb_true_iff in A as [A _]. apply beq_true in A. left. congruence.
  - apply andb_true_iff in A as [A A2]. apply beq_true in A. apply andb_true_iff in A2 as [D A2].
    apply andb_true_iff in B as [B B2]. apply beq_true in B. apply andb_true_iff in B2 as [_ B2].
    right. rewrite <- A, B, beq_refl, D. cbn [andb]. apply Z.ltb_lt in A2, B2. apply Z.ltb_lt. lia.
Qed.

Lemma find_hd {A} (q : A -> bool) l : Forall (fun x => q x = true) l -> find q l = hd_error l.
Proof. destruct 1 as [|x l Q _]; cbn; auto. now rewrite Q. Qed.
Lemma find_app {A} (q : A -> bool) a b : Forall (fun x => q x = false) a -> find q (a ++ b) = find q b.
Proof. induction 1 as [|x a Q _ IH]; cbn; auto. now rewrite Q. Qed.

Lemma split_pos dup k n A x B : esorted dup (A ++ x :: B) ->
  Forall (fun e => pbefore dup k n e = true) A -> pbefore dup k n x = false ->
  find (pafter dup k n) (A ++ x :: B) = (if pat dup k n x then hd_error B else Some x) /\
  find (pbefore dup k n) (rev (A ++ x :: B)) = hd_error (rev A) /\
  find (pat dup k n) (A ++ x :: B) = (if pat dup k n x then Some x else None).
Proof.
  intros S FA NX. apply ss_app in S as (_ & S & _). inversion S as [|? ? S' F]; subst.
  assert (FA' : Forall (fun e => pafter dup k n e = false) A).
  { eapply Forall_impl; [|exact FA]. cbn. intros e E. destruct (pcases dup k n e) as [(P1 & P2 & P3)|[(P1 & P2 & P3)|(P1 & P2 & P3)]]; congruence. }
  assert (FA2 : Forall (fun e => pat dup k n e = false) A).
  { eapply Forall_impl; [|exact FA]. cbn. intros e E. destruct (pcases dup k n e) as [(P1 & P2 & P3)|[(P1 & P2 & P3)|(P1 & P2 & P3)]]; congruence. }
  assert (FB : Forall (fun e => pafter dup k n e = true) B).
  { eapply Forall_impl; [|exact F]. cbn. intros e E.
    destruct (pcases dup k n x) as [(P1 & P2 & P3)|[(P1 & P2 & P3)|(P1 & P2 & P3)]]; try congruence.
    - now rewrite (elt_at dup k n x e P2) in E.
    - eapply elt_after; eauto. }
  split; [|split].
  - rewrite find_app by auto. cbn [find].
    destruct (pcases dup k n x) as [(P1 & P2 & P3)|[(P1 & P2 & P3)|(P1 & P2 & P3)]]; try congruence; rewrite P2, P3; auto.
    now apply find_hd.
  - rewrite rev_app_distr. cbn [rev]. rewrite <- app_assoc, find_app.
    + cbn [app find]. rewrite NX. apply find_hd. now apply Forall_rev.
    + apply Forall_rev. eapply Forall_impl; [|exact FB]. cbn. intros e E.
      destruct (pcases dup k n e) as [(P1 & P2 & P3)|[(P1 & P2 & P3)|(P1 & P2 & P3)]]; congruence.
  - rewrite find_app by auto. cbn [find]. destruct (pat dup k n x) eqn:Q; auto.
    apply find_none_all. eapply Forall_impl; [|exact FB]. cbn. intros e E.
    destruct (pcases dup k n e) as [(P1 & P2 & P3)|[(P1 & P2 & P3)|(P1 & P2 & P3)]]; congruence.
Qed.
Lemma all_before dup k n l : Forall (fun e => pbefore dup k n e = true) l ->
  find (pafter dup k n) l = None /\ find (pbefore dup k n) (rev l) = hd_error (rev l) /\
  find (pat dup k n) l = None.
Proof.
  intro F. split; [|split].
  - apply find_none_all. eapply Forall_impl; [|exact F]. cbn. intros e E.
    destruct (pcases dup k n e) as [(P1 & P2 & P3)|[(P1 & P2 & P3)|(P1 & P2 & P3)]]; congruence.
  - apply find_hd. now apply Forall_rev.
  - apply find_none_all. eapply Forall_impl; [|exact F]. cbn. intros e E.
    destruct (pcases dup k n e) as [(P1 & P2 & P3)|[(P1 & P2 & P3)|(P1 & P2 & P3)]]; congruence.
Qed.

Lemma skip_dup_spec k n pre e post :
  match skip_dup k n pre e post with
  | (Some c, met) => exists a x B, e :: post = a ++ x :: B /\ c = (rev a ++ pre, x, B) /\ met = c /\
      Forall (fun y => pbefore true k n y = true) a /\ (beq (e_key x) k && (e_dup x <? n)) = false
  | (None, met) => Forall (fun y => pbefore true k n y = true) (e :: post) /\ In (c_ent met) (e :: post)
  end.
Proof.
  revert pre e; induction post as [|y post IH]; intros pre e; cbn [skip_dup];
    destruct (beq (e_key e) k && (e_dup e <? n)) eqn:Q;
    try (exists [], e; eexists; cbn; auto 10; fail).
  - split; [|left; auto]. constructor; [|constructor]. unfold pbefore. cbn [andb]. now rewrite Q, orb_true_r.
  - assert (QB : pbefore true k n e = true) by (unfold pbefore; cbn [andb]; rewrite Q, orb_true_r; auto).
    specialize (IH (e :: pre) y). destruct (skip_dup k n (e :: pre) y post) as [[c|] met].
    + destruct IH as (a & x & B & E & -> & -> & F & N). exists (e :: a), x, B. rewrite E. cbn [rev app].
      rewrite <- app_assoc. auto 10.
    + destruct IH as [F I]. split; [constructor; auto|right; auto].
Qed.

(** ** READ NEXT and READ PREVIOUS *)
Lemma c_prev_hd A x B : cent (c_prev (rev A, x, B)) = hd_error (rev A).
Proof. unfold c_prev. destruct (rev A); reflexivity. Qed.
Lemma c_next_hd A x B : cent (c_next (A, x, B)) = hd_error B.
Proof. unfold c_next. destruct B; reflexivity. Qed.
Lemma db_last_hd l : cent (db_last l) = hd_error (rev l).
Proof. unfold db_last. destruct (rev l); reflexivity. Qed.

Lemma next_cursor_spec d p : let i := p_ki p in
  (i = 0%nat -> k_dup (key_spec d i) = false) ->
  esorted (k_dup (key_spec d i)) (the_db p i) ->
  let dup := k_dup (key_spec d i) in
  let k := nth i (p_lrk p) [] in
  let n := nth i (p_ldup p) 0 in
  cent (next_cursor d p DNext) = find (pafter dup k n) (the_db p i) /\
  cent (next_cursor d p DPrev) = find (pbefore dup k n) (rev (the_db p i)).
Proof.
  intros i D0 S dup k n. unfold next_cursor. fold i. fold k. fold n.
  set (l := the_db p i) in *.
  assert (DD : negb (i =? 0)%nat && k_dup (key_spec d i) = dup).
  { unfold dup. destruct (Nat.eqb_spec i 0) as [X|X]; cbn [negb andb]; auto. symmetry. auto. }
  rewrite DD. clear DD D0. fold dup in S. clearbody dup k n l. clear i p d.
  destruct (db_set_range k l) as [c|] eqn:Q.
  - apply set_range_some in Q as (a & e & post & E & -> & Fa & Le). rewrite E in *. clear l E.
    assert (FA : Forall (fun x => pbefore dup k n x = true) a).
    { eapply Forall_impl; [|exact Fa]. cbn. intros x X. unfold pbefore. now rewrite X. }
    destruct (beq_spec (e_key e) k) as [Ek|Ek].
    + destruct dup eqn:DU.
      * assert (SK := skip_dup_spec k n (rev a) e post).
        destruct (skip_dup k n (rev a) e post) as [[c|] met].
        { destruct SK as (a' & x & B & E & -> & _ & F & N).
          rewrite E in *. rewrite app_assoc in *. rewrite <- rev_app_distr.
          assert (NB : pbefore true k n x = false).
          { unfold pbefore. cbn [andb]. rewrite N, orb_false_r.
            assert (X : In x (e :: post)) by (rewrite E; apply in_or_app; right; left; auto).
            destruct X as [<-|X]; auto.
            rewrite <- app_assoc, <- E in S. apply ss_app in S as (_ & S & _). inversion S as [|? ? _ FF]; subst.
            rewrite Forall_forall in FF. specialize (FF x X). apply elt_key in FF. exact FF. }
          destruct (split_pos true k n (a ++ a') x B) as (R1 & R2 & _); auto.
          { apply Forall_app. auto. }
          change (c_ent (rev (a ++ a'), x, B)) with x.
          change (beq (e_key x) k && (e_dup x =? n)) with (pat true k n x).
          rewrite R1, R2. split.
          - destruct (pat true k n x); [apply c_next_hd|reflexivity].
          - destruct (pat true k n x); apply c_prev_hd. }
        { destruct SK as [F _]. destruct (all_before true k n (a ++ e :: post)) as (R1 & R2 & _).
          { apply Forall_app. auto. }
          rewrite R1, R2. split; [reflexivity|apply db_last_hd]. }
      * assert (PA : pat false k n e = true) by (unfold pat; rewrite Ek, beq_refl; auto).
        assert (NB : pbefore false k n e = false).
        { destruct (pcases false k n e) as [(P1 & P2 & P3)|[(P1 & P2 & P3)|(P1 & P2 & P3)]]; congruence. }
        destruct (split_pos false k n a e post) as (R1 & R2 & _); auto.
        rewrite R1, R2, PA. split; [apply c_next_hd|apply c_prev_hd].
    + assert (PA : pat dup k n e = false) by (unfold pat; rewrite (proj2 (beq_false _ _) Ek); auto).
      assert (NB : pbefore dup k n e = false).
      { unfold pbefore. rewrite Le, (proj2 (beq_false _ _) Ek). auto. }
      destruct (split_pos dup k n a e post) as (R1 & R2 & _); auto.
      rewrite R1, R2, PA. split; [reflexivity|apply c_prev_hd].
  - apply set_range_none in Q.
    destruct (all_before dup k n l) as (R1 & R2 & _).
    { eapply Forall_impl; [|exact Q]. cbn. intros x X. unfold pbefore. now rewrite X. }
    rewrite R1, R2. split; [reflexivity|apply db_last_hd].
Qed.

(** ** START *)
Definition epick (c : cond) (kv : list Z) (l : db) : option ent :=
  find (fun e => start_rel c (e_key e) kv) (match c with LT | LE => rev l | _ => l end).

Lemma skip_eq_spec kv pre e post :
  match skip_eq kv pre e post with
  | (Some c, met) => exists a x B, e :: post = a ++ x :: B /\ c = (rev a ++ pre, x, B) /\ met = c /\
      Forall (fun y => starts (e_key y) kv = true) a /\ starts (e_key x) kv = false
  | (None, met) => Forall (fun y => starts (e_key y) kv = true) (e :: post) /\ In (c_ent met) (e :: post)
  end.
Proof.
  revert pre e; induction post as [|y post IH]; intros pre e; cbn [skip_eq];
    destruct (starts (e_key e) kv) eqn:Q;
    try (exists [], e; eexists; cbn; auto 10; fail).
  - split; [|left; auto]. constructor; auto.
  - specialize (IH (e :: pre) y). destruct (skip_eq kv (e :: pre) y post) as [[c|] met].
    + destruct IH as (a & x & B & E & -> & -> & F & N). exists (e :: a), x, B. rewrite E. cbn [rev app].
      rewrite <- app_assoc. auto 10.
    + destruct IH as [F I]. split; [constructor; auto|right; auto].
Qed.

Lemma range_prefix dup kv l : esorted dup l -> Forall (fun e => (length kv <= length (e_key e))%nat) l ->
  match db_set_range kv l with
  | Some c => exists a e post, l = a ++ e :: post /\ c = (rev a, e, post) /\
      Forall (fun x => blt (firstn (length kv) (e_key x)) kv = true) a /\
      Forall (fun x => blt (firstn (length kv) (e_key x)) kv = false) (e :: post)
  | None => Forall (fun x => blt (firstn (length kv) (e_key x)) kv = true) l
  end.
Proof.
  intros S L. destruct (db_set_range kv l) as [c|] eqn:Q.
  - apply set_range_some in Q as (a & e & post & -> & -> & Fa & Le).
    exists a, e, post. split; auto. split; auto. apply Forall_app in L as [La Lp]. split.
    + apply Forall_forall. intros x X. rewrite Forall_forall in Fa, La. rewrite <- bcmp_prefix by auto. auto.
    + apply Forall_forall. intros x X. rewrite Forall_forall in Lp. rewrite <- bcmp_prefix by auto.
      destruct X as [<-|X]; auto. apply ss_app in S as (_ & S & _). inversion S as [|? ? _ F]; subst.
      rewrite Forall_forall in F. specialize (F x X). apply elt_key in F. eapply blt_false_trans; eauto.
  - apply set_range_none in Q. apply Forall_forall. intros x X. rewrite Forall_forall in Q, L.
    rewrite <- bcmp_prefix by auto. auto.
Qed.

Lemma start_cursor_spec dup kv l c : esorted dup l -> Forall (fun e => (length kv <= length (e_key e))%nat) l ->
  (c = LE -> Forall (fun e => length (e_key e) = length kv) l) ->
  cent (fst (start_cursor l dup c kv)) = epick c kv l /\
  (forall x, fst (start_cursor l dup c kv) = Some x -> snd (start_cursor l dup c kv) = Some x).
Proof.
  intros S L LL. assert (R := range_prefix dup kv l S L). unfold epick, start_rel, start_cursor, starts.
  set (P := fun e => firstn (length kv) (e_key e)).
  assert (MONO : forall a e post, l = a ++ e :: post -> Forall (fun x => blt (P x) (P e) = false) post).
  { intros a e post ->. apply ss_app in S as (_ & S & _). inversion S as [|? ? _ F]; subst.
    eapply Forall_impl; [|exact F]. cbn. intros x X. apply elt_key in X. unfold P. now apply firstn_mono. }
  destruct (db_set_range kv l) as [r|] eqn:Q.
  - destruct R as (a & e & post & E & -> & Fa & Fp). fold (P e) in *.
    assert (Mp := MONO a e post E).
    inversion Fp as [|? ? Pe Fp']; subst. fold (P e) in Pe. change (c_ent (rev a, e, post)) with e.
    destruct c.
    + (* EQ *) cbn [fst snd]. fold (P e). destruct (beq (P e) kv) eqn:B.
      * split; [|auto]. cbn [cent c_ent fst snd]. symmetry. apply find_split; auto.
        eapply Forall_impl; [|exact Fa]. cbn. intros x X. apply beq_false. now apply blt_neq.
      * split; [|discriminate]. symmetry. apply find_none_all. apply Forall_app. split.
        { eapply Forall_impl; [|exact Fa]. cbn. intros x X. apply beq_false. now apply blt_neq. }
        constructor; auto. eapply Forall_impl; [|exact Mp]. cbn. intros x X. apply beq_false. intro Y.
        fold (P x) in Y. apply beq_false in B. destruct (blt_total (P e) kv) as [Z|[Z|Z]]; try congruence.
    + (* LT *) split; [|intros x X; cbn [fst snd] in *; rewrite X; auto].
      cbn [fst]. rewrite c_prev_hd, rev_app_distr. cbn [rev]. rewrite <- app_assoc, find_app.
      * cbn [app find]. fold (P e). rewrite Pe. symmetry. apply find_hd. apply Forall_rev. exact Fa.
      * apply Forall_rev. exact Fp'.
    + (* LE *) fold (P e). specialize (LL eq_refl).
      assert (PK : forall x, In x (a ++ e :: post) -> P x = e_key x).
      { intros x X. unfold P. rewrite Forall_forall in LL. rewrite <- (LL x X). apply firstn_all. }
      assert (FA2 : Forall (fun x => negb (blt kv (P x)) = true) a).
      { eapply Forall_impl; [|exact Fa]. cbn. intros x X. apply negb_true_iff. now apply blt_asym. }
      destruct (beq_spec (P e) kv) as [B|B]; cbn [negb].
      * destruct dup eqn:DU.
        { destruct (c_next_nodup (rev a, e, post)) as [y|] eqn:ND.
          - unfold c_next_nodup in ND. apply db_find_some in ND as (a' & y' & post' & -> & -> & F' & N').
            assert (X : rev a' ++ e :: rev a = rev (a ++ e :: a')).
            { rewrite rev_app_distr. cbn [rev]. now rewrite <- app_assoc. }
            rewrite X. split; [|intros z Z; cbn [fst snd] in *; rewrite Z; auto].
            cbn [fst]. rewrite c_prev_hd.
            assert (E2 : a ++ e :: a' ++ y' :: post' = (a ++ e :: a') ++ y' :: post') by (rewrite <- app_assoc; auto).
            rewrite E2, (rev_app_distr (a ++ e :: a')). cbn [rev]. rewrite <- app_assoc, find_app.
            + cbn [app find]. fold (P y').
              assert (GY : blt kv (P y') = true).
              { apply negb_true_iff, beq_false in N'. apply Forall_app in Mp as [_ Mp]. apply Forall_inv in Mp.
                rewrite (PK y') in * by (rewrite E2; apply in_or_app; right; left; auto).
                rewrite (PK e) in * by (apply in_or_app; right; left; auto).
                destruct (blt_total (e_key e) (e_key y')) as [Z|[Z|Z]]; congruence. }
              rewrite GY. cbn [negb]. symmetry. apply find_hd. apply Forall_rev. apply Forall_app. split; auto.
              constructor; [apply negb_true_iff; fold (P e); rewrite B; apply blt_irrefl|].
              apply Forall_forall. intros x X2. apply negb_true_iff. rewrite Forall_forall in F'. specialize (F' x X2).
              apply negb_false_iff, beq_true in F'.
              assert (XE : firstn (length kv) (e_key x) = kv) by (rewrite F'; exact B). rewrite XE. apply blt_irrefl.
            + apply Forall_rev. assert (My := MONO (a ++ e :: a') y' post' E2).
              apply Forall_forall. intros x X2. apply negb_false_iff.
              rewrite Forall_forall in My. specialize (My x X2).
              apply negb_true_iff, beq_false in N'. apply Forall_app in Mp as [_ Mp]. apply Forall_inv in Mp.
              assert (G2 : blt (P e) (P y') = true).
              { rewrite (PK y') in * by (rewrite E2; apply in_or_app; right; left; auto).
                rewrite (PK e) in * by (apply in_or_app; right; left; auto).
                destruct (blt_total (e_key e) (e_key y')) as [Z|[Z|Z]]; congruence. }
              assert (G3 : blt kv (P y') = true) by (rewrite B in G2; exact G2). eapply blt_le_trans; eauto.
          - unfold c_next_nodup in ND. apply db_find_none in ND.
            split; [|intros z Z; exact Z]. cbn [fst]. rewrite db_last_hd. symmetry. apply find_hd. apply Forall_rev.
            apply Forall_app. split; auto. constructor; [apply negb_true_iff; fold (P e); rewrite B; apply blt_irrefl|].
            apply Forall_forall. intros x X2. apply negb_true_iff. rewrite Forall_forall in ND. specialize (ND x X2).
            apply negb_false_iff, beq_true in ND.
            assert (XE : firstn (length kv) (e_key x) = kv) by (rewrite ND; exact B). rewrite XE. apply blt_irrefl. }
        { split; [|auto]. cbn [fst cent c_ent snd]. rewrite rev_app_distr. cbn [rev]. rewrite <- app_assoc, find_app.
          - cbn [app find]. fold (P e). rewrite B, blt_irrefl. reflexivity.
          - apply Forall_rev. apply Forall_forall. intros x X. apply negb_false_iff. fold (P x).
            destruct (psorted_split _ _ _ S) as [_ Sp]. rewrite Forall_forall in Sp. specialize (Sp x X).
            assert (IE : In e (a ++ e :: post)) by (apply in_or_app; right; left; auto).
            assert (IX : In x (a ++ e :: post)) by (apply in_or_app; right; right; auto).
            rewrite <- (PK e IE), <- (PK x IX), B in Sp. exact Sp. }
      * split; [|intros x X; cbn [fst snd] in *; rewrite X; auto].
        cbn [fst]. rewrite c_prev_hd, rev_app_distr. cbn [rev]. rewrite <- app_assoc, find_app.
        { cbn [app find]. fold (P e).
          assert (GE : blt kv (P e) = true) by (destruct (blt_total (P e) kv) as [Z|[Z|Z]]; congruence).
          rewrite GE. cbn [negb]. symmetry. apply find_hd. apply Forall_rev. exact FA2. }
        { apply Forall_rev. eapply Forall_impl; [|exact Mp]. cbn. intros x X. apply negb_false_iff.
          assert (GE : blt kv (P e) = true) by (destruct (blt_total (P e) kv) as [Z|[Z|Z]]; congruence).
          eapply blt_le_trans; eauto. }
    + (* GT *) assert (SK := skip_eq_spec kv (rev a) e post).
      assert (FA2 : Forall (fun x => blt kv (P x) = false) a).
      { eapply Forall_impl; [|exact Fa]. cbn. intros x X. now apply blt_asym. }
      destruct (skip_eq kv (rev a) e post) as [[c|] met].
      * destruct SK as (a' & x & B & E & -> & -> & F & N). cbn [fst snd]. split; [|intros z Z; exact Z].
        rewrite E. cbn [cent c_ent fst snd]. symmetry. rewrite app_assoc. apply find_split.
        { apply Forall_app. split; auto. eapply Forall_impl; [|exact F]. cbn. intros y Y. unfold starts in Y. apply beq_true in Y.
          rewrite Y. apply blt_irrefl. }
        unfold starts in N. apply beq_false in N.
        assert (X : blt (P x) kv = false).
        { rewrite Forall_forall in Fp. apply Fp. rewrite E. apply in_or_app; right; left; auto. }
        fold (P x). fold (P x) in N. destruct (blt_total (P x) kv) as [Z|[Z|Z]]; congruence.
      * destruct SK as [F _]. cbn [fst snd]. split; [|discriminate]. symmetry. apply find_none_all. apply Forall_app. split; auto.
        eapply Forall_impl; [|exact F]. cbn. intros y Y. unfold starts in Y. apply beq_true in Y.
        rewrite Y. apply blt_irrefl.
    + (* GE *) cbn [fst snd]. split; [|auto]. cbn [cent c_ent fst snd]. symmetry. apply find_split.
      * eapply Forall_impl; [|exact Fa]. cbn. intros x X. rewrite X. reflexivity.
      * fold (P e). rewrite Pe. reflexivity.
  - assert (FA2 : Forall (fun x => blt kv (P x) = false) l).
    { eapply Forall_impl; [|exact R]. cbn. intros x X. now apply blt_asym. }
    destruct c; cbn [fst snd].
    + split; [|discriminate]. symmetry. apply find_none_all. eapply Forall_impl; [|exact R]. cbn. intros x X.
      apply beq_false. now apply blt_neq.
    + split; [|auto]. rewrite db_last_hd. symmetry. apply find_hd. apply Forall_rev. exact R.
    + split; [|auto]. rewrite db_last_hd. symmetry. apply find_hd. apply Forall_rev.
      eapply Forall_impl; [|exact FA2]. cbn. intros x X. unfold P in X. now rewrite X.
    + split; [|discriminate]. symmetry. apply find_none_all. exact FA2.
    + split; [|discriminate]. symmetry. apply find_none_all. eapply Forall_impl; [|exact R]. cbn. intros x X. now rewrite X.
Qed.
