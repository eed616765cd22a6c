(** Proofs about the work files of FileSort. *)
From Coq Require Import Sorting.Permutation Sorting.Sorted.
From Verif Require Import Base Field SpecNum SpecCmp Compare MoveAll SpecSort CmpMore Numeric Stdio StdioProofs FileIO FileSort SpecFileSort SortProofs.

(** What is left to read, and what has been written. *)
Definition rest_of (s : stream) : list Z := skipn (s_pos s) (s_bytes s).
Definition done_of (s : stream) : list Z := firstn (s_pos s) (s_bytes s).
Definition wok (s : stream) : Prop := s_append s = false /\ (s_pos s <= length (s_bytes s))%nat.

Lemma skipn_skipn' : forall {A} (l : list A) a b, skipn a (skipn b l) = skipn (b + a) l.
Proof. intros A l a b. revert l. induction b as [|b IH]; intros l; cbn [skipn Nat.add]; auto. destruct l; [now rewrite !skipn_nil|]. apply IH. Qed.
Lemma rest_set : forall s n, rest_of (set_pos s (s_pos s + n)) = skipn n (rest_of s).
Proof. intros. unfold rest_of. cbn [set_pos s_pos s_bytes]. now rewrite skipn_skipn'. Qed.

Lemma fwrite_done : forall s bs, wok s -> wok (fwrite s bs) /\ done_of (fwrite s bs) = done_of s ++ bs.
Proof.
  intros s bs [A P]. unfold fwrite. destruct bs as [|b bs]; [rewrite app_nil_r; unfold wok; auto|]. rewrite A.
  set (y := b :: bs). unfold wok, done_of. cbn [s_append s_pos s_bytes]. unfold write_at.
  replace (s_pos s - length (s_bytes s))%nat with 0%nat by lia. cbn [repeat app].
  assert (L : length (firstn (s_pos s) (s_bytes s)) = s_pos s) by (rewrite firstn_length; lia).
  split; [split; auto|].
  - rewrite !app_length, L. lia.
  - rewrite app_assoc. replace (s_pos s + length y)%nat with (length (firstn (s_pos s) (s_bytes s) ++ y)) by (rewrite app_length; lia). apply firstn_app_exact.
Qed.

Section Files.
Variable K : sortkeys.
Variable size : nat.
Let good := good K size.
Let R := R K.

Definition ib (x : sitem) : list Z := item_bytes (it_unique x) (it_data x).
Definition fblk (l : list sitem) : list Z := flat_map ib l ++ [1].

Lemma ib_length : forall x, good x -> length (ib x) = (9 + size)%nat.
Proof. intros x [[L _] _]. unfold ib, item_bytes. cbn [length]. rewrite app_length, le_enc_length, L. lia. Qed.

Definition hold (x : sitem) : held := Some (it_unique x, it_data x).

Lemma read_item_ok : forall s x r, good x -> rest_of s = ib x ++ r ->
  exists s', read_item size s = Some (hold x, s') /\ rest_of s' = r /\ s_bytes s' = s_bytes s /\ s_append s' = s_append s.
Proof.
  intros s x r G E. pose proof (ib_length x G) as LI. unfold ib, item_bytes in E, LI. unfold read_item, getc. fold (rest_of s). rewrite E. cbn [app].
  unfold fread. cbn [set_pos s_pos s_bytes].
  assert (E2 : skipn (S (s_pos s)) (s_bytes s) = (le_enc 8 (it_unique x) ++ it_data x) ++ r).
  { replace (S (s_pos s)) with (s_pos s + 1)%nat by lia. rewrite <- skipn_skipn'. fold (rest_of s). rewrite E. reflexivity. }
  rewrite E2. destruct G as [[L _] U].
  assert (L8 : length (le_enc 8 (it_unique x) ++ it_data x) = (8 + size)%nat) by (rewrite app_length, le_enc_length, L; reflexivity).
  assert (FX : firstn (8 + size) ((le_enc 8 (it_unique x) ++ it_data x) ++ r) = le_enc 8 (it_unique x) ++ it_data x) by (rewrite <- L8; apply firstn_app_exact).
  rewrite FX, L8, Nat.eqb_refl. eexists. split; [|split; [|split]].
  - unfold hold. assert (F8 : firstn 8 (le_enc 8 (it_unique x) ++ it_data x) = le_enc 8 (it_unique x)) by exact (firstn_app_exact (le_enc 8 (it_unique x)) (it_data x)).
    assert (S8 : skipn 8 (le_enc 8 (it_unique x) ++ it_data x) = it_data x) by exact (skipn_app_exact (le_enc 8 (it_unique x)) (it_data x)). rewrite F8, S8.
    rewrite le_dec_enc by (change (256 ^ Z.of_nat 8) with (2 ^ 64); exact U). reflexivity.
  - unfold rest_of. cbn [set_pos s_pos s_bytes]. rewrite <- skipn_skipn'. rewrite E2, <- L8, skipn_app_exact. reflexivity.
  - reflexivity.
  - reflexivity.
Qed.
Lemma read_end : forall s r, rest_of s = 1 :: r -> exists s', read_item size s = Some (None, s') /\ rest_of s' = r /\ s_bytes s' = s_bytes s /\ s_append s' = s_append s.
Proof.
  intros s r E. unfold read_item, getc. fold (rest_of s). rewrite E. eexists. split; [reflexivity|]. split; [|split; reflexivity].
  replace (S (s_pos s)) with (s_pos s + 1)%nat by lia. rewrite rest_set, E. reflexivity.
Qed.
Lemma read_block : forall s xs r, Forall good xs -> rest_of s = fblk xs ++ r ->
  exists h s', read_item size s = Some (h, s') /\ s_bytes s' = s_bytes s /\ s_append s' = s_append s /\
    match xs with [] => h = None /\ rest_of s' = r | x :: xs' => h = hold x /\ rest_of s' = fblk xs' ++ r end.
Proof.
  intros s xs r F E. destruct xs as [|x xs].
  - destruct (read_end s r E) as (s' & A & B & C & D). exists None, s'. auto.
  - inversion F as [|? ? G F']; subst. unfold fblk in E. cbn [flat_map] in E. rewrite <- !app_assoc in E.
    destruct (read_item_ok s x _ G E) as (s' & A & B & C & D). exists (hold x), s'. repeat (split; auto). unfold fblk. rewrite <- app_assoc. auto.
Qed.

(** The state of a source while merging: the item held and the stream. *)
Definition src (xs : list sitem) (r : list Z) (h : held) (s : stream) : Prop :=
  match xs with [] => h = None /\ rest_of s = r | x :: xs' => h = hold x /\ rest_of s = fblk xs' ++ r end.
Lemma src_next : forall (x : sitem) xs r s, Forall good xs -> rest_of s = fblk xs ++ r -> exists h s', read_item size s = Some (h, s') /\ s_bytes s' = s_bytes s /\ s_append s' = s_append s /\ src xs r h s'.
Proof. intros x xs r s F E. exact (read_block s xs r F E). Qed.
Lemma src_bound : forall xs r h s, src xs r h s -> (length xs <= length (s_bytes s))%nat.
Proof.
  intros xs r h s S. assert (B : (length (rest_of s) <= length (s_bytes s))%nat) by (unfold rest_of; rewrite skipn_length; lia).
  destruct xs as [|x xs]; [cbn; lia|]. destruct S as [_ S]. rewrite S, app_length in B. unfold fblk in B. rewrite app_length in B. cbn [length] in *.
  assert (X : (length xs <= length (flat_map ib xs))%nat).
  { clear. induction xs as [|y xs IH]; [cbn; lia|]. cbn [flat_map length]. rewrite app_length. unfold ib at 1, item_bytes. cbn [length]. lia. }
  lia.
Qed.

Lemma gf_hold : forall x y, goes_first K (mkItm 0 (fst (it_unique x, it_data x)) (snd (it_unique x, it_data x))) (mkItm 0 (fst (it_unique y, it_data y)) (snd (it_unique y, it_data y))) = goes_first K x y.
Proof. intros [n u d] [m v e]. reflexivity. Qed.

Lemma merge_files_ok : forall fuel xs ys ra rb ha hb a b d,
  (length xs + length ys <= fuel)%nat -> StronglySorted R xs -> StronglySorted R ys -> Forall good xs -> Forall good ys -> distinct (xs ++ ys) ->
  src xs ra ha (w_str a) -> src ys rb hb (w_str b) -> wok (w_str d) ->
  exists zs a' b' d', merge_files fuel K size a b ha hb d = Ok (Some (a', b', d')) /\
    Permutation zs (xs ++ ys) /\ StronglySorted R zs /\
    rest_of (w_str a') = ra /\ rest_of (w_str b') = rb /\ w_count a' = w_count a /\ w_count b' = w_count b /\ w_count d' = w_count d /\
    s_append (w_str a') = s_append (w_str a) /\ s_append (w_str b') = s_append (w_str b) /\
    wok (w_str d') /\ done_of (w_str d') = done_of (w_str d) ++ flat_map ib zs.
Proof.
  induction fuel as [|fuel IH]; intros xs ys ra rb ha hb a b d L SX SY GX GY D HA HB WD.
  - destruct xs, ys; cbn [length] in L; try lia. destruct HA as [-> HA], HB as [-> HB]. exists [], a, b, d.
    split; [reflexivity|]. cbn [flat_map]. repeat (split; [solve [auto | constructor]|]). symmetry. apply app_nil_r.
  - destruct xs as [|x xs], ys as [|y ys].
    + destruct HA as [-> HA], HB as [-> HB]. exists [], a, b, d.
      split; [reflexivity|]. cbn [flat_map]. repeat (split; [solve [auto | constructor]|]). symmetry. apply app_nil_r.
    + destruct HA as [-> HA], HB as [-> HB]. cbn [app] in D. destruct (StronglySorted_tl _ _ _ SY) as [SY' FY]. inversion GY as [|? ? G1 G2]; subst.
      destruct (src_next y ys rb (w_str b) G2 HB) as (h & s' & ER & EB & EA & SR).
      destruct (fwrite_done (w_str d) (ib y) WD) as [WD' DD].
      destruct (IH [] ys (rest_of (w_str a)) rb None h a (mkW s' (w_count b)) (wf_write d (ib y))) as (zs & a' & b' & d' & E & P & S & R1 & R2 & C1 & C2 & C3 & A1 & A2 & W & DN); auto.
      { cbn [length] in *. lia. }
      { exact (distinct_cons _ _ D). }
      { split; reflexivity. }
      exists (y :: zs), a', b', d'. split.
      { cbn [merge_files hold obind]. change (item_bytes (it_unique y) (it_data y)) with (ib y). rewrite ER. exact E. }
      cbn [app] in *. split; [constructor; exact P|]. split; [constructor; auto; eapply Permutation_Forall; [apply Permutation_sym; exact P|exact FY]|].
      cbn [w_count w_str wf_write] in *. repeat (split; [solve [auto | congruence]|]). cbn [flat_map]. rewrite DN, DD, <- app_assoc. reflexivity.
    + destruct HA as [-> HA], HB as [-> HB]. rewrite app_nil_r in D. destruct (StronglySorted_tl _ _ _ SX) as [SX' FX]. inversion GX as [|? ? G1 G2]; subst.
      destruct (src_next x xs ra (w_str a) G2 HA) as (h & s' & ER & EB & EA & SR).
      destruct (fwrite_done (w_str d) (ib x) WD) as [WD' DD].
      destruct (IH xs [] ra (rest_of (w_str b)) h None (mkW s' (w_count a)) b (wf_write d (ib x))) as (zs & a' & b' & d' & E & P & S & R1 & R2 & C1 & C2 & C3 & A1 & A2 & W & DN); auto.
      { cbn [length] in *. lia. }
      { rewrite app_nil_r. exact (distinct_cons _ _ D). }
      { split; reflexivity. }
      rewrite app_nil_r in P. exists (x :: zs), a', b', d'. split.
      { cbn [merge_files hold obind]. change (item_bytes (it_unique x) (it_data x)) with (ib x). rewrite ER. exact E. }
      rewrite app_nil_r. split; [constructor; exact P|]. split; [constructor; auto; eapply Permutation_Forall; [apply Permutation_sym; exact P|exact FX]|].
      cbn [w_count w_str wf_write] in *. repeat (split; [solve [auto | congruence]|]). cbn [flat_map]. rewrite DN, DD, <- app_assoc. reflexivity.
    + destruct HA as [-> HA], HB as [-> HB]. destruct (StronglySorted_tl _ _ _ SX) as [SX' FX]. destruct (StronglySorted_tl _ _ _ SY) as [SY' FY].
      inversion GX as [|? ? G1 G2]; inversion GY as [|? ? G3 G4]; subst.
      destruct (goes_first_ok K size x y G1 G3 (distinct_neq _ _ _ _ D)) as (f & EF & F1 & F2).
      destruct f.
      * destruct (src_next x xs ra (w_str a) G2 HA) as (h & s' & ER & EB & EA & SR).
        destruct (fwrite_done (w_str d) (ib x) WD) as [WD' DD].
        destruct (IH xs (y :: ys) ra rb h (hold y) (mkW s' (w_count a)) b (wf_write d (ib x))) as (zs & a' & b' & d' & E & P & S & R1 & R2 & C1 & C2 & C3 & A1 & A2 & W & DN); auto.
        { cbn [length] in *. lia. }
        { exact (distinct_cons _ _ D). }
        { split; auto. }
        exists (x :: zs), a', b', d'. split.
        { cbn [merge_files hold]. rewrite gf_hold, EF. cbn [obind negb]. change (item_bytes (it_unique x) (it_data x)) with (ib x). rewrite ER. exact E. }
        split; [cbn [app]; constructor; exact P|]. split; [eapply min_cons; eauto|].
        cbn [w_count w_str wf_write] in *. repeat (split; [solve [auto | congruence]|]). cbn [flat_map]. rewrite DN, DD, <- app_assoc. reflexivity.
      * destruct (src_next y ys rb (w_str b) G4 HB) as (h & s' & ER & EB & EA & SR).
        destruct (fwrite_done (w_str d) (ib y) WD) as [WD' DD].
        destruct (IH (x :: xs) ys ra rb (hold x) h a (mkW s' (w_count b)) (wf_write d (ib y))) as (zs & a' & b' & d' & E & P & S & R1 & R2 & C1 & C2 & C3 & A1 & A2 & W & DN); auto.
        { cbn [length] in *. lia. }
        { apply (distinct_cons y). eapply distinct_perm; [|exact D]. apply Permutation_sym. apply (Permutation_middle (x :: xs) ys y). }
        { split; auto. }
        exists (y :: zs), a', b', d'. split.
        { cbn [merge_files hold]. rewrite gf_hold, EF. cbn [obind negb]. change (item_bytes (it_unique y) (it_data y)) with (ib y). rewrite ER. exact E. }
        split; [eapply Permutation_trans; [apply perm_skip; exact P|]; apply (Permutation_middle (x :: xs) ys y)|].
        split; [apply (min_cons K y ys x xs zs); auto; eapply Permutation_trans; [exact P|]; apply Permutation_app_comm|].
        cbn [w_count w_str wf_write] in *. repeat (split; [solve [auto | congruence]|]). cbn [flat_map]. rewrite DN, DD, <- app_assoc. reflexivity.
Qed.

(** ** Passes over the work files *)
Definition run_ok (l : list sitem) : Prop := StronglySorted R l /\ Forall good l.
Definition holds (w : wfile) (D : list (list sitem)) : Prop :=
  wok (w_str w) /\ done_of (w_str w) = flat_map fblk D /\ w_count w = Z.of_nat (length D).

Lemma end_block_holds : forall d z D, wok (w_str d) -> done_of (w_str d) = flat_map fblk D ++ flat_map ib z -> w_count d = Z.of_nat (length D) ->
  Z.of_nat (length D) + 1 < 2 ^ 64 -> holds (wf_end_block d) (D ++ [z]).
Proof.
  intros d z D W DN C L. unfold holds, wf_end_block. cbn [w_str w_count]. destruct (fwrite_done (w_str d) [1] W) as [W' DN']. split; [exact W'|]. split.
  - rewrite DN', DN, flat_map_app. cbn [flat_map]. rewrite app_nil_r. unfold fblk. now rewrite !app_assoc.
  - rewrite C, app_length. cbn [length]. rewrite Z.mod_small by lia. lia.
Qed.

Lemma split_concat : forall (x y A B : list sitem), Permutation ((x ++ A) ++ (y ++ B)) ((x ++ y) ++ (A ++ B)).
Proof. intros. rewrite <- !app_assoc. apply Permutation_app_head. rewrite !app_assoc. apply Permutation_app_tail. apply Permutation_app_comm. Qed.

Lemma files_pass_ok : forall fuel A B D E sw a b d e ra rb,
  length A = fuel -> (length A = length B \/ length A = S (length B)) -> Forall run_ok A -> Forall run_ok B -> Forall run_ok D -> Forall run_ok E ->
  distinct (concat A ++ concat B) -> bal sw (length D) (length E) -> Z.of_nat (length A + length D + length E) < 2 ^ 64 ->
  w_count a = Z.of_nat (length A) -> (A = [] \/ w_count b = Z.of_nat (length B)) ->
  rest_of (w_str a) = flat_map fblk A ++ ra -> rest_of (w_str b) = flat_map fblk B ++ rb -> s_append (w_str a) = false -> s_append (w_str b) = false ->
  holds d D -> holds e E ->
  exists a' b' p q P Q, files_pass fuel K size a b d e sw = Ok (Some (a', b', p, q)) /\ s_append (w_str a') = false /\ s_append (w_str b') = false /\
    holds p P /\ holds q Q /\ Forall run_ok P /\ Forall run_ok Q /\
    (length P = length Q \/ length P = S (length Q)) /\ (length P + length Q = length D + length E + length A)%nat /\
    Permutation (concat P ++ concat Q) ((concat A ++ concat B) ++ (concat D ++ concat E)).
Proof.
  induction fuel as [|fuel IH]; intros A B D E sw a b d e ra rb LA BL FA FB FD FE DI BA NW CA CB RA RB AA AB HD HE.
  - destruct A; [|discriminate]. destruct B; [|cbn [length] in BL; lia]. cbn [files_pass]. rewrite CA. cbn [length Z.of_nat]. rewrite Z.leb_refl.
    cbn [concat app]. destruct sw; cbn [bal] in BA.
    + exists a, b, e, d, E, D. split; [reflexivity|]. repeat (split; [solve [auto | lia]|]). apply Permutation_app_comm.
    + exists a, b, d, e, D, E. split; [reflexivity|]. repeat (split; [solve [auto | lia]|]). reflexivity.
  - destruct A as [|x A]; [discriminate|]. injection LA as LA. destruct CB as [CB|CB]; [discriminate|].
    cbn [files_pass]. rewrite CA. destruct (Z.leb_spec (Z.of_nat (length (x :: A))) 0) as [X|_]; [cbn [length] in X; lia|].
    inversion FA as [|? ? [SX GX] FA']; subst. cbn [flat_map] in RA. rewrite <- app_assoc in RA.
    destruct (read_block (w_str a) x _ GX RA) as (ha & sa & ERA & EBA & EAA & SA). rewrite ERA.
    assert (BB : exists y B' hb sb, (if 0 <? w_count b then read_item size (w_str b) else Some (None, w_str b)) = Some (hb, sb) /\
       run_ok y /\ Forall run_ok B' /\ concat B = y ++ concat B' /\ (length A = length B' \/ length A = S (length B')) /\
       src y (flat_map fblk B' ++ rb) hb sb /\ s_append sb = false /\ s_bytes sb = s_bytes (w_str b) /\ (A = [] \/ Z.of_nat (length B) - 1 = Z.of_nat (length B'))).
    { rewrite CB. destruct B as [|y B].
      - cbn [length Z.of_nat]. rewrite Z.ltb_irrefl. exists [], [], None, (w_str b). split; [reflexivity|]. split; [split; constructor|]. split; [constructor|].
        split; [reflexivity|]. cbn [length] in BL |- *. split; [left; lia|]. split; [split; [reflexivity|exact RB]|]. split; [exact AB|]. split; [reflexivity|]. left. destruct A; [reflexivity|cbn [length] in BL; lia].
      - destruct (Z.ltb_spec 0 (Z.of_nat (length (y :: B)))) as [_|X]; [|cbn [length] in X; lia].
        inversion FB as [|? ? [SY GY] FB']; subst. cbn [flat_map] in RB. rewrite <- app_assoc in RB.
        destruct (read_block (w_str b) y _ GY RB) as (hb & sb & ERB & EBB & EAB & SB).
        exists y, B, hb, sb. split; [exact ERB|]. split; [split; auto|]. split; [exact FB'|]. split; [reflexivity|]. cbn [length] in BL |- *. split; [lia|].
        split; [exact SB|]. split; [congruence|]. split; [exact EBB|]. right. lia. }
    destruct BB as (y & B' & hb & sb & ERB & [SY GY] & FB' & CC & BL' & SB & ASB & EBB & CB').
    rewrite ERB. cbn [w_str w_count].
    assert (DI' : distinct ((x ++ y) ++ (concat A ++ concat B'))).
    { eapply distinct_perm; [|exact DI]. cbn [concat]. rewrite CC. apply split_concat. }
    destruct HD as (WD & DD & CD).
    destruct (merge_files_ok (S (length (s_bytes sa) + length (s_bytes sb))) x y (flat_map fblk A ++ ra) (flat_map fblk B' ++ rb) ha hb (mkW sa (Z.of_nat (length (x :: A)))) (mkW sb (w_count b)) d)
      as (zs & a' & b' & d' & EM & PZ & SZ & R1 & R2 & C1 & C2 & C3 & A1 & A2 & W & DN); auto.
    { pose proof (src_bound x (flat_map fblk A ++ ra) ha sa SA). pose proof (src_bound y (flat_map fblk B' ++ rb) hb sb SB). lia. }
    { eapply distinct_app_l. exact DI'. }
    cbn [w_str w_count] in *. rewrite EM. cbn [obind].
    destruct (IH A B' E (D ++ [zs]) (negb sw) (wf_dec a') (wf_dec b') e (wf_end_block d') ra rb) as (a2 & b2 & p & q & P & Q & EP & AP & AQ & HP & HQ & FP & FQ & BP & LP & PP); auto.
    { apply Forall_app. split; [exact FD|]. constructor; [|constructor]. split; [exact SZ|]. eapply Permutation_Forall; [apply Permutation_sym; exact PZ|]. apply Forall_app. auto. }
    { eapply distinct_app_r. exact DI'. }
    { rewrite app_length. cbn [length]. destruct sw; cbn [negb bal] in *; lia. }
    { rewrite app_length. cbn [length] in *. lia. }
    { unfold wf_dec. cbn [w_count]. rewrite C1. cbn [length] in NW |- *. rewrite Z.mod_small by lia. lia. }
    { destruct CB' as [CB'|CB']; [left; exact CB'|]. right. unfold wf_dec. cbn [w_count]. rewrite C2, CB, CB'. apply Z.mod_small. cbn [length] in NW. lia. }
    { unfold wf_dec. cbn [w_str]. congruence. }
    { unfold wf_dec. cbn [w_str]. congruence. }
    { apply end_block_holds; auto. { rewrite DN, DD. reflexivity. } { congruence. } { cbn [length] in NW. lia. } }
    exists a2, b2, p, q, P, Q. split; [exact EP|]. rewrite app_length in LP. cbn [length] in LP |- *. repeat (split; [solve [auto | lia]|]).
    { eapply Permutation_trans; [exact PP|]. cbn [concat]. rewrite CC, concat_app. cbn [concat]. rewrite app_nil_r.
      clear - PZ. generalize (concat A) (concat B') (concat D) (concat E). intros ta tb dd ee.
      apply Permutation_trans with ((ta ++ tb) ++ (dd ++ ee) ++ (x ++ y)).
      { apply Permutation_app_head. apply Permutation_trans with (ee ++ dd ++ (x ++ y)); [do 2 apply Permutation_app_head; exact PZ|].
        rewrite !app_assoc. do 2 apply Permutation_app_tail. apply Permutation_app_comm. }
      apply Permutation_trans with (((x ++ y) ++ (ta ++ tb)) ++ (dd ++ ee)).
      { generalize (ta ++ tb) (dd ++ ee) (x ++ y). intros s t u. rewrite (app_assoc s). eapply Permutation_trans; [apply Permutation_app_comm|]. rewrite (app_assoc u). reflexivity. }
      apply Permutation_app_tail. apply Permutation_sym. apply split_concat. }
Qed.

Lemma rewind_rest : forall w, rest_of (w_str (wf_rewind w)) = s_bytes (w_str w).
Proof. reflexivity. Qed.
Lemma holds_rewind : forall w D, holds w D -> exists r, rest_of (w_str (wf_rewind w)) = flat_map fblk D ++ r.
Proof. intros w D (_ & DN & _). rewrite rewind_rest, <- DN. unfold done_of. exists (skipn (s_pos (w_str w)) (s_bytes (w_str w))). symmetry. apply firstn_skipn. Qed.
Lemma holds_fresh : forall w, s_append (w_str w) = false -> holds (reset_count (wf_rewind w)) [].
Proof. intros w A. unfold holds, reset_count, wf_rewind, wok, done_of. cbn. repeat split; auto. lia. Qed.

(** The merge of the work files ends with one block in each of two files. *)
Lemma files_merge_ok : forall fuel A B a b d e ra rb, (length A < fuel)%nat ->
  (length A = length B \/ length A = S (length B)) -> (1 <= length B)%nat -> Forall run_ok A -> Forall run_ok B -> distinct (concat A ++ concat B) ->
  Z.of_nat (length A) < 2 ^ 64 -> w_count a = Z.of_nat (length A) -> w_count b = Z.of_nat (length B) ->
  rest_of (w_str a) = flat_map fblk A ++ ra -> rest_of (w_str b) = flat_map fblk B ++ rb -> s_append (w_str a) = false -> s_append (w_str b) = false ->
  s_append (w_str d) = false -> s_append (w_str e) = false -> s_pos (w_str d) = 0%nat -> s_pos (w_str e) = 0%nat ->
  exists a' b' x y rx ry, files_merge fuel K size a b d e = Ok (Some (a', b')) /\ run_ok x /\ run_ok y /\
    rest_of (w_str a') = fblk x ++ rx /\ rest_of (w_str b') = fblk y ++ ry /\ Permutation (x ++ y) (concat A ++ concat B).
Proof.
  induction fuel as [|fuel IH]; intros A B a b d e ra rb LF BL LB FA FB DI NW CA CB RA RB AA AB AD AE PD PE; [lia|].
  cbn [files_merge]. rewrite CA. destruct (Z.leb_spec (Z.of_nat (length A)) 1) as [L1|L1].
  - assert (X : length A = 1%nat /\ length B = 1%nat) by lia. destruct X as [X Y].
    destruct A as [|x [|]]; try discriminate. destruct B as [|y [|]]; try discriminate. inversion FA; inversion FB; subst.
    exists a, b, x, y, ra, rb. split; [reflexivity|]. cbn [flat_map concat app] in *. rewrite !app_nil_r in *. repeat (split; [solve [auto]|]). reflexivity.
  - destruct (files_pass_ok (Z.to_nat (Z.of_nat (length A))) A B [] [] false a b (reset_count d) (reset_count e) ra rb) as (a2 & b2 & p & q & P & Q & EP & AP & AQ & HP & HQ & FP & FQ & BP & LP & PP); auto; try (cbn [length] in *; lia); try reflexivity.
    { unfold holds, reset_count, wok, done_of. cbn [w_str w_count]. rewrite PD. repeat split; auto. lia. }
    { unfold holds, reset_count, wok, done_of. cbn [w_str w_count]. rewrite PE. repeat split; auto. lia. }
    rewrite EP. cbn [obind]. cbn [concat app length] in PP, LP. rewrite app_nil_r in PP.
    destruct (holds_rewind p P HP) as (rp & HRP). destruct (holds_rewind q Q HQ) as (rq & HRQ).
    destruct HP as ([PA1 _] & _ & PC), HQ as ([QA1 _] & _ & QC).
    destruct (IH P Q (wf_rewind p) (wf_rewind q) (wf_rewind a2) (wf_rewind b2) rp rq) as (a' & b' & x & y & rx & ry & EM & RX & RY & R1 & R2 & PXY); auto; try lia.
    { eapply distinct_perm; [apply Permutation_sym; exact PP|exact DI]. }
    exists a', b', x, y, rx, ry. split; [exact EM|]. repeat (split; [solve [auto]|]). eapply Permutation_trans; eauto.
Qed.
End Files.
