(** LINE SEQUENTIAL files: the record format. *)
From Verif Require Import Base BaseFacts Stdio StdioProofs FileIO SpecFile SpecSeq RelHist RelNext SeqHist SeqInst.

Lemma drop_spaces_cons : forall x r, drop_spaces (x :: r) = if x =? 32 then drop_spaces r else x :: r.
Proof.
  intros x r. destruct (Z.eqb_spec x 32) as [->|N]; [reflexivity|].
  destruct x as [|p|p]; try reflexivity. do 6 (destruct p as [p|p|]; try reflexivity). congruence.
Qed.
Lemma drop_spaces_spec : forall l, exists k, l = repeat 32 k ++ drop_spaces l.
Proof.
  induction l as [|x l (k & E)]; [exists 0%nat; reflexivity|]. rewrite drop_spaces_cons.
  destruct (Z.eqb_spec x 32) as [->|]; [exists (S k); cbn [repeat app]; now f_equal|exists 0%nat; reflexivity].
Qed.
Lemma drop_spaces_head : forall l u, drop_spaces l <> 32 :: u.
Proof.
  induction l as [|x l IH]; intros u E; [discriminate|]. rewrite drop_spaces_cons in E.
  destruct (Z.eqb_spec x 32); [eapply IH; eauto|congruence].
Qed.
Lemma rev_repeat : forall (A : Type) (x : A) k, rev (repeat x k) = repeat x k.
Proof.
  intros A x. induction k; cbn [repeat rev]; auto. rewrite IHk. clear. induction k; cbn [repeat app]; auto. now f_equal.
Qed.
Lemma trimmed_spec : forall l, without_trailing_spaces l (trimmed l).
Proof.
  intros l. unfold without_trailing_spaces, trimmed. split.
  - destruct (drop_spaces_spec (rev l)) as (k & E). exists k. rewrite <- (rev_involutive l) at 1. rewrite E at 1. rewrite rev_app_distr, rev_repeat. reflexivity.
  - intros u E. apply (drop_spaces_head (rev l) (rev u)). rewrite <- (rev_involutive (drop_spaces (rev l))), E, rev_app_distr. reflexivity.
Qed.

Ltac same_pos := match goal with |- (_, _, ?a) = (_, _, ?b) => replace b with a by (cbn [length app]; rewrite ?app_length; cbn [length]; lia) end; reflexivity.

Section Line.
Variables (c : iocfg) (hi : nat).

Definition payload (r : list Z) : list Z := if io_nulls c then escape r else r.
Definition enc_line (r : list Z) : list Z := payload r ++ [10].
Definition valid_line (r : list Z) : Prop := (length r <= hi)%nat /\ line_text (io_nulls c) r.

Lemma line_loop_payload : forall r B room some pos, (length r <= room)%nat -> line_text (io_nulls c) r ->
  line_loop (io_nulls c) room some (payload r ++ 10 :: B) pos = (0, r, (pos + length (enc_line r))%nat).
Proof.
  unfold enc_line, payload, line_text. destruct (io_nulls c).
  - induction r as [|b r IH]; intros B room some pos L T.
    + cbn [app line_loop escape flat_map]. rewrite ?andb_false_r; try change ((10 =? 0) && true) with false; change (10 =? 13) with false; change (10 =? 10) with true; cbn [andb]; cbv iota. same_pos.
    + cbn [length] in L. destruct room as [|room]; [lia|]. cbn [escape flat_map] in *. fold (escape r) in *.
      destruct (Z.ltb_spec b 32) as [C|C]; cbn [app line_loop].
      * change ((0 =? 0) && true) with true. cbv iota.
        rewrite IH by (auto; lia). same_pos.
      * destruct (Z.eqb_spec b 0); [lia|]. destruct (Z.eqb_spec b 13); [lia|]. destruct (Z.eqb_spec b 10); [lia|]. cbn [andb].
        rewrite IH by (auto; lia). same_pos.
  - induction r as [|b r IH]; intros B room some pos L T.
    + cbn [app line_loop escape flat_map]. rewrite ?andb_false_r; try change ((10 =? 0) && true) with false; change (10 =? 13) with false; change (10 =? 10) with true; cbn [andb]; cbv iota. same_pos.
    + cbn [length] in L. destruct room as [|room]; [lia|]. destruct T as [T|[T1 T2]]; [discriminate|].
      cbn [app line_loop]. rewrite andb_false_r.
      destruct (Z.eqb_spec b 13) as [->|]; [exfalso; apply T2; left; auto|]. destruct (Z.eqb_spec b 10) as [->|]; [exfalso; apply T1; left; auto|].
      rewrite IH; [|lia|right; split; intros X; [apply T1|apply T2]; right; auto]. same_pos.
Qed.

Lemma text_part : forall (a b : list Z) nulls, line_text nulls (a ++ b) -> line_text nulls a.
Proof. intros a b nulls [T|[T1 T2]]; [left; auto|right; split; intros X; [apply T1|apply T2]; apply in_or_app; auto]. Qed.
Lemma text_firstn : forall n a nulls, line_text nulls a -> line_text nulls (firstn n a).
Proof. intros n a nulls T. rewrite <- (firstn_skipn n a) in T. eapply text_part; eauto. Qed.
Lemma text_fill : forall a k nulls, line_text nulls a -> line_text nulls (a ++ repeat 32 k).
Proof.
  intros a k nulls [T|[T1 T2]]; [left; auto|right]. split; intros X; apply in_app_or in X; destruct X as [X|X]; auto; apply repeat_spec in X; discriminate.
Qed.

Lemma line_write_ok : forall ld f (r : list (list Z)) n p ap x, line_op (io_nulls c) hi ld (OWrite n x) -> f_org f = OrgLineSequential -> f_min f = 0%nat -> f_max f = hi -> length (f_data f) = hi ->
  line_text (io_nulls c) (f_data f) -> f_needs_nl f = false ->
  (0 <= f_size f <= hi)%nat -> f_stream f = Some (mkStream (encs enc_line r) p ap) -> ap = true \/ p = length (encs enc_line r) ->
  exists t p', org_write c f x = Ok (0, set_nl false (set_stream (Some (mkStream (encs enc_line (r ++ [t])) p' ap)) f)) /\
    line_keeps (io_fixed c) (firstn (f_size f) (f_data f)) t /\ valid_line t /\ (ap = true \/ p' = length (encs enc_line (r ++ [t]))).
Proof.
  intros ld f r n p ap x [-> _] O MN MX DL TX NL SZ ST AP. unfold org_write. rewrite O. unfold lineseq_write, with_stream. rewrite ST.
  rewrite DL. destruct (Nat.ltb_spec hi (f_size f)); [lia|].
  set (rc := firstn (f_size f) (f_data f)). set (t := if io_fixed c then rc else trimmed rc).
  assert (KT : line_keeps (io_fixed c) rc t) by (unfold line_keeps, t; destruct (io_fixed c); [reflexivity|apply trimmed_spec]).
  assert (TR : line_text (io_nulls c) rc) by (apply text_firstn; auto).
  assert (VT : valid_line t).
  { unfold t. assert (LR : (length rc <= hi)%nat) by (unfold rc; rewrite firstn_length; lia). destruct (io_fixed c); [split; auto|].
    destruct (trimmed_spec rc) as [(k & E) _]. split; [rewrite E, app_length in LR; lia|rewrite E in TR; eapply text_part; eauto]. }
  destruct (fwrite_tail (encs enc_line r) p ap (payload t) AP) as (p1 & E1 & P1). unfold payload in E1, P1. rewrite E1. fold (payload t) in P1 |- *.
  cbn [write_adv repeat]. destruct (fwrite_tail (encs enc_line r ++ payload t) p1 ap [10] P1) as (p2 & E2 & P2). rewrite E2.
  exists t, p2. rewrite encs_app, encs_one. unfold enc_line at 2 4. rewrite <- app_assoc in P2 |- *. split; [reflexivity|]. auto.
Qed.

Lemma line_read_ok : forall f t A B, f_org f = OrgLineSequential -> f_min f = 0%nat -> f_max f = hi -> length (f_data f) = hi -> line_text (io_nulls c) (f_data f) -> valid_line t -> (0%nat = hi \/ true = true -> f_size f = hi) ->
  f_stream f = Some (mkStream (A ++ enc_line t ++ B) (length A) false) ->
  exists f1, org_read_next c f = Ok (0, f1) /\
    f_org f1 = OrgLineSequential /\ f_access f1 = f_access f /\ f_optional f1 = f_optional f /\ f_nonexistent f1 = f_nonexistent f /\
    f_min f1 = 0%nat /\ f_max f1 = hi /\ f_open f1 = f_open f /\ f_needs_nl f1 = f_needs_nl f /\ f_disk f1 = f_disk f /\
    f_data f1 = line_fetch (f_data f) t /\ length (f_data f1) = hi /\ line_text (io_nulls c) (f_data f1) /\
    f_stream f1 = Some (mkStream (A ++ enc_line t ++ B) (length (A ++ enc_line t)) false) /\
    (0%nat = hi \/ true = true -> f_size f1 = hi) /\ (true = false -> f_size f1 = length t) /\
    f_dep f1 = match f_dep f with Some d => Some (item_set d (Z.of_nat (length t))) | None => None end.
Proof.
  intros f t A B O MN MX DL TX [VL VT] SZ ST. specialize (SZ (or_intror eq_refl)).
  unfold org_read_next. rewrite O. unfold lineseq_read, with_stream. rewrite ST, SZ. cbn [s_pos s_bytes]. rewrite skipn_app_exact.
  unfold enc_line at 1. rewrite <- app_assoc. cbn [app]. rewrite line_loop_payload by auto.
  rewrite DL. destruct (Nat.ltb_spec hi (length t)); [lia|]. change (negb (0 =? 0)) with false. cbv iota.
  unfold into_area. ffields. rewrite SZ.
  assert (L1 : length (t ++ skipn (length t) (f_data f)) = hi) by (rewrite app_length, skipn_length; lia).
  rewrite L1, Nat.ltb_irrefl.
  assert (ED : (t ++ repeat 32 (hi - length t)) ++ skipn (length (t ++ repeat 32 (hi - length t))) (t ++ skipn (length t) (f_data f)) = line_fetch (f_data f) t).
  { rewrite (skipn_all2 (n := length (t ++ repeat 32 (hi - length t)))) by (rewrite L1, app_length, repeat_length; lia). rewrite app_nil_r. unfold line_fetch. rewrite DL. reflexivity. }
  rewrite ED.
  assert (LF : length (line_fetch (f_data f) t) = hi) by (unfold line_fetch; rewrite app_length, repeat_length; lia).
  eexists. split; [reflexivity|]. unfold set_pos. cbn [s_bytes s_append]. rewrite <- app_length.
  assert (TF : line_text (io_nulls c) (line_fetch (f_data f) t)) by (apply text_fill; auto).
  destruct (f_dep f) as [d|] eqn:DE; ffields; rewrite ?DE; repeat (split; [first [reflexivity|assumption|intros; assumption|discriminate]|]); reflexivity.
Qed.

Lemma line_end_ok : forall f, f_org f = OrgLineSequential -> f_min f = 0%nat -> f_max f = hi -> length (f_data f) = hi -> (0%nat = hi \/ true = true -> f_size f = hi) ->
  forall bs, f_stream f = Some (mkStream bs (length bs) false) -> org_read_next c f = Ok (10, f).
Proof.
  intros f O MN MX DL SZ bs ST. unfold org_read_next. rewrite O. unfold lineseq_read, with_stream. rewrite ST. cbn [s_pos s_bytes].
  rewrite skipn_all. cbn [line_loop length]. destruct (Nat.ltb_spec (length (f_data f)) 0); [lia|]. change (negb (10 =? 0)) with true. cbv iota.
  unfold into_area, set_pos. cbn [app skipn length s_bytes s_append]. do 2 f_equal. clear - ST. destruct f; ffields. subst. reflexivity.
Qed.
End Line.
