(** Proofs about STRING and UNSTRING. *)
From Verif Require Import Base BaseFacts Field Numeric MoveAll DispInt Inspect SpecInspect InspectProofs
  InspectMore StringStmt SpecString.

Local Open Scope nat_scope.

Definition dlm_text (d : option field) : option (list Z) := option_map fd d.

Lemma within_whole : forall src pat p, within src 0 (length src) pat p <-> occurs_at src p pat.
Proof.
  intros src pat p. split; [intros (_ & _ & H); exact H|]. intros H. repeat split; auto; [lia|].
  apply occurs_bound in H. exact H.
Qed.

Lemma string_part_spec : forall dlm src, string_part dlm src <= length src /\
  delimited (dlm_text dlm) src (firstn (string_part dlm src) src).
Proof.
  intros [d|] src; cbn [string_part dlm_text option_map].
  - pose proof (find_from_spec (S (length src)) src (fd d) 0 0 (length src) ltac:(lia) ltac:(lia) ltac:(lia) ltac:(intros; lia)) as F.
    destruct (find_from (S (length src)) src (fd d) 0 (length src)) as [p|].
    + split; [destruct F as [(_ & B & _) _]; lia|]. now apply by_found.
    + split; [lia|]. rewrite firstn_all. apply by_not_found. intros p O. apply (F p). now apply within_whole.
  - split; [lia|]. rewrite firstn_all. apply by_size.
Qed.

Lemma delimited_unique : forall d src p q, delimited d src p -> delimited d src q -> p = q.
Proof.
  intros d src p q A B. inversion A as [s|x s i F|x s N]; subst; inversion B as [s'|x' s' i' F'|x' s' N']; subst; auto.
  - now rewrite (first_occ_unique _ _ _ _ _ _ F F').
  - exfalso. destruct F as [F _]. apply within_whole in F. now apply (N' i).
  - exfalso. destruct F' as [F' _]. apply within_whole in F'. now apply (N i').
Qed.

Lemma written_nil : forall dst off, written dst off [] = dst.
Proof. intros dst off. unfold written. cbn [length Nat.min firstn app]. rewrite Nat.add_0_r. apply firstn_skipn. Qed.

(** Appending [t] and then [u] is appending [t ++ u]. *)
Lemma written_length : forall dst off t, off <= length dst -> length (written dst off t) = length dst.
Proof. intros dst off t H. unfold written. rewrite !app_length, !firstn_length, skipn_length. lia. Qed.

Lemma written_app : forall dst off t u, off <= length dst -> length t <= length dst - off ->
  written (written dst off t) (off + length t) u = written dst off (t ++ u).
Proof.
  intros dst off t u HO HT. unfold written at 1 3.
  rewrite written_length by auto. rewrite app_length.
  set (n := Nat.min (length u) (length dst - (off + length t))).
  replace (Nat.min (length t + length u) (length dst - off)) with (length t + n) by lia.
  unfold written. replace (Nat.min (length t) (length dst - off)) with (length t) by lia. rewrite firstn_all.
  assert (L : length (firstn off dst ++ t) = off + length t) by (rewrite app_length, firstn_length; lia).
  rewrite (app_assoc (firstn off dst) t).
  assert (F1 : firstn (off + length t) ((firstn off dst ++ t) ++ skipn (off + length t) dst) = firstn off dst ++ t).
  { rewrite firstn_app, L, Nat.sub_diag. cbn [firstn]. rewrite app_nil_r. apply firstn_all2. lia. }
  assert (F2 : skipn (off + length t + n) ((firstn off dst ++ t) ++ skipn (off + length t) dst) = skipn (off + length t + n) dst).
  { rewrite skipn_app, skipn_all2 by lia. cbn [app]. rewrite L, skipn_skipn. f_equal. lia. }
  rewrite F1, F2. rewrite <- app_assoc. f_equal.
  assert (F3 : firstn (length t + n) (t ++ u) = t ++ firstn n u).
  { rewrite firstn_app, firstn_all2 by lia. now replace (length t + n - length t) with n by lia. }
  rewrite F3, <- app_assoc. f_equal. f_equal. f_equal. lia.
Qed.

(** Once full, nothing more is written. *)
Lemma written_full : forall dst off t u, off <= length dst -> length dst - off <= length t ->
  written dst off (t ++ u) = written dst off t.
Proof.
  intros dst off t u HO HT. unfold written. rewrite app_length.
  replace (Nat.min (length t + length u) (length dst - off)) with (length dst - off) by lia.
  replace (Nat.min (length t) (length dst - off)) with (length dst - off) by lia.
  f_equal. f_equal. rewrite firstn_app. replace (length dst - off - length t) with 0 by lia. cbn [firstn]. apply app_nil_r.
Qed.

Lemma fold_overflown : forall parts st, ss_ovf st = true ->
  fold_left (fun s (x : option field * field) => string_append s (fst x) (fd (snd x))) parts st = st.
Proof.
  induction parts as [|x parts IH]; intros st H; [reflexivity|]. cbn [fold_left].
  unfold string_append at 2. rewrite H. now apply IH.
Qed.

Lemma string_fold_spec : forall parts dst off, off <= length dst ->
  exists texts, Forall2 (fun x t => delimited (dlm_text (fst x)) (fd (snd x)) t) parts texts /\
    let text := concat texts in
    fold_left (fun s (x : option field * field) => string_append s (fst x) (fd (snd x))) parts
      (mkStr dst (Z.of_nat off) false) =
    mkStr (written dst off text) (Z.of_nat (off + Nat.min (length text) (length dst - off)))
          (length dst - off <? length text).
Proof.
  induction parts as [|[d f] parts IH]; intros dst off HO.
  - exists []. split; [constructor|]. cbn [concat fold_left length Nat.min]. rewrite written_nil, Nat.add_0_r. 
    f_equal.
  - destruct (string_part_spec d (fd f)) as [P1 P2]. set (n := string_part d (fd f)) in *.
    assert (LT : length (firstn n (fd f)) = n) by (rewrite firstn_length; lia).
    cbn [fold_left fst snd]. unfold string_append at 2. cbn [ss_ovf ss_off ss_dst]. rewrite Nat2Z.id. fold n.
    destruct (n <=? length dst - off) eqn:E.
    + apply Nat.leb_le in E.
      assert (W : write_at dst off (firstn n (fd f)) = written dst off (firstn n (fd f))).
      { unfold write_at, written. rewrite LT. replace (Nat.min n (length dst - off)) with n by lia.
        f_equal. f_equal. rewrite <- LT at 2. now rewrite firstn_all. }
      rewrite W. replace (Z.of_nat off + Z.of_nat n)%Z with (Z.of_nat (off + n)) by lia.
      destruct (IH (written dst off (firstn n (fd f))) (off + n)) as (texts & T1 & T2).
      { rewrite written_length by auto. lia. }
      exists (firstn n (fd f) :: texts). split; [constructor; auto|]. cbn [concat]. cbv zeta in T2 |- *. rewrite T2.
      rewrite written_length by auto. rewrite <- LT at 2. rewrite written_app by (rewrite ?LT; auto).
      rewrite app_length, LT. f_equal.
      * lia.
      * destruct (length dst - (off + n) <? length (concat texts)) eqn:Q; symmetry;
          [apply Nat.ltb_lt in Q; apply Nat.ltb_lt; lia|apply Nat.ltb_ge in Q; apply Nat.ltb_ge; lia].
    + apply Nat.leb_gt in E. rewrite fold_overflown by reflexivity.
      assert (EX : forall l : list (option field * field), exists texts, Forall2 (fun x t => delimited (dlm_text (fst x)) (fd (snd x)) t) l texts).
      { induction l as [|[d' f'] l (ts & H)]; [exists []; constructor|].
        destruct (string_part_spec d' (fd f')) as [_ Q]. exists (firstn (string_part d' (fd f')) (fd f') :: ts). constructor; auto. }
      destruct (EX parts) as (texts & T). exists (firstn n (fd f) :: texts). split; [constructor; auto|].
      cbn [concat]. cbv zeta. rewrite written_full by (rewrite ?LT; lia). rewrite app_length, LT. f_equal.
      * unfold write_at, written. rewrite LT. replace (Nat.min n (length dst - off)) with (length dst - off) by lia.
        rewrite firstn_firstn. replace (Nat.min (length dst - off) n) with (length dst - off) by lia.
        rewrite firstn_length. f_equal. f_equal. f_equal. lia.
      * lia.
      * symmetry. apply Nat.ltb_lt. lia.
Qed.

(** ** UNSTRING *)
Lemma dlm_at_spec : forall src p dlms,
  match dlm_at src p dlms with
  | Some (d, all) => exists k, nth_error dlms k = Some (d, all) /\ (p <= length src -> occurs_at src p d) /\
      forall j d' a', j < k -> nth_error dlms j = Some (d', a') -> ~ occurs_at src p d'
  | None => forall d a, In (d, a) dlms -> ~ occurs_at src p d
  end.
Proof.
  intros src p. induction dlms as [|[d all] dlms IH]; cbn [dlm_at].
  - intros d a [].
  - assert (T : (p + length d <=? length src) && match_at src p d = true \/
               ((p + length d <=? length src) && match_at src p d = false)) by (destruct (_ && _); auto).
    destruct T as [T|T]; rewrite T.
    + exists 0. split; [reflexivity|]. split; [|intros; lia].
      intros HP. apply andb_true_iff in T as [_ T]. now apply match_at_occurs.
    + assert (NO : ~ occurs_at src p d).
      { intros O. pose proof (occurs_match_at _ _ _ O) as M. apply occurs_bound in O.
        rewrite M in T. rewrite andb_true_r in T. apply Nat.leb_gt in T. lia. }
      destruct (dlm_at src p dlms) as [[d' all']|].
      * destruct IH as (k & K1 & K2 & K3). exists (S k). split; [exact K1|]. split; [exact K2|].
        intros [|j] d1 a1 J E; [injection E as <- _; exact NO|]. apply (K3 j d1 a1); auto. lia.
      * intros d' a' [E|I]; [injection E as <- _; exact NO|]. now apply (IH d' a').
Qed.

Lemma find_dlm_spec : forall fuel src dlms from p, length src < p + fuel -> from <= p ->
  Forall (fun x => fst x <> []) dlms ->
  (forall q d a, from <= q < p -> In (d, a) dlms -> ~ occurs_at src q d) ->
  match find_dlm fuel src dlms p with
  | Some (r, (d, all)) => from <= r < length src /\ occurs_at src r d /\
      (forall q d a, from <= q < r -> In (d, a) dlms -> ~ occurs_at src q d) /\
      exists k, nth_error dlms k = Some (d, all) /\
        forall j d' a', j < k -> nth_error dlms j = Some (d', a') -> ~ occurs_at src r d'
  | None => forall q d a, from <= q -> In (d, a) dlms -> ~ occurs_at src q d
  end.
Proof.
  induction fuel as [|g IH]; intros src dlms from p HF Hp HN HQ; cbn [find_dlm].
  - intros q d a Q I O. destruct (Nat.lt_ge_cases q p); [now apply (HQ q d a)|].
    rewrite Forall_forall in HN. specialize (HN _ I). cbn [fst] in HN. apply occurs_bound in O. apply nonempty_len in HN. lia.
  - destruct (p <? length src) eqn:E.
    + apply Nat.ltb_lt in E. pose proof (dlm_at_spec src p dlms) as D. destruct (dlm_at src p dlms) as [[d all]|].
      * destruct D as (k & K1 & K2 & K3). split; [lia|]. split; [apply K2; lia|]. split; [exact HQ|]. exists k. auto.
      * apply IH; auto; try lia. intros q d a Q I. destruct (Nat.eq_dec q p) as [->|]; [now apply (D d a)|]. apply (HQ q d a); auto. lia.
    + apply Nat.ltb_ge in E. intros q d a Q I O. destruct (Nat.lt_ge_cases q p); [now apply (HQ q d a)|].
      rewrite Forall_forall in HN. specialize (HN _ I). cbn [fst] in HN. apply occurs_bound in O. apply nonempty_len in HN. lia.
Qed.

Lemma occurs_app : forall src p a b, occurs_at src p (a ++ b) <-> occurs_at src p a /\ occurs_at src (p + length a) b.
Proof.
  intros src p a b. split.
  - intros (x & y & -> & <-). split.
    + exists x, (b ++ y). rewrite <- app_assoc. auto.
    + exists (x ++ a), y. rewrite <- !app_assoc. split; [reflexivity|]. apply app_length.
  - intros [(x & y & E1 & <-) (u & v & E2 & L2)].
    rewrite E1 in E2. assert (u = x ++ a /\ y = b ++ v) as [-> ->].
    { rewrite app_assoc in E2. rewrite <- app_length in L2.
      apply app_eq_app in E2 as (l & [[A B]|[A B]]).
      - assert (l = []) as -> by (apply (f_equal (@length Z)) in A; rewrite !app_length in A; rewrite app_length in L2; destruct l; [auto|cbn in A; lia]).
        rewrite app_nil_r in A. cbn in B. auto.
      - assert (l = []) as -> by (apply (f_equal (@length Z)) in A; rewrite !app_length in A; rewrite app_length in L2; destruct l; [auto|cbn in A; lia]).
        rewrite app_nil_r in A. cbn in B. auto. }
    exists x, v. rewrite E1. now rewrite <- !app_assoc.
Qed.

Lemma skip_all_spec : forall fuel src d p, 1 <= length d -> length src < p + fuel -> p <= length src ->
  occurs_at src p (concat (repeat d (skip_all fuel src d p))) /\
  ~ occurs_at src p (concat (repeat d (S (skip_all fuel src d p)))).
Proof.
  induction fuel as [|g IH]; intros src d p HD HF HP; [lia|]. cbn [skip_all].
  destruct ((p + length d <=? length src) && match_at src p d) eqn:T.
  - apply andb_true_iff in T as [T1 T2]. apply Nat.leb_le in T1.
    destruct (IH src d (p + length d)) as [A B]; try lia.
    pose proof (match_at_occurs _ _ _ T2 HP) as O.
    split.
    + change (repeat d (S (skip_all g src d (p + length d)))) with (d :: repeat d (skip_all g src d (p + length d))).
      cbn [concat]. apply occurs_app. auto.
    + intros C. change (repeat d (S (S (skip_all g src d (p + length d))))) with (d :: repeat d (S (skip_all g src d (p + length d)))) in C.
      cbn [concat] in C. apply occurs_app in C as [_ C]. contradiction.
  - split.
    + cbn [repeat concat]. exists (firstn p src), (skipn p src). cbn [app]. split; [now rewrite firstn_skipn|]. rewrite firstn_length. lia.
    + cbn [repeat concat]. rewrite app_nil_r. intros O. pose proof (occurs_match_at _ _ _ O) as M. apply occurs_bound in O.
      rewrite M, andb_true_r in T. apply Nat.leb_gt in T. lia.
Qed.

Lemma slice_length : forall data s e, e <= length data -> length (slice data s e) = e - s.
Proof. intros. unfold slice. rewrite firstn_length, skipn_length. lia. Qed.
Lemma concat_repeat_length : forall (d : list Z) r, length (concat (repeat d r)) = r * length d.
Proof. induction r as [|r IH]; cbn [repeat concat]; [reflexivity|]. rewrite app_length, IH. cbn. lia. Qed.

Lemma unstring_piece_spec : forall src dlms size off, off < length src -> Forall (fun x => fst x <> []) dlms ->
  (dlms = [] -> unstring_piece src dlms size off =
     Ok (sized_piece src size off, None, off + length (sized_piece src size off))) /\
  (dlms <> [] -> exists t d sep, piece src dlms off t d sep /\
     unstring_piece src dlms size off = Ok (t, d, off + length t + length sep) /\
     off + length t + length sep <= length src).
Proof.
  intros src dlms size off HO HN. split.
  - intros ->. cbn [unstring_piece]. unfold sized_piece. rewrite slice_length by lia. unfold slice.
    replace (Nat.min (off + size) (length src) - off) with (Nat.min size (length src - off)) by lia. reflexivity.
  - intros ND. unfold unstring_piece. destruct dlms as [|x0 dl]; [congruence|]. set (dlms := x0 :: dl) in *.
    pose proof (find_dlm_spec (S (length src)) src dlms off off ltac:(lia) ltac:(lia) HN ltac:(intros; lia)) as F.
    destruct (find_dlm (S (length src)) src dlms off) as [[p [d all]]|].
    + destruct F as (F1 & F2 & F3 & k & F4 & F5).
      assert (HD : d <> []).
      { rewrite Forall_forall in HN. apply (HN (d, all)). now apply nth_error_In in F4. }
      assert (LD : 1 <= length d) by now apply nonempty_len.
      pose proof (occurs_bound _ _ _ F2) as OB.
      assert (E0 : all && (length d =? 0) = false).
      { apply andb_false_iff. right. apply Nat.eqb_neq. lia. }
      rewrite E0.
      set (r := S (if all then skip_all (S (length src)) src d (p + length d) else 0)).
      assert (OR : occurs_at src p (concat (repeat d r))).
      { unfold r. cbn [repeat concat]. destruct all.
        - apply occurs_app. split; [exact F2|]. apply skip_all_spec; lia.
        - cbn [repeat concat]. now rewrite app_nil_r. }
      exists (slice src off p), (Some d), (concat (repeat d r)). split; [|split].
      * apply (piece_delimited src dlms off p k d all r); auto; try lia.
        unfold r. destruct all; [|reflexivity].
        intros C. change (repeat d (S (S (skip_all (S (length src)) src d (p + length d)))))
          with (d :: repeat d (S (skip_all (S (length src)) src d (p + length d)))) in C.
        cbn [concat] in C. apply occurs_app in C as [_ C]. revert C. apply skip_all_spec; lia.
      * rewrite slice_length by lia. rewrite concat_repeat_length. unfold slice. f_equal. f_equal. unfold r. destruct all; lia.
      * rewrite slice_length by lia. pose proof (occurs_bound _ _ _ OR). lia.
    + exists (slice src off (length src)), None, []. split; [now apply piece_rest|]. rewrite slice_length by lia. cbn [length].
      split; [|lia]. unfold slice. f_equal. f_equal. lia.
Qed.

(** What the receivers get. *)
Fixpoint put_pieces (m : cfg) (ps : list (list Z * option (list Z) * list Z)) (rs : list receiver) : outcome (list receiver) :=
  match ps, rs with
  | (t, d, _) :: ps', r :: rs' => do r' <- store_piece m t d r; do rest <- put_pieces m ps' rs'; Ok (r' :: rest)
  | _, _ => Ok rs
  end.

Lemma unstring_run_spec : forall rs m src dlms off, Forall (fun x => fst x <> []) dlms -> off <= length src ->
  Forall (fun r => 1 <= data_size (rc_dst r)) rs ->
  exists ps, unstrung src dlms off (map (fun r => data_size (rc_dst r)) rs) ps /\ 
    off + length (consumed ps) <= length src /\
    unstring_run m src dlms rs off =
      (do rs' <- put_pieces m ps rs; Ok (rs', off + length (consumed ps), length ps)).
Proof.
  induction rs as [|r rs IH]; intros m src dlms off HN HO HS.
  - exists []. split; [apply un_done; now right|]. unfold consumed. cbn [map concat length put_pieces unstring_run obind].
    rewrite Nat.add_0_r. auto.
  - inversion HS as [|? ? S1 S2]; subst. cbn [map unstring_run].
    destruct (length src <=? off) eqn:E.
    + apply Nat.leb_le in E. destruct (IH m src dlms off HN HO S2) as (ps & U & B & R).
      assert (ps = []) as ->.
      { inversion U; subst; auto; lia. }
      exists []. split; [apply un_done; auto|]. split; [exact B|]. rewrite R. unfold consumed. cbn [map concat length put_pieces obind fst snd].
      destruct rs; reflexivity.
    + apply Nat.leb_gt in E. destruct (unstring_piece_spec src dlms (data_size (rc_dst r)) off E HN) as [P1 P2].
      destruct dlms as [|x0 dl] eqn:ED.
      * rewrite (P1 eq_refl). cbn [obind fst snd]. set (t := sized_piece src (data_size (rc_dst r)) off) in *.
        assert (LT : off + length t <= length src) by (unfold t, sized_piece; rewrite slice_length; lia).
        destruct (IH m src [] (off + length t) HN LT S2) as (ps & U & B & R).
        exists ((t, None, []) :: ps). split; [now apply un_sized|].
        unfold consumed in *. cbn [map concat fst snd]. rewrite app_nil_r, app_length, Nat.add_assoc. split; [exact B|].
        cbn [put_pieces]. destruct (store_piece m t None r) as [r'| |]; cbn [obind]; auto.
        rewrite R. destruct (put_pieces m ps rs); cbn [obind fst snd length]; auto.
      * destruct (P2 ltac:(discriminate)) as (t & d & sep & Q1 & Q2 & Q3). rewrite Q2. cbn [obind fst snd].
        destruct (IH m src (x0 :: dl) (off + length t + length sep) HN Q3 S2) as (ps & U & B & R).
        exists ((t, d, sep) :: ps). split; [apply un_piece; auto; discriminate|].
        unfold consumed in *. cbn [map concat fst snd]. rewrite !app_length, !Nat.add_assoc. split; [exact B|].
        cbn [put_pieces]. destruct (store_piece m t d r) as [r'| |]; cbn [obind]; auto.
        rewrite R. destruct (put_pieces m ps rs); cbn [obind fst snd length]; auto.
Qed.

(** The pieces and separators are the sender, cut. *)
Lemma piece_concat : forall src dlms from t d sep, from <= length src -> piece src dlms from t d sep ->
  slice src from (from + length t + length sep) = t ++ sep /\ from + length t + length sep <= length src.
Proof.
  intros src dlms from t d sep HF H. destruct H as [p k d all r Hp HK HO N1 N2 HR OR HA|N].
  - pose proof (occurs_bound _ _ _ HO). pose proof (occurs_bound _ _ _ OR).
    rewrite slice_length by lia. replace (from + (p - from)) with p by lia. split; [|lia].
    rewrite (slice_split src from p) by lia. f_equal.
    apply (slice_pat src 0 (length src)). now apply within_whole.
  - rewrite slice_length by lia. cbn [length]. rewrite app_nil_r. replace (from + (length src - from) + 0) with (length src) by lia. auto.
Qed.

Lemma unstrung_partition : forall src dlms from sizes ps, from <= length src -> unstrung src dlms from sizes ps ->
  slice src from (from + length (consumed ps)) = consumed ps /\ from + length (consumed ps) <= length src.
Proof.
  intros src dlms from sizes ps HF H. induction H as [from sizes E|from size sizes t d sep rest L ND P U IH|from size sizes rest L E U IH].
  - unfold consumed. cbn [map concat length]. rewrite Nat.add_0_r. split; [|lia]. unfold slice. rewrite Nat.sub_diag. reflexivity.
  - destruct (piece_concat _ _ _ _ _ _ HF P) as [A B]. destruct (IH B) as [C D].
    unfold consumed in *. cbn [map concat fst snd]. rewrite !app_length, !Nat.add_assoc. split; [|exact D].
    rewrite (slice_split src from (from + length t + length sep)) by lia. rewrite A. f_equal. exact C.
  - assert (LT : from + length (sized_piece src size from) <= length src) by (unfold sized_piece; rewrite slice_length; lia).
    destruct (IH LT) as [C D]. unfold consumed in *. cbn [map concat fst snd]. rewrite app_nil_r, app_length, Nat.add_assoc.
    split; [|exact D]. rewrite (slice_split src from (from + length (sized_piece src size from))) by lia. f_equal; [|exact C].
    unfold sized_piece at 1. rewrite slice_length by lia. unfold sized_piece. f_equal. lia.
Qed.

Lemma piece_det : forall src dlms from t d sep t' d' sep', Forall (fun x => fst x <> []) dlms ->
  piece src dlms from t d sep -> piece src dlms from t' d' sep' -> (t, d, sep) = (t', d', sep').
Proof.
  intros src dlms from t d sep t' d' sep' HN A B.
  destruct A as [p k d all r Hp HK HO N1 N2 HR OR HA|N]; destruct B as [p' k' d' all' r' Hp' HK' HO' N1' N2' HR' OR' HA'|N'].
  - assert (p = p') as <-.
    { destruct (Nat.lt_trichotomy p p') as [Q|[Q|Q]]; auto; exfalso.
      - apply (N1' p d all); auto. now apply nth_error_In in HK.
      - apply (N1 p' d' all'); auto. now apply nth_error_In in HK'. }
    assert (k = k') as <-.
    { destruct (Nat.lt_trichotomy k k') as [Q|[Q|Q]]; auto; exfalso.
      - now apply (N2' k d all).
      - now apply (N2 k' d' all'). }
    rewrite HK in HK'. injection HK' as <- <-.
    assert (r = r') as <-; [|reflexivity].
    destruct all; [|congruence].
    assert (MONO : forall a b, a <= b -> occurs_at src p (concat (repeat d b)) -> occurs_at src p (concat (repeat d a))).
    { intros a b Hab O. replace b with (a + (b - a)) in O by lia. rewrite repeat_app, concat_app in O. now apply occurs_app in O as [O _]. }
    destruct (Nat.lt_trichotomy r r') as [Q|[Q|Q]]; auto; exfalso.
    + apply HA. apply (MONO (S r) r'); auto.
    + apply HA'. apply (MONO (S r') r); auto.
  - exfalso. apply (N' p d all); auto. now apply nth_error_In in HK.
  - exfalso. apply (N p' d' all'); auto. now apply nth_error_In in HK'.
  - reflexivity.
Qed.
Lemma unstrung_det : forall src dlms from sizes ps, Forall (fun x => fst x <> []) dlms -> unstrung src dlms from sizes ps ->
  forall ps', unstrung src dlms from sizes ps' -> ps = ps'.
Proof.
  intros src dlms from sizes ps HN H.
  induction H as [from sizes E|from size sizes t d sep rest L ND P U IH|from size sizes rest L E U IH]; intros ps' H'.
  - inversion H' as [? ? E'|? ? ? ? ? ? ? L' ND' P' U'|? ? ? ? L' E' U']; subst; auto; exfalso; destruct E; try lia; discriminate.
  - inversion H' as [? ? E'|? ? ? t' d' sep' ? L' ND' P' U'|? ? ? ? L' E' U']; subst; [destruct E'; [lia|discriminate]| |congruence].
    pose proof (piece_det _ _ _ _ _ _ _ _ _ HN P P') as Q. injection Q as <- <- <-. f_equal. auto.
  - inversion H' as [? ? E'|? ? ? ? ? ? ? L' ND' P' U'|? ? ? ? L' E' U']; subst; [destruct E'; [lia|discriminate]|congruence|].
    f_equal. auto.
Qed.
