(** Proofs about the INSPECT model. *)
From Verif Require Import Base BaseFacts Field Sign Numeric MoveAll DispInt Inspect SpecInspect.

Local Open Scope nat_scope.

Lemma nth_error_firstn_lt : forall {A} (l : list A) n i, i < n -> nth_error (firstn n l) i = nth_error l i.
Proof.
  induction l as [|x l IH]; intros n i H; destruct n as [|n]; try lia; [reflexivity|].
  destruct i as [|i]; [reflexivity|]. cbn. apply IH. lia.
Qed.
Lemma nth_error_skipn' : forall {A} (l : list A) n i, nth_error (skipn n l) i = nth_error l (n + i).
Proof.
  induction l as [|x l IH]; intros n i; destruct n as [|n]; cbn; auto.
  - now destruct i.
Qed.

Lemma list_eqb_eq : forall a b, list_eqb a b = true <-> a = b.
Proof.
  induction a as [|x a IH]; destruct b as [|y b]; cbn; split; try congruence.
  - intros H. apply andb_true_iff in H as [H1 H2]. apply Z.eqb_eq in H1. apply IH in H2. congruence.
  - intros H. injection H as -> ->. apply andb_true_iff. split; [apply Z.eqb_refl|]. now apply IH.
Qed.

Lemma match_at_occurs : forall data p pat, match_at data p pat = true -> p <= length data -> occurs_at data p pat.
Proof.
  intros data p pat H L. unfold match_at in H. apply list_eqb_eq in H.
  exists (firstn p data), (skipn (length pat) (skipn p data)). split.
  - rewrite <- H at 1. now rewrite firstn_skipn, firstn_skipn.
  - rewrite firstn_length. lia.
Qed.
Lemma occurs_match_at : forall data p pat, occurs_at data p pat -> match_at data p pat = true.
Proof.
  intros data p pat (a & b & -> & <-). unfold match_at. apply list_eqb_eq.
  rewrite skipn_app, skipn_all, Nat.sub_diag. cbn [app skipn].
  rewrite firstn_app, firstn_all, Nat.sub_diag. cbn [firstn]. now rewrite app_nil_r.
Qed.
Lemma occurs_bound : forall data p pat, occurs_at data p pat -> p + length pat <= length data.
Proof. intros data p pat (a & b & -> & <-). rewrite !app_length. lia. Qed.

Lemma within_dec : forall data s e pat p, s <= p -> e <= length data ->
  (p + length pat <=? e) && match_at data p pat = true <-> within data s e pat p.
Proof.
  intros data s e pat p Hs He. split.
  - intros H. apply andb_true_iff in H as [H1 H2]. apply Nat.leb_le in H1.
    repeat split; auto. apply match_at_occurs; auto. lia.
  - intros (_ & H1 & H2). apply andb_true_iff. split; [now apply Nat.leb_le|]. now apply occurs_match_at.
Qed.

(** Finding the first occurrence. *)
Lemma find_from_spec : forall fuel data pat s p e, e < p + fuel -> s <= p -> e <= length data ->
  (forall q, s <= q < p -> ~ within data s e pat q) ->
  match find_from fuel data pat p e with
  | Some r => first_occurrence data s e pat r
  | None => forall q, ~ within data s e pat q
  end.
Proof.
  induction fuel as [|g IH]; intros data pat s p e HF Hs He Hq; cbn [find_from].
  - intros q (A & B & C). apply (Hq q). lia. repeat split; auto.
  - destruct (p + length pat <=? e) eqn:E1.
    + destruct (match_at data p pat) eqn:E2.
      * split; [|exact Hq]. apply within_dec; auto. now rewrite E1, E2.
      * apply IH; auto; try lia. intros q Q W. destruct (Nat.eq_dec q p) as [->|].
        -- apply within_dec in W; auto. rewrite E1, E2 in W. discriminate.
        -- apply (Hq q); auto; lia.
    + intros q (A & B & C). apply Nat.leb_gt in E1. apply (Hq q); [lia|]. repeat split; auto.
Qed.

(** ** Marks as an overlay *)
Definition ov_of (marks : list Z) : overlay := fun i =>
  match nth_error marks i with
  | Some x => if (x =? -1)%Z then None else Some x
  | None => None
  end.

Lemma free_at_spec : forall marks p n, p + n <= length marks ->
  free_at marks p n = true <-> forall i, p <= i < p + n -> ov_of marks i = None.
Proof.
  intros marks p n HL. unfold free_at. rewrite forallb_forall. split.
  - intros H i Hi. unfold ov_of.
    destruct (nth_error marks i) as [x|] eqn:E; auto.
    assert (I : In x (firstn n (skipn p marks))).
    { apply (nth_error_In _ (i - p)). rewrite nth_error_firstn_lt by lia.
      rewrite nth_error_skipn'. now replace (p + (i - p)) with i by lia. }
    apply H in I. now rewrite I.
  - intros H x I. apply In_nth_error in I as [j E].
    assert (J : j < n).
    { assert (nth_error (firstn n (skipn p marks)) j <> None) by congruence.
      apply nth_error_Some in H0. rewrite firstn_length in H0. lia. }
    rewrite nth_error_firstn_lt in E by lia. rewrite nth_error_skipn' in E.
    specialize (H (p + j) ltac:(lia)). unfold ov_of in H. rewrite E in H.
    destruct (x =? -1)%Z; congruence.
Qed.

Lemma write_at_length : forall marks p vals, p + length vals <= length marks ->
  length (write_at marks p vals) = length marks.
Proof. intros. unfold write_at. rewrite !app_length, firstn_length, skipn_length. lia. Qed.

Lemma nth_error_write_at : forall marks p vals i, p + length vals <= length marks ->
  nth_error (write_at marks p vals) i =
    if (p <=? i) && (i <? p + length vals) then nth_error vals (i - p) else nth_error marks i.
Proof.
  intros marks p vals i HL. unfold write_at.
  assert (LF : length (firstn p marks) = p) by (rewrite firstn_length; lia).
  destruct (p <=? i) eqn:E1; cbn [andb].
  - apply Nat.leb_le in E1. rewrite nth_error_app2 by lia. rewrite LF.
    destruct (i <? p + length vals) eqn:E2.
    + apply Nat.ltb_lt in E2. rewrite nth_error_app1 by lia. reflexivity.
    + apply Nat.ltb_ge in E2. rewrite nth_error_app2 by lia. rewrite nth_error_skipn'. f_equal. lia.
  - apply Nat.leb_gt in E1. rewrite nth_error_app1 by lia. now rewrite nth_error_firstn_lt by lia.
Qed.

Lemma ov_write_at_out : forall marks p vals i, p + length vals <= length marks ->
  ~ (p <= i < p + length vals) -> ov_of (write_at marks p vals) i = ov_of marks i.
Proof.
  intros marks p vals i HL H. unfold ov_of. rewrite nth_error_write_at by auto.
  destruct ((p <=? i) && (i <? p + length vals)) eqn:E; auto.
  apply andb_true_iff in E as [E1 E2]. apply Nat.leb_le in E1. apply Nat.ltb_lt in E2. lia.
Qed.
Lemma ov_write_at_in : forall marks p vals j, p + length vals <= length marks ->
  Forall (fun x => x <> -1)%Z vals -> j < length vals ->
  ov_of (write_at marks p vals) (p + j) = Some (nth j vals 0%Z).
Proof.
  intros marks p vals j HL HV HJ. unfold ov_of. rewrite nth_error_write_at by auto.
  destruct ((p <=? p + j) && (p + j <? p + length vals)) eqn:E.
  - replace (p + j - p) with j by lia. rewrite (nth_error_nth' vals 0%Z HJ).
    assert (N : nth j vals 0%Z <> (-1)%Z) by (rewrite Forall_forall in HV; apply HV; now apply nth_In).
    destruct (Z.eqb_spec (nth j vals 0%Z) (-1)%Z); congruence.
  - apply andb_false_iff in E as [E|E].
    + apply Nat.leb_gt in E. lia.
    + apply Nat.ltb_ge in E. lia.
Qed.

(** ** The forward scan *)
Lemma cand_dec : forall data marks s e pat p, s <= p -> e <= length data -> length data <= length marks ->
  (p + length pat <=? e) && (match_at data p pat && free_at marks p (length pat)) = true <->
  candidate data (ov_of marks) s e pat p.
Proof.
  intros data marks s e pat p Hs He Hm. split.
  - intros H. apply andb_true_iff in H as [H1 H]. apply andb_true_iff in H as [H2 H3].
    split. { apply within_dec; auto. now rewrite H1, H2. }
    apply Nat.leb_le in H1. apply free_at_spec; auto. lia.
  - intros [W F]. destruct W as (A & B & C).
    rewrite (occurs_match_at _ _ _ C). cbn [andb]. apply andb_true_iff. split; [now apply Nat.leb_le|].
    apply free_at_spec; auto. lia.
Qed.

Lemma candidate_same : forall data ov ov' s e pat p,
  (forall i, p <= i < p + length pat -> ov i = ov' i) ->
  candidate data ov s e pat p -> candidate data ov' s e pat p.
Proof. intros data ov ov' s e pat p H [W F]. split; auto. intros i Hi. rewrite <- H by auto. now apply F. Qed.

Lemma all_matches_same : forall data s e pat ov ov' from ps,
  (forall i, from <= i -> ov i = ov' i) ->
  all_matches data ov s e pat from ps -> all_matches data ov' s e pat from ps.
Proof.
  intros data s e pat ov ov' from ps H A. revert ov' H. induction A as [from N|from p ps L C N A IH]; intros ov' H.
  - apply all_end. intros p Hp C. apply (N p Hp). revert C. apply candidate_same. intros i Hi. symmetry. apply H. lia.
  - apply all_take; auto.
    + revert C. apply candidate_same. intros i Hi. apply H. lia.
    + intros q Q C'. apply (N q Q). revert C'. apply candidate_same. intros i Hi. symmetry. apply H. lia.
    + apply IH. intros i Hi. apply H. lia.
Qed.
Lemma leading_matches_same : forall data s e pat ov ov' from ps,
  (forall i, from <= i -> ov i = ov' i) ->
  leading_matches data ov s e pat from ps -> leading_matches data ov' s e pat from ps.
Proof.
  intros data s e pat ov ov' from ps H A. revert ov' H. induction A as [from N|from ps C A IH|from ps W N A IH]; intros ov' H.
  - now apply lead_end.
  - apply lead_take.
    + revert C. apply candidate_same. intros i Hi. apply H. lia.
    + apply IH. intros i Hi. apply H. lia.
  - apply lead_pass; auto.
    + intros C. apply N. revert C. apply candidate_same. intros i Hi. symmetry. apply H. lia.
    + apply IH. intros i Hi. apply H. lia.
Qed.
Lemma trailing_matches_same : forall data s e pat ov ov' till ps,
  (forall i, i < till -> ov i = ov' i) ->
  trailing_matches data ov s e pat till ps -> trailing_matches data ov' s e pat till ps.
Proof.
  intros data s e pat ov ov' till ps H A. revert ov' H. induction A as [till N|p ps C A IH|p ps W N A IH]; intros ov' H.
  - now apply trail_end.
  - apply trail_take.
    + revert C. apply candidate_same. intros i Hi. apply H. lia.
    + apply IH. intros i Hi. apply H. lia.
  - apply trail_pass; auto.
    + intros C. apply N. revert C. apply candidate_same. intros i Hi. symmetry. apply H. lia.
    + apply IH. intros i Hi. apply H. lia.
Qed.

Definition good_vals (pat vals : list Z) : Prop :=
  length vals = length pat /\ Forall (fun x => x <> -1)%Z vals.

Lemma stamped_nil : forall ov vals, stamped ov ov [] vals.
Proof. intros ov vals. split; [intros p j []|reflexivity]. Qed.

(** Stamping at [p] and then at positions that do not meet it. *)
Lemma stamped_cons : forall marks p vals ps ov',
  p + length vals <= length marks -> Forall (fun x => x <> -1)%Z vals ->
  (forall q, In q ps -> p + length vals <= q \/ q + length vals <= p) ->
  stamped (ov_of (write_at marks p vals)) ov' ps vals ->
  stamped (ov_of marks) ov' (p :: ps) vals.
Proof.
  intros marks p vals ps ov' HL HV HD [S1 S2]. split.
  - intros q j [<-|I] J; [|now apply S1].
    rewrite S2.
    + now apply ov_write_at_in.
    + intros q I. destruct (HD q I); lia.
  - intros i H. rewrite S2.
    + apply ov_write_at_out; auto. apply H. now left.
    + intros q I. apply H. now right.
Qed.

Lemma all_matches_ge : forall data ov s e pat from ps, all_matches data ov s e pat from ps ->
  forall q, In q ps -> from <= q.
Proof. intros data ov s e pat from ps A. induction A; intros q I; [destruct I|]. destruct I as [<-|I]; auto. specialize (IHA q I). lia. Qed.
Lemma leading_matches_ge : forall data ov s e pat from ps, leading_matches data ov s e pat from ps ->
  forall q, In q ps -> from <= q.
Proof.
  intros data ov s e pat from ps A. induction A; intros q I.
  - destruct I.
  - destruct I as [<-|I]; auto. specialize (IHA q I). lia.
  - specialize (IHA q I). lia.
Qed.
Lemma trailing_matches_le : forall data ov s e pat till ps, trailing_matches data ov s e pat till ps ->
  forall q, In q ps -> q + length pat <= till.
Proof.
  intros data ov s e pat till ps A. induction A; intros q I.
  - destruct I.
  - destruct I as [<-|I]; auto. specialize (IHA q I). lia.
  - specialize (IHA q I). lia.
Qed.

Lemma scan_all_spec : forall fuel data pat vals s e i marks n,
  e < i + fuel -> s <= i -> e <= length data -> length data = length marks ->
  1 <= length pat -> good_vals pat vals ->
  exists ps marks', scan_fwd fuel IAll data pat vals e i marks n = (n + length ps, marks') /\
    all_matches data (ov_of marks) s e pat i ps /\ stamped (ov_of marks) (ov_of marks') ps vals /\
    length marks' = length marks.
Proof.
  induction fuel as [|g IH]; intros data pat vals s e i marks n HF Hs He Hm HP [HV1 HV2].
  - exists [], marks. cbn [scan_fwd length]. rewrite Nat.add_0_r. repeat split; auto using stamped_nil; try easy.
    apply all_end. intros p Hp [(A & B & C) _]. lia.
  - cbn [scan_fwd]. destruct (i + length pat <=? e) eqn:E1.
    2:{ exists [], marks. cbn [length]. rewrite Nat.add_0_r. repeat split; auto using stamped_nil; try easy.
        apply all_end. intros p Hp [(A & B & C) _]. apply Nat.leb_gt in E1. lia. }
    pose proof (cand_dec data marks s e pat i Hs He ltac:(lia)) as CD. rewrite E1 in CD. cbn [andb] in CD.
    assert (STEP : match_at data i pat && free_at marks i (length pat) = false ->
      exists ps marks', scan_fwd g IAll data pat vals e (S i) marks n = (n + length ps, marks') /\
        all_matches data (ov_of marks) s e pat i ps /\ stamped (ov_of marks) (ov_of marks') ps vals /\
        length marks' = length marks).
    { intros EF. destruct (IH data pat vals s e (S i) marks n) as (ps & marks' & R1 & R2 & R3 & R4);
        auto; try lia; [now split|].
      exists ps, marks'. split; [exact R1|]. split; [|split; auto].
      assert (NC : ~ candidate data (ov_of marks) s e pat i) by (intros C; apply CD in C; congruence).
      inversion R2 as [from N|from p ps0 L C N A]; subst.
      - apply all_end. intros p Hp. destruct (Nat.eq_dec p i) as [->|]; auto. apply N. lia.
      - apply all_take; auto; try lia. intros q Q. destruct (Nat.eq_dec q i) as [->|]; auto. apply N. lia. }
    destruct (match_at data i pat) eqn:E2; [|now apply STEP].
    destruct (free_at marks i (length pat)) eqn:E3; [|now apply STEP].
    apply Nat.leb_le in E1.
    assert (LW : i + length vals <= length marks) by lia.
    destruct (IH data pat vals s e (i + length pat) (write_at marks i vals) (S n)) as (ps & marks' & R1 & R2 & R3 & R4);
      auto; try lia; [rewrite write_at_length by auto; lia|now split|].
    exists (i :: ps), marks'. split; [|split; [|split]].
    + rewrite R1. f_equal. cbn [length]. lia.
    + apply all_take; auto; try lia.
      * apply CD. reflexivity.
      * eapply all_matches_same; [|exact R2]. intros j Hj. apply ov_write_at_out; auto. lia.
    + eapply stamped_cons; eauto. intros q I. left. rewrite HV1. eapply all_matches_ge; eauto.
    + rewrite R4. now apply write_at_length.
Qed.

Lemma scan_leading_spec : forall fuel data pat vals s e i marks n,
  e < i + fuel -> s <= i -> e <= length data -> length data = length marks ->
  1 <= length pat -> good_vals pat vals ->
  exists ps marks', scan_fwd fuel ILeading data pat vals e i marks n = (n + length ps, marks') /\
    leading_matches data (ov_of marks) s e pat i ps /\ stamped (ov_of marks) (ov_of marks') ps vals /\
    length marks' = length marks.
Proof.
  induction fuel as [|g IH]; intros data pat vals s e i marks n HF Hs He Hm HP [HV1 HV2].
  - exists [], marks. cbn [scan_fwd length]. rewrite Nat.add_0_r. repeat split; auto using stamped_nil; try easy.
    apply lead_end. intros (A & B & C). lia.
  - cbn [scan_fwd]. 
    assert (STOP : (i + length pat <=? e) && match_at data i pat = false ->
      exists ps marks', (n, marks) = (n + length ps, marks') /\
        leading_matches data (ov_of marks) s e pat i ps /\ stamped (ov_of marks) (ov_of marks') ps vals /\
        length marks' = length marks).
    { intros EF. exists [], marks. cbn [length]. rewrite Nat.add_0_r. repeat split; auto using stamped_nil; try easy.
      apply lead_end. intros W. apply within_dec in W; auto. congruence. }
    destruct (i + length pat <=? e) eqn:E1; [|now apply STOP].
    pose proof (cand_dec data marks s e pat i Hs He ltac:(lia)) as CD. rewrite E1 in CD. cbn [andb] in CD.
    destruct (match_at data i pat) eqn:E2; [|now apply STOP]. clear STOP.
    assert (W : within data s e pat i) by (apply within_dec; auto; now rewrite E1, E2).
    destruct (free_at marks i (length pat)) eqn:E3.
    + apply Nat.leb_le in E1.
      assert (LW : i + length vals <= length marks) by lia.
      destruct (IH data pat vals s e (i + length pat) (write_at marks i vals) (S n)) as (ps & marks' & R1 & R2 & R3 & R4);
        auto; try lia; [rewrite write_at_length by auto; lia|now split|].
      exists (i :: ps), marks'. split; [|split; [|split]].
      * rewrite R1. f_equal. cbn [length]. lia.
      * apply lead_take; auto.
        -- apply CD. reflexivity.
        -- eapply leading_matches_same; [|exact R2]. intros j Hj. apply ov_write_at_out; auto. lia.
      * eapply stamped_cons; eauto. intros q I. left. rewrite HV1. eapply leading_matches_ge; eauto.
      * rewrite R4. now apply write_at_length.
    + destruct (IH data pat vals s e (S i) marks n) as (ps & marks' & R1 & R2 & R3 & R4);
        auto; try lia; [now split|].
      exists ps, marks'. split; [exact R1|]. split; [|split; auto].
      apply lead_pass; auto. intros C. apply CD in C. discriminate.
Qed.

Lemma scan_first_spec : forall fuel data pat vals s e i marks n,
  e < i + fuel -> s <= i -> e <= length data -> length data = length marks ->
  1 <= length pat -> good_vals pat vals ->
  (forall q, q < i -> ~ candidate data (ov_of marks) s e pat q) ->
  exists ps marks', scan_fwd fuel IFirst data pat vals e i marks n = (n + length ps, marks') /\
    first_match data (ov_of marks) s e pat ps /\ stamped (ov_of marks) (ov_of marks') ps vals /\
    length marks' = length marks.
Proof.
  induction fuel as [|g IH]; intros data pat vals s e i marks n HF Hs He Hm HP [HV1 HV2] HN.
  - exists [], marks. cbn [scan_fwd length]. rewrite Nat.add_0_r. repeat split; auto using stamped_nil; try easy.
    apply first_none. intros p C. destruct (Nat.lt_ge_cases p i). { now apply (HN p). } destruct C as [(A & B & C) _]. lia.
  - cbn [scan_fwd]. destruct (i + length pat <=? e) eqn:E1.
    2:{ exists [], marks. cbn [length]. rewrite Nat.add_0_r. repeat split; auto using stamped_nil; try easy.
        apply first_none. intros p C. destruct (Nat.lt_ge_cases p i). { now apply (HN p). }
        destruct C as [(A & B & C) _]. apply Nat.leb_gt in E1. lia. }
    pose proof (cand_dec data marks s e pat i Hs He ltac:(lia)) as CD. rewrite E1 in CD. cbn [andb] in CD.
    assert (STEP : match_at data i pat && free_at marks i (length pat) = false ->
      exists ps marks', scan_fwd g IFirst data pat vals e (S i) marks n = (n + length ps, marks') /\
        first_match data (ov_of marks) s e pat ps /\ stamped (ov_of marks) (ov_of marks') ps vals /\
        length marks' = length marks).
    { intros EF. apply IH; auto; try lia; [now split|]. intros q Q. destruct (Nat.eq_dec q i) as [->|].
      - intros C. apply CD in C. congruence.
      - apply HN. lia. }
    destruct (match_at data i pat) eqn:E2; [|now apply STEP].
    destruct (free_at marks i (length pat)) eqn:E3; [|now apply STEP].
    apply Nat.leb_le in E1.
    exists [i], (write_at marks i vals). split; [|split; [|split]].
    + f_equal. cbn [length]. lia.
    + apply first_take; auto. apply CD. reflexivity.
    + apply stamped_cons; auto using stamped_nil; try lia. intros q [].
    + apply write_at_length. lia.
Qed.

Lemma scan_trailing_spec : forall fuel data pat vals s e i1 marks n,
  i1 <= s + fuel -> pred i1 + length pat <= e -> e <= length data -> length data = length marks -> s <= e ->
  1 <= length pat -> good_vals pat vals -> 
  exists ps marks', scan_bwd fuel data pat vals s i1 marks n = (n + length ps, marks') /\
    (s < i1 -> trailing_matches data (ov_of marks) s e pat (pred i1 + length pat) ps) /\
    (i1 <= s -> ps = []) /\
    stamped (ov_of marks) (ov_of marks') ps vals /\
    length marks' = length marks.
Proof.
  induction fuel as [|g IH]; intros data pat vals s e i1 marks n HF Hi He Hm Hse HP [HV1 HV2].
  - exists [], marks. cbn [scan_bwd length]. rewrite Nat.add_0_r. repeat split; auto using stamped_nil; try easy. lia.
  - cbn [scan_bwd]. destruct (s <? i1) eqn:E1.
    2:{ exists [], marks. cbn [length]. rewrite Nat.add_0_r. apply Nat.ltb_ge in E1.
        repeat split; auto using stamped_nil; try easy. lia. }
    apply Nat.ltb_lt in E1.
    assert (HI : s <= pred i1) by lia. remember (pred i1) as i eqn:Ei.
    assert (Ei1 : i1 = S i) by lia.
    assert (LE : (i + length pat <=? e) = true) by (apply Nat.leb_le; auto).
    pose proof (cand_dec data marks s e pat i HI He ltac:(lia)) as CD. rewrite LE in CD. cbn [andb] in CD.
    pose proof (within_dec data s e pat i HI He) as WD. rewrite LE in WD. cbn [andb] in WD.
    destruct (match_at data i pat) eqn:E2.
    2:{ exists [], marks. cbn [length]. rewrite Nat.add_0_r. repeat split; auto using stamped_nil; try easy.
        intros _. apply trail_end. intros p Hp W. assert (p = i) by lia. subst p. apply WD in W. discriminate. }
    assert (W : within data s e pat i) by now apply WD.
    destruct (free_at marks i (length pat)) eqn:E3.
    + assert (LW : i + length vals <= length marks) by lia.
      destruct (IH data pat vals s e (i1 - length pat) (write_at marks i vals) (S n)) as (ps & marks' & R1 & R2 & R2' & R3 & R4);
        auto; try lia; [rewrite write_at_length by auto; lia|now split|].
      assert (TL : trailing_matches data (ov_of (write_at marks i vals)) s e pat i ps).
      { destruct (Nat.lt_ge_cases s (i1 - length pat)) as [Q|Q].
        - specialize (R2 Q). replace (pred (i1 - length pat) + length pat) with i in R2 by lia. exact R2.
        - rewrite (R2' Q). apply trail_end. intros p Hp (A & B & C). lia. }
      exists (i :: ps), marks'. split; [|split; [|split; [|split]]].
      * rewrite R1. f_equal. cbn [length]. lia.
      * intros _. apply trail_take; [apply CD; reflexivity|].
        eapply trailing_matches_same; [|exact TL]. intros j Hj. apply ov_write_at_out; auto. lia.
      * lia.
      * eapply stamped_cons; eauto. intros q I. right. rewrite HV1. eapply trailing_matches_le; eauto.
      * rewrite R4. now apply write_at_length.
    + destruct (IH data pat vals s e i marks n) as (ps & marks' & R1 & R2 & R2' & R3 & R4);
        auto; try lia; [now split|].
      exists ps, marks'. split; [exact R1|]. split; [|split; [lia|split; auto]].
      intros _. apply trail_pass; auto.
      { intros C. apply CD in C. discriminate. }
      destruct (Nat.lt_ge_cases s i) as [Q|Q].
      * specialize (R2 Q). replace (i + length pat - 1) with (pred i + length pat) by lia. exact R2.
      * rewrite (R2' Q). apply trail_end. intros p Hp (A & B & C). lia.
Qed.
