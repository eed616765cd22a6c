(** INSPECT statements: proofs about whole statements. *)
From Verif Require Import Base BaseFacts Field Sign SpecNum SpecStore DispProofs MoveProofs CmpProofs
  Numeric MoveAll DispInt Inspect SpecInspect InspectProofs.

Local Open Scope nat_scope.

Definition kind_of (ty : insp_type) : pat_kind :=
  match ty with IAll => All | ILeading => Leading | IFirst => First | ITrailing => Trailing end.
Definition delim_of (r : region) : delim :=
  match r with RBefore x => Before (fd x) | RAfter x => After (fd x) end.
(** No BEFORE phrase with a numeric DISPLAY operand. *)
Definition region_ok (r : region) : Prop :=
  match r with RBefore x => a_type (fa x) <> TDisplay | RAfter _ => True end.

Definition wf_insp (st : insp) : Prop :=
  i_s st <= i_e st /\ i_e st <= length (i_data st) /\ length (i_marks st) = length (i_data st).

Lemma set_region_id : forall st, set_region st (i_s st) (i_e st) = st.
Proof. destruct st; reflexivity. Qed.

Lemma regions_spec : forall rs st, wf_insp st -> Forall region_ok rs ->
  exists s e, regions rs st = Ok (set_region st s e) /\
    region_is (i_data st) (map delim_of rs) (i_s st, i_e st) (s, e) /\
    s <= e /\ e <= length (i_data st).
Proof.
  induction rs as [|r rs IH]; intros st (W1 & W2 & W3) HR.
  - exists (i_s st), (i_e st). rewrite set_region_id. repeat split; auto. constructor.
  - inversion HR as [|? ? HO HR']; subst.
    pose proof (fun x => find_from_spec (S (i_e st)) (i_data st) x (i_s st) (i_s st) (i_e st)
                  ltac:(lia) ltac:(lia) W2 ltac:(intros; lia)) as FS.
    destruct r as [x|x]; cbn [regions map delim_of region_ok] in *.
    + unfold inspect_before. specialize (FS (fd x)).
      destruct (a_type (fa x)) eqn:T; [|congruence| | | | | | | | | | |]; cbn [obind];
      (destruct (find_from (S (i_e st)) (i_data st) (fd x) (i_s st) (i_e st)) as [p|];
       [ destruct FS as [(A & B & C) D];
         destruct (IH (set_region st (i_s st) p)) as (s & e & R1 & R2 & R3 & R4); auto;
         [ unfold wf_insp, i_data in *; cbn in *; repeat split; auto; lia
         | exists s, e; repeat split; auto; eapply reg_before; [split; [repeat split; eauto|exact D]|exact R2] ]
       | destruct (IH st) as (s & e & R1 & R2 & R3 & R4); auto; [repeat split; auto|];
         exists s, e; repeat split; auto; apply reg_before_none; auto ]).
    + unfold inspect_after. specialize (FS (fd x)).
      destruct (find_from (S (i_e st)) (i_data st) (fd x) (i_s st) (i_e st)) as [p|].
      * destruct FS as [(A & B & C) D].
        destruct (IH (set_region st (p + length (fd x)) (i_e st))) as (s & e & R1 & R2 & R3 & R4); auto.
        { unfold wf_insp, i_data in *; cbn in *; repeat split; auto; lia. }
        exists s, e; repeat split; auto. eapply reg_after; [split; [repeat split; eauto|exact D]|exact R2].
      * destruct (IH (set_region st (i_e st) (i_e st))) as (s & e & R1 & R2 & R3 & R4); auto.
        { unfold wf_insp, i_data in *; cbn in *; repeat split; auto; lia. }
        exists s, e; repeat split; auto. apply reg_after_none; auto.
Qed.

Lemma first_match_from : forall data ov s e pat q, q < s -> ~ candidate data ov s e pat q.
Proof. intros data ov s e pat q H [(A & _) _]. lia. Qed.

Lemma scan_spec : forall ty st pat vals, wf_insp st -> 1 <= length pat -> good_vals pat vals ->
  exists ps marks', scan ty st pat vals = Ok (length ps, marks') /\
    matches (kind_of ty) (i_data st) (ov_of (i_marks st)) (i_s st) (i_e st) pat ps /\
    stamped (ov_of (i_marks st)) (ov_of marks') ps vals /\ length marks' = length (i_marks st).
Proof.
  intros ty st pat vals (W1 & W2 & W3) HP HV. unfold scan.
  destruct (length pat =? 0) eqn:E0; [apply Nat.eqb_eq in E0; lia|].
  destruct ty; cbn [kind_of matches].
  - destruct (scan_all_spec (S (i_e st - i_s st)) (i_data st) pat vals (i_s st) (i_e st) (i_s st) (i_marks st) 0)
      as (ps & mk & A & B & C & D); auto; try lia. exists ps, mk. rewrite A. auto.
  - destruct (scan_leading_spec (S (i_e st - i_s st)) (i_data st) pat vals (i_s st) (i_e st) (i_s st) (i_marks st) 0)
      as (ps & mk & A & B & C & D); auto; try lia. exists ps, mk. rewrite A. auto.
  - destruct (scan_first_spec (S (i_e st - i_s st)) (i_data st) pat vals (i_s st) (i_e st) (i_s st) (i_marks st) 0)
      as (ps & mk & A & B & C & D); auto; try lia.
    { intros q Q. now apply first_match_from. }
    exists ps, mk. rewrite A. auto.
  - destruct (length pat <=? i_e st - i_s st) eqn:E1.
    + apply Nat.leb_le in E1.
      destruct (scan_trailing_spec (S (i_e st - i_s st)) (i_data st) pat vals (i_s st) (i_e st)
                  (S (i_e st - length pat)) (i_marks st) 0) as (ps & mk & A & B & B' & C & D); auto; try lia.
      exists ps, mk. rewrite A. split; auto. split; auto.
      specialize (B ltac:(lia)). cbn [pred] in B. replace (i_e st - length pat + length pat) with (i_e st) in B by lia. exact B.
    + apply Nat.leb_gt in E1. exists [], (i_marks st). split; auto. split; [|split; auto using stamped_nil].
      apply trail_end. intros p Hp (A & B & C). lia.
Qed.

(** ** CHARACTERS *)
Lemma mark_chars_spec : forall l, length (snd (mark_chars l)) = length l /\
  (forall i, nth_error (snd (mark_chars l)) i =
     option_map (fun x => if (x =? -1)%Z then 1%Z else x) (nth_error l i)) /\
  fst (mark_chars l) = length (filter (fun x => x =? -1)%Z l).
Proof.
  induction l as [|x l (A & B & C)]; [repeat split; destruct i; reflexivity|].
  cbn [mark_chars]. destruct (mark_chars l) as [n r]. cbn [fst snd] in *.
  destruct (Z.eqb_spec x (-1)) as [->|H]; cbn [fst snd length filter].
  - repeat split; auto. + destruct i; [reflexivity|apply B]. + cbn. now rewrite C.
  - repeat split; auto.
    + destruct i; cbn [nth_error option_map]; [|apply B]. destruct (Z.eqb_spec x (-1)); congruence.
    + destruct (Z.eqb_spec x (-1)); [congruence|auto].
Qed.

(** The positions of the untaken characters in [s, s+k). *)
Definition untaken (marks : list Z) (s k : nat) : list nat :=
  filter (fun i => match ov_of marks i with None => true | _ => false end) (seq s k).

Lemma untaken_spec : forall marks s e, s <= e -> char_positions (ov_of marks) s e (untaken marks s (e - s)).
Proof.
  intros marks s e H. split.
  - unfold untaken. generalize (e - s). clear H. intros k.
    revert s. induction k as [|k IH]; intros s; cbn [seq filter]; [constructor|].
    destruct (ov_of marks s).
    + apply IH.
    + constructor; [apply IH|]. apply Forall_forall. intros i I. apply filter_In in I as [I _]. apply in_seq in I. lia.
  - intros i. unfold untaken. rewrite filter_In, in_seq. destruct (ov_of marks i); split; intros [? ?]; split; auto; try lia; congruence.
Qed.

Lemma untaken_count : forall marks s k, s + k <= length marks ->
  length (untaken marks s k) = length (filter (fun x => x =? -1)%Z (firstn k (skipn s marks))).
Proof.
  intros marks s k. revert s. induction k as [|k IH]; intros s H; [reflexivity|].
  unfold untaken in *. cbn [seq filter]. destruct (nth_error marks s) as [x|] eqn:E; [|apply nth_error_None in E; lia].
  assert (SK : skipn s marks = x :: skipn (S s) marks).
  { clear -E. revert marks E. induction s; intros [|y l] E; try discriminate.
    - injection E as ->. reflexivity. - cbn [skipn]. apply IHs. exact E. }
  rewrite SK. cbn [firstn filter]. unfold ov_of at 1. rewrite E.
  destruct (x =? -1)%Z; cbn [length]; rewrite IH by lia; reflexivity.
Qed.

(** Replacing each untaken character of a region by [c]. *)
Lemma chars_stamped : forall marks s e c, s <= e -> e <= length marks -> c <> (-1)%Z ->
  let vals := map (fun x => if (x =? -1)%Z then c else x) (firstn (e - s) (skipn s marks)) in
  stamped (ov_of marks) (ov_of (write_at marks s vals)) (untaken marks s (e - s)) [c] /\
  length (write_at marks s vals) = length marks.
Proof.
  intros marks s e c Hs He Hc vals.
  assert (LV : length vals = e - s) by (unfold vals; rewrite map_length, firstn_length, skipn_length; lia).
  assert (NE : forall i, s <= i < e -> nth_error (write_at marks s vals) i =
            option_map (fun x => if (x =? -1)%Z then c else x) (nth_error marks i)).
  { intros i Hi. rewrite nth_error_write_at by lia.
    replace ((s <=? i) && (i <? s + length vals)) with true
      by (symmetry; apply andb_true_iff; split; [apply Nat.leb_le|apply Nat.ltb_lt]; lia).
    unfold vals. rewrite nth_error_map, nth_error_firstn_lt by lia. rewrite nth_error_skipn'.
    now replace (s + (i - s)) with i by lia. }
  split; [|apply write_at_length; lia]. split.
  - intros p j I J. cbn [length] in J. assert (j = 0) by lia. subst j. rewrite Nat.add_0_r. cbn [nth].
    apply (untaken_spec marks s e Hs) in I as [I N]. unfold ov_of in *. rewrite NE by auto.
    destruct (nth_error marks p) as [x|] eqn:E; [|apply nth_error_None in E; lia].
    cbn [option_map]. destruct (Z.eqb_spec x (-1)); [|discriminate].
    destruct (Z.eqb_spec c (-1)); congruence.
  - intros i H. cbn [length] in H. destruct (Nat.le_gt_cases s i) as [L|L]; [destruct (Nat.lt_ge_cases i e) as [L2|L2]|].
    + destruct (ov_of marks i) eqn:O.
      * unfold ov_of in *. rewrite NE by auto. destruct (nth_error marks i) as [x|]; [|discriminate].
        cbn [option_map]. destruct (x =? -1)%Z eqn:Q; [discriminate|]. now rewrite Q.
      * exfalso. apply (H i); [|lia]. apply (untaken_spec marks s e Hs). split; auto.
    + apply ov_write_at_out; lia.
    + apply ov_write_at_out; lia.
Qed.

Lemma mark_chars_map : forall l, snd (mark_chars l) = map (fun x => if (x =? -1)%Z then 1%Z else x) l.
Proof.
  induction l as [|x l IH]; [reflexivity|]. cbn [mark_chars map]. destruct (mark_chars l). cbn [snd] in *.
  rewrite <- IH. destruct (x =? -1)%Z; reflexivity.
Qed.

(** ** Counters *)
Fixpoint add_counts (m : cfg) (idx : list nat) (ns : list nat) (cs : list field) : outcome (list field) :=
  match idx, ns with
  | i :: idx', n :: ns' =>
    match nth_error cs i with
    | None => NotModelled
    | Some c => do r <- add_int m c (Z.of_nat n); add_counts m idx' ns' (upd_f i (snd r) cs)
    end
  | _, _ => Ok cs
  end.

Definition what_of (k : tally_kind) : what :=
  match k with KChars => Chars | KPat ty pat => Pat (kind_of ty) (fd pat) end.
Definition phrase_of (p : tphrase) : tally_phrase := mkTally (what_of (tp_kind p)) (map delim_of (tp_reg p)).
Definition tphrase_ok (p : tphrase) : Prop :=
  Forall region_ok (tp_reg p) /\ match tp_kind p with KChars => True | KPat _ pat => fd pat <> [] end.

Lemma add_if_pos : forall {B} m c n (f : field -> B),
  (if 0 <? n then do r <- add_int m c (Z.of_nat n); Ok (f (snd r)) else Ok (f c)) =
  (do r <- add_int m c (Z.of_nat n); Ok (f (snd r))).
Proof. intros B m c n f. destruct n; reflexivity. Qed.

Lemma start_wf : forall st, length (i_marks st) = length (i_data st) -> wf_insp (inspect_start st).
Proof. intros st H. unfold wf_insp, inspect_start, i_data in *. cbn. repeat split; auto. lia. Qed.

Lemma ones_good : forall pat, good_vals pat (repeat 1%Z (length pat)).
Proof.
  intros pat. split; [apply repeat_length|]. apply Forall_forall. intros x I. apply repeat_spec in I. subst. discriminate.
Qed.

Lemma tally_run_spec : forall ps m st, length (i_marks st) = length (i_data st) -> Forall tphrase_ok ps ->
  exists ns st2, tally_counts (i_data st) (ov_of (i_marks st)) (map phrase_of ps) ns /\
    i_f st2 = i_f st /\ i_sign st2 = i_sign st /\
    forall cs, tally_run m ps st cs = (do cs' <- add_counts m (map tp_counter ps) ns cs; Ok (st2, cs')).
Proof.
  induction ps as [|p ps IH]; intros m st Hm HF.
  - exists [], st. split; [constructor|]. auto.
  - inversion HF as [|? ? [HR HK] HF']; subst.
    destruct (regions_spec (tp_reg p) (inspect_start st) (start_wf st Hm) HR) as (s & e & R1 & R2 & R3 & R4).
    set (st1 := set_region (inspect_start st) s e) in *.
    assert (D1 : i_data st1 = i_data st) by reflexivity.
    assert (M1 : i_marks st1 = i_marks st) by reflexivity.
    assert (S1 : i_s st1 = s) by reflexivity. assert (E1 : i_e st1 = e) by reflexivity.
    change (i_data (inspect_start st)) with (i_data st) in *.
    change (i_s (inspect_start st)) with 0 in R2. change (i_e (inspect_start st)) with (length (i_data st)) in R2.
    assert (W1 : wf_insp st1) by (unfold wf_insp; rewrite D1, M1, S1, E1; auto).
    (* the phrase itself *)
    assert (STEP : exists qs mk, taken_by (what_of (tp_kind p)) (i_data st) (ov_of (i_marks st)) s e qs /\
      stamped (ov_of (i_marks st)) (ov_of mk) qs (repeat 1%Z (width (what_of (tp_kind p)))) /\
      length mk = length (i_marks st) /\
      forall c, (match tp_kind p with
                 | KChars => tally_characters m st1 c
                 | KPat ty pat => inspect_tally m ty st1 c pat
                 end) = (do r <- add_int m c (Z.of_nat (length qs)); Ok (set_imarks st1 mk, snd r))).
    { destruct (tp_kind p) as [|ty pat]; cbn [what_of taken_by width].
      - exists (untaken (i_marks st) s (e - s)).
        exists (write_at (i_marks st) s (map (fun x => if (x =? -1)%Z then 1%Z else x) (firstn (e - s) (skipn s (i_marks st))))).
        split; [now apply untaken_spec|].
        destruct (chars_stamped (i_marks st) s e 1 R3 ltac:(lia) ltac:(discriminate)) as [C1 C2].
        split; [exact C1|]. split; [exact C2|].
        intros c. unfold tally_characters. rewrite M1, S1, E1.
        rewrite untaken_count by lia.
        destruct (mark_chars_spec (firstn (e - s) (skipn s (i_marks st)))) as (_ & _ & MC).
        pose proof (mark_chars_map (firstn (e - s) (skipn s (i_marks st)))) as MM.
        destruct (mark_chars (firstn (e - s) (skipn s (i_marks st)))) as [n rg]. cbn [fst snd] in *. subst n rg.
        apply (add_if_pos m c _ (fun f => (_, f))).
      - assert (HP : 1 <= length (fd pat)) by (destruct (fd pat); [congruence|cbn; lia]).
        destruct (scan_spec ty st1 (fd pat) (repeat 1%Z (f_size pat)) W1 HP (ones_good (fd pat)))
          as (qs & mk & A & B & C & D).
        rewrite D1, M1, S1, E1 in *. exists qs, mk. split; [exact B|]. split; [exact C|]. split; [exact D|].
        intros c. unfold inspect_tally. rewrite A. cbn [obind]. apply (add_if_pos m c _ (fun f => (_, f))). }
    destruct STEP as (qs & mk & T1 & T2 & T3 & T4).
    destruct (IH m (set_imarks st1 mk)) as (ns & st2 & X1 & X2 & X3 & X4); auto.
    { change (i_marks (set_imarks st1 mk)) with mk. change (i_data (set_imarks st1 mk)) with (i_data st). lia. }
    exists (length qs :: ns), st2. split; [|split; [exact X2|split; [exact X3|]]].
    { cbn [map]. eapply tc_cons; eauto. }
    intros cs. cbn [map tally_run add_counts]. rewrite R1. cbn [obind].
    destruct (nth_error cs (tp_counter p)) as [c|]; [|reflexivity].
    rewrite T4. destruct (add_int m c (Z.of_nat (length qs))) as [rc| |]; cbn [obind fst snd]; auto.
Qed.
