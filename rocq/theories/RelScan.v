(** Scanning a RELATIVE file. *)
From Verif Require Import Base BaseFacts Stdio StdioProofs FileIO SpecFile RelProofs RelHist RelNext.

(** Indexes of the used slots from [p] on. *)
Definition present_from (slots : list slot) (p : nat) : list nat :=
  filter (fun i => (0 <? size_at slots i)%nat) (seq p (length slots - p)).
Lemma size_at_out : forall slots i, (length slots <= i)%nat -> size_at slots i = 0%nat.
Proof. intros slots i H. unfold size_at. now rewrite (proj2 (nth_error_None slots i)). Qed.
Lemma present_step : forall slots p i, (p <= i)%nat -> (0 < size_at slots i)%nat ->
  (forall j, (p <= j < i)%nat -> size_at slots j = 0%nat) -> present_from slots p = i :: present_from slots (S i).
Proof.
  intros slots p i PI SI Z. remember (i - p)%nat as g eqn:G. revert p PI Z G.
  induction g as [|g IH]; intros p PI Z G; unfold present_from in *.
  - assert (p = i) by lia. subst p.
    assert (LI : (i < length slots)%nat) by (destruct (Nat.lt_ge_cases i (length slots)); auto; rewrite size_at_out in SI by auto; lia).
    replace (length slots - i)%nat with (S (length slots - S i)) by lia. cbn [seq filter].
    destruct (Nat.ltb_spec 0 (size_at slots i)); [reflexivity|lia].
  - assert (LI : (i < length slots)%nat) by (destruct (Nat.lt_ge_cases i (length slots)); auto; rewrite size_at_out in SI by auto; lia).
    replace (length slots - p)%nat with (S (length slots - S p)) by lia. cbn [seq filter].
    rewrite (Z p) by lia. cbn [Nat.ltb Nat.leb]. apply IH; try lia. intros j J. apply Z. lia.
Qed.
Lemma present_none : forall slots p, (forall j, (p <= j)%nat -> size_at slots j = 0%nat) -> present_from slots p = [].
Proof.
  intros slots p Z. unfold present_from. remember (length slots - p)%nat as n. clear Heqn. revert p Z.
  induction n as [|n IH]; intros p Z; cbn [seq filter]; auto. rewrite (Z p) by lia. cbn [Nat.ltb Nat.leb]. apply IH. intros j J. apply Z. lia.
Qed.

(** The file is open for reading, and the next slot is [p]. *)
Record reading (hi : nat) (slots : list slot) (g : cfile) (p : nat) : Prop := mkReading {
  g_org : f_org g = OrgRelative; g_mode : readable (f_open g) = true; g_ne : f_nonexistent g = false; g_eof : f_eof g = false;
  g_max : f_max g = hi; g_area : length (f_data g) = hi;
  g_stream : f_stream g = Some (mkStream (flat slots) (p * (hi + 8)) false) }.

Lemma read_next_step : forall c hi slots g p, (1 <= hi)%nat -> Forall (slot_ok hi) slots -> Forall (fun r : slot => (fst r <= hi)%nat) slots ->
  fits (f_key g) (length slots) -> dep_fits hi (f_dep g) -> reading hi slots g p ->
  exists g', run_op c g OReadNext = Ok g' /\
   ((exists i n d, nth_error slots i = Some (n, d) /\ present_from slots p = i :: present_from slots (S i) /\
       reading hi slots g' (S i) /\ f_first g' = 0 /\ f_status g' = 0 /\ f_data g' = d /\
       f_key g' = (match f_key g with None => None
                   | Some k => Some (if negb (f_first g =? 0) && (i =? p)%nat then item_set k 1 else mkItem (Z.of_nat i + 1) (i_digits k)) end) /\
       f_dep g' = (match f_dep g with None => None | Some k => Some (mkItem (Z.of_nat n) (i_digits k)) end)) \/
    (present_from slots p = [] /\ f_status g' = 10 /\
       exists g'', run_op c g' OReadNext = Ok g'' /\ f_status g'' = 46 /\ f_data g'' = f_data g)).
Proof.
  intros c hi slots g p H1 F G FT DF [R1 R2 R3 R4 R5 R6 R7].
  assert (FU : (length slots - p < S (length (flat slots)))%nat) by (rewrite (flat_length hi) by auto; nia).
  destruct (next_spec hi slots (S (length (flat slots))) p (set_done false g) R5 H1 F R6 FT FU) as (st & f' & E & FRM & R).
  assert (EX : forall h, run_op c h OReadNext = ex_read c h false) by reflexivity. setoid_rewrite EX. clear EX.
  unfold ex_read. ffields. rewrite R3, R4. cbn [negb andb].
  assert (SW : forall A (x y : A), match f_open g with Closed | Output | Extend => x | _ => y end = y) by (intros; destruct (f_open g); try discriminate R2; auto).
  rewrite SW. unfold org_read_next. ffields. rewrite R1. unfold relative_read_next, with_stream. ffields. rewrite R7. cbn [s_bytes].
  rewrite E. cbn [obind]. destruct FRM as (M1 & M2 & M3 & M4 & M5 & M6 & M7 & M8 & M9 & M10 & M11 & M12). ffields.
  destruct R as [(-> & i & n & d & I1 & I2 & I3 & I4 & I5 & I6 & I7 & I8) | (-> & I1 & I2 & q & I3)].
  - change (0 =? 0) with true. cbv iota. unfold ret. eexists. split; [reflexivity|]. left. exists i, n, d.
    assert (NH : (n <= hi)%nat) by (pose proof (proj1 (Forall_forall _ _) G _ (nth_error_In _ _ I2)); auto).
    assert (DL : length d = hi) by (pose proof (proj1 (Forall_forall _ _) F _ (nth_error_In _ _ I2)) as [X _]; exact X).
    assert (ED : f_dep f' = f_dep g) by congruence. assert (EO : f_org f' = OrgRelative) by congruence.
    ffields. rewrite ED, EO.
    set (h := match f_dep g with Some _ => _ | None => _ end).
    assert (EH : h = set_dep (match f_dep g with None => None | Some k => Some (mkItem (Z.of_nat n) (i_digits k)) end)
        (set_flags (f_nonexistent f') false false (set_done true (set_first 0 f')))).
    { unfold h. unfold dep_fits in DF. destruct (f_dep g) as [k|] eqn:EK.
      - rewrite I6. rewrite item_set_id by lia. reflexivity.
      - destruct f'; ffields. subst. reflexivity. }
    rewrite EH. clear h EH. split; [exact I2|]. split; [|split; [|repeat split; ffields; auto; rewrite I8; reflexivity]].
    + apply present_step; auto. unfold size_at. now rewrite I2.
    + constructor; ffields; try congruence.
  - change (10 =? 0) with false. change (10 =? 10) with true. cbv iota. unfold ret. eexists. split; [reflexivity|]. right.
    split; [apply present_none; auto|]. ffields. split; auto. rewrite M8, R3. cbn [negb andb]. eexists. split; [reflexivity|]. ffields. auto.
Qed.


Lemma item_one : forall i n, (1 <= n)%nat -> Z.of_nat n < 10 ^ i_digits i -> item_set i 1 = mkItem 1 (i_digits i).
Proof. intros i n N H. apply item_set_id. lia. Qed.

Lemma fits_same : forall k k' n, (forall i, k = Some i -> exists v, k' = Some (mkItem v (i_digits i))) -> (k = None -> k' = None) -> fits k n -> fits k' n.
Proof. intros k k' n H H0 F. destruct k as [i|]; [destruct (H i eq_refl) as [v ->]; exact F|rewrite H0; auto; exact I]. Qed.

Lemma scan_from : forall c hi slots, (1 <= hi)%nat -> Forall (slot_ok hi) slots -> Forall (fun r : slot => (fst r <= hi)%nat) slots ->
  forall l g p, present_from slots p = l -> fits (f_key g) (length slots) -> dep_fits hi (f_dep g) -> reading hi slots g p -> (f_first g = 0 \/ p = 0%nat) ->
  (forall i x, nth_error l i = Some x -> exists n d g', nth_error slots x = Some (n, d) /\
      run_ops c g (repeat OReadNext (S i)) = Ok g' /\ got g g' (Z.of_nat x + 1) (n, d)) /\
  (exists g1 g2, run_ops c g (repeat OReadNext (S (length l))) = Ok g1 /\ f_status g1 = 10 /\
      run_op c g1 OReadNext = Ok g2 /\ f_status g2 = 46).
Proof.
  intros c hi slots H1 F G. induction l as [|x l IH]; intros g p PF FT DF RD FP.
  - destruct (read_next_step c hi slots g p H1 F G FT DF RD) as (g' & E & [(i & n & d & _ & PS & _) | (PS & S1 & g2 & E2 & S2 & _)]); [congruence|].
    split; [intros i x X; destruct i; discriminate|]. exists g', g2. cbn [repeat length run_ops]. rewrite E. cbn [obind]. auto.
  - destruct (read_next_step c hi slots g p H1 F G FT DF RD) as (g' & E & [(i & n & d & NI & PS & RD' & FR & ST & DA & KE & DE) | (PS & _)]); [|congruence].
    rewrite PF in PS. injection PS as EX EL. subst i.
    assert (LX : (x < length slots)%nat) by (apply nth_error_Some; congruence).
    assert (KE' : f_key g' = match f_key g with None => None | Some k => Some (mkItem (Z.of_nat x + 1) (i_digits k)) end).
    { rewrite KE. unfold fits in FT. destruct (f_key g) as [k|]; auto. f_equal.
      destruct (negb (f_first g =? 0) && (x =? p)%nat) eqn:B; auto. apply andb_true_iff in B. destruct B as [B1 B2].
      apply Nat.eqb_eq in B2. apply negb_true_iff, Z.eqb_neq in B1. destruct FP as [|FP]; [contradiction|]. subst x p.
      rewrite (item_one k (length slots)) by lia. reflexivity. }
    assert (FT' : fits (f_key g') (length slots)) by (rewrite KE'; unfold fits in *; destruct (f_key g); auto).
    assert (DF' : dep_fits hi (f_dep g')) by (rewrite DE; unfold dep_fits in *; destruct (f_dep g); auto).
    destruct (IH g' (S x) (eq_sym EL) FT' DF' RD' (or_introl FR)) as [IH1 (g1 & g2 & E1 & IH2)].
    split.
    + intros i y Y. destruct i as [|i].
      * injection Y as <-. exists n, d, g'. split; auto. cbn [repeat run_ops]. rewrite E. cbn [obind]. split; auto.
        split; auto. split; auto. split; intros k K; [rewrite KE', K|rewrite DE, K]; reflexivity.
      * cbn [nth_error] in Y. destruct (IH1 i y Y) as (n' & d' & g'' & Y1 & Y2 & Y3). exists n', d', g''. split; auto.
        split; [cbn [repeat run_ops] in *; rewrite E; cbn [obind]; exact Y2|].
        destruct Y3 as (Y3 & Y4 & Y5 & Y6). split; auto. split; auto. split; intros k K.
        -- specialize (Y5 (mkItem (Z.of_nat x + 1) (i_digits k))). rewrite KE', K in Y5. exact (Y5 eq_refl).
        -- specialize (Y6 (mkItem (Z.of_nat n) (i_digits k))). rewrite DE, K in Y6. exact (Y6 eq_refl).
    + exists g1, g2. cbn [repeat length run_ops] in *. rewrite E. cbn [obind]. split; [exact E1|auto].
Qed.

(** The records of the slots. *)
Definition recs_of (slots : list slot) : list (Z * frec) :=
  map (fun i => (Z.of_nat i + 1, match nth_error slots i with Some r => r | None => (0%nat, []) end)) (present_from slots 0).

Lemma filter_seq_sorted : forall P n p, StronglySorted lt (filter P (seq p n)).
Proof.
  intros P. induction n as [|n IH]; intros p; cbn [seq filter]; [constructor|].
  assert (H : Forall (lt p) (filter P (seq (S p) n))).
  { apply Forall_forall. intros x X. apply filter_In in X. destruct X as [X _]. apply in_seq in X. lia. }
  destruct (P p); [constructor|]; auto.
Qed.
Lemma recs_of_spec : forall slots, records_of (map_of slots) (recs_of slots).
Proof.
  intros slots. split.
  - unfold recs_of, present_from. pose proof (filter_seq_sorted (fun i => (0 <? size_at slots i)%nat) (length slots - 0) 0) as S.
    induction S as [|a l S IH FA]; cbn [map]; constructor; auto.
    apply Forall_forall. intros x X. apply in_map_iff in X. destruct X as (i & <- & I). cbn [fst].
    pose proof (proj1 (Forall_forall _ _) FA _ I). lia.
  - intros k r. unfold recs_of. rewrite in_map_iff. unfold present_from. split.
    + intros (i & E & I). apply filter_In in I. destruct I as [I1 I2]. apply in_seq in I1. apply Nat.ltb_lt in I2. unfold size_at in I2.
      destruct (nth_error slots i) as [[n d]|] eqn:N; [|lia]. injection E as <- <-.
      rewrite (map_of_in slots _ n d) by (try lia; replace (Z.to_nat (Z.of_nat i + 1 - 1)) with i by lia; auto).
      destruct (Nat.ltb_spec 0 n); [auto|lia].
    + unfold map_of. destruct (Z.ltb_spec k 1); [discriminate|]. destruct (nth_error slots (Z.to_nat (k - 1))) as [[n d]|] eqn:N; [|discriminate].
      destruct (Nat.ltb_spec 0 n) as [NP|]; [|discriminate]. intros E. injection E as <-.
      exists (Z.to_nat (k - 1)). rewrite N. split; [f_equal; lia|]. apply filter_In. split.
      * apply in_seq. assert ((Z.to_nat (k - 1) < length slots)%nat) by (apply nth_error_Some; congruence). lia.
      * unfold size_at. rewrite N. apply Nat.ltb_lt. auto.
Qed.

(** Reading every record of a file made of slots. *)
Lemma scan_slots : forall c hi slots g md, (1 <= hi)%nat -> Forall (slot_ok hi) slots -> Forall (fun r : slot => (fst r <= hi)%nat) slots ->
  declared hi (Some (flat slots)) g -> (md = Input \/ md = InOut) -> fits (f_key g) (length slots) -> dep_fits hi (f_dep g) ->
  exists g0, run_op c g (OOpen md) = Ok g0 /\ f_status g0 = 0 /\ f_key g0 = f_key g /\ f_dep g0 = f_dep g /\ f_access g0 = f_access g /\ reading hi slots g0 0 /\ f_first g0 = 2 /\ f_open g0 = md.
Proof.
  intros c hi slots g md H1 F G [D1 D2 D3 D4 D5 D6 D7] MD FT DF.
  change (run_op c g (OOpen md)) with (ex_open c g md). unfold ex_open. ffields. rewrite D2, D7. cbn [andb]. unfold file_open. ffields. rewrite D7.
  destruct MD as [-> | ->]; unfold ret; eexists; (split; [reflexivity|]); ffields; rewrite ?D4; cbn [andb]; repeat (split; [reflexivity|]); (split; [|split; reflexivity]); constructor; ffields; auto.
Qed.
Lemma got_from : forall g g0 g' k r, f_key g0 = f_key g -> f_dep g0 = f_dep g -> got g0 g' k r -> got g g' k r.
Proof. intros g g0 g' k r K D (A & B & E & H). rewrite K in E. rewrite D in H. split; auto. Qed.
