(** C69: INDEXED files. *)
From Coq Require Import Permutation.
From Verif Require Import Base FileIO Indexed SpecIndexed IndexedDb IndexedInv IndexedOps IndexedPos IndexedState IndexedRead IndexedStmt IndexedStmt2 IndexedStmt3 IndexedStmt4 IndexedThm.
Local Open Scope Z_scope.

(** Every permitted statement has a defined effect. *)
Theorem C69_indexed_total : forall c d f o, desc_ok d -> reach c d f -> allowed f o ->
  exists f', run_iop c f o = Ok f'.
Proof.
  intros c d f o OK R AL. destruct (step_good c d f o OK (reach_good c d f OK R) AL) as (f' & A & _). eauto.
Qed.

(** By every key the same records are read, in the order of the key; a key
    without DUPLICATES has no value twice. *)
Theorem C69_indexed_order : forall c d f i s, desc_ok d -> reach c d f -> nth_error (d_keys d) i = Some s ->
  in_order s (by_key f i) /\ Permutation (by_key f 0) (by_key f i) /\
  Forall (fun r => (d_min d <= length r <= d_max d)%nat) (by_key f i).
Proof.
  intros c d f i s OK R NE. assert (G := reach_good c d f OK R).
  assert (PM := by_key_perm d f i s OK G NE). split; [|split; auto].
  - unfold by_key. destruct (content f) as [|v vs] eqn:E; [destruct i; exact I|].
    destruct (content_ok d f OK G) as (dbs & DB & V); [congruence|]. rewrite <- E, V. now apply (order_idx d).
  - assert (F : Forall (fun r => (d_min d <= length r <= d_max d)%nat) (by_key f 0)).
    { unfold by_key. destruct (content f) as [|v vs] eqn:E; [constructor|].
      destruct (content_ok d f OK G) as (dbs & DB & V); [congruence|]. rewrite <- E, V.
      destruct dbs as [|l0 alts]; [destruct DB|]. destruct DB as [P _]. cbn [views nth]. apply Forall_forall. intros r I.
      apply in_map_iff in I as (e & <- & I). apply (pi_rec _ _ P) in I. tauto. }
    rewrite Forall_forall in *. intros r I. apply F. eapply Permutation_in; [apply Permutation_sym, PM|exact I].
Qed.

(** Only OPEN OUTPUT and successful WRITE, REWRITE and DELETE change the file. *)
Theorem C69_indexed_frame : forall c d f o f', desc_ok d -> reach c d f -> allowed f o -> run_iop c f o = Ok f' ->
  match o with
  | IOpen m => (m = Output \/ x_disk f = None) /\ x_open f = Closed \/ content f' = content f
  | IWrite _ | IRewrite | IDelete => x_status f' = 0 \/ content f' = content f
  | _ => content f' = content f
  end.
Proof.
  intros c d f o f' OK R AL RUN. assert (G := reach_good c d f OK R). destruct o; cbn [run_iop] in RUN.
  - destruct (open_stmt c d f m OK G (opened_mode m AL)) as (f1 & A1 & _ & A2). rewrite RUN in A1. injection A1 as <-.
    destruct (x_open f) eqn:XO; try (right; apply A2).
    destruct A2 as [A2|(_ & _ & _ & [A2|(p & _ & _ & _ & _ & _ & _ & A2)])]; [right; apply A2|right; apply A2|].
    rewrite A2. destruct m; destruct (x_disk f); auto.
  - destruct AL as [NL _]. destruct (close_stmt d f o G NL) as (f1 & A1 & _ & A2 & _). rewrite RUN in A1. injection A1 as <-. auto.
  - destruct (start_stmt d f c0 off len OK G AL) as (f1 & A1 & _ & A2 & _). rewrite RUN in A1. injection A1 as <-. auto.
  - destruct (read_stmt d f k OK G AL) as (f1 & A1 & _ & A2 & _). rewrite RUN in A1. injection A1 as <-. auto.
  - destruct AL as [NL _]. destruct (write_stmt d f rsize OK G NL) as (f1 & A1 & _ & _ & _ & _ & _ & _ & _ & A2).
    rewrite RUN in A1. injection A1 as <-. cbv zeta in A2. destruct (wdenied f); [right; apply A2|].
    destruct (_ || _); [right; apply A2|]. destruct A2 as (p & p' & _ & _ & [A2|(_ & _ & [A2|A2])]); [right; apply A2|right; apply A2|left; apply A2].
  - destruct (rewrite_stmt d f OK G AL) as (f1 & A1 & _ & _ & _ & _ & _ & _ & A2). rewrite RUN in A1. injection A1 as <-.
    destruct (x_open f); try (right; apply A2). destruct (seq_unread f); [right; apply A2|]. cbv zeta in A2.
    destruct A2 as (p & p' & _ & _ & _ & _ & [A2|(_ & [A2|(old & _ & A2 & _)])]); [right; apply A2|right; apply A2|auto].
  - destruct (delete_stmt d f OK G) as (f1 & A1 & _ & _ & _ & _ & _ & _ & A2). rewrite RUN in A1. injection A1 as <-.
    destruct (x_open f); try (right; apply A2). destruct (seq_unread f); [right; apply A2|].
    destruct A2 as (p & p' & _ & _ & _ & _ & A2). destruct (rec_at (the_db p 0) (dkey f)); [left|right]; apply A2.
  - injection RUN as <-. reflexivity.
  - destruct (x_dep f); injection RUN as <-; reflexivity.
Qed.

(** CLOSE keeps the records, and OPEN finds them again; OPEN OUTPUT empties the
    file. *)
Theorem C69_indexed_open : forall c d f m f', desc_ok d -> reach c d f -> allowed f (IOpen m) ->
  run_iop c f (IOpen m) = Ok f' -> x_open f = Closed ->
  (x_status f' = 35 /\ content f' = content f /\ x_open f' = Closed) \/
  ((x_status f' = 0 \/ x_status f' = 5) /\ x_open f' = m /\ reference f' = 0%nat /\ last_key f' = None /\
   forall i, by_key f' i = (if match m with Output => true | _ => false end then [] else by_key f i)).
Proof.
  intros c d f m f' OK R AL RUN XO. assert (G := reach_good c d f OK R). cbn [run_iop] in RUN.
  destruct (open_stmt c d f m OK G (opened_mode m AL)) as (f1 & A1 & _ & A2). rewrite RUN in A1. injection A1 as <-.
  rewrite XO in A2. destruct A2 as [(S1 & S2 & S3)|(S1 & S2 & S3 & S4)]; [left; auto|right].
  split; auto. split; auto.
  assert (IN : x_isam f = None).
  { assert (SH := g_shape _ _ G). destruct (x_isam f); auto. destruct SH as (_ & O & _). rewrite XO in O. destruct O as [X|[X|[X|X]]]; discriminate. }
  assert (EM : forall i, nth i (emptied d) [] = []).
  { intro i. unfold emptied. generalize (d_keys d). induction i; intros [|x l]; cbn; auto. }
  destruct S4 as [(D1 & -> & D3 & D4)|(p & P1 & P2 & P3 & _ & _ & _ & P7)].
  - unfold reference, last_key. rewrite D3. split; auto. split; auto. intro i. unfold by_key. rewrite D4. auto.
  - unfold reference, last_key. rewrite P1, P2, P3. split; auto. split; auto. intro i. unfold by_key. rewrite P7.
    destruct m; auto; try apply EM; destruct (x_disk f) eqn:XD; auto; try (now rewrite EM; unfold content; rewrite IN, XD; destruct i); destruct AL.
Qed.
Theorem C69_indexed_close : forall c d f o f', desc_ok d -> reach c d f -> x_open f <> Locked ->
  run_iop c f (IClose o) = Ok f' -> content f' = content f /\
  (if match x_open f with Closed => true | _ => false end then x_status f' = 42 else x_status f' = 0) /\
  (o <> CloseLock -> x_open f' = Closed).
Proof.
  intros c d f o f' OK R NL RUN. assert (G := reach_good c d f OK R). cbn [run_iop] in RUN.
  destruct (close_stmt d f o G NL) as (f1 & A1 & _ & A2 & _ & A3). rewrite RUN in A1. injection A1 as <-.
  split; auto. destruct (x_open f); destruct A3 as [A3 A4]; split; auto; destruct o; congruence.
Qed.

(** WRITE: 48 where it is not permitted, 44 if the length is outside the
    record, in sequential access 21 if the RECORD KEY is lower than that of the
    WRITE before, 22 exactly if there is a record with the same value of a key
    without DUPLICATES; otherwise the record is inserted by every key, behind its
    duplicates. *)
Theorem C69_indexed_write : forall c d f n f', desc_ok d -> reach c d f -> x_open f <> Locked ->
  run_iop c f (IWrite n) = Ok f' ->
  let size := write_size f n in
  let r := firstn size (x_area f) in
  let lower := d_access d = AccSequential /\ exists k, last_key f = Some k /\ blt (slice (prime d) r) k = true in
  (~ may_write f /\ x_status f' = 48) \/
  (may_write f /\
   ((~ (d_min d <= size <= d_max d)%nat /\ x_status f' = 44) \/
    ((d_min d <= size <= d_max d)%nat /\
     ((lower /\ x_status f' = 21 /\ last_key f' = last_key f) \/
      (~ lower /\ last_key f' = Some (slice (prime d) r) /\
       ((clash d (by_key f 0) r /\ x_status f' = 22) \/
        (~ clash d (by_key f 0) r /\ x_status f' = 0 /\ content f' = inserted d r (content f)))))))).
Proof.
  intros c d f n f' OK R NL RUN size r lower. assert (G := reach_good c d f OK R). cbn [run_iop] in RUN.
  assert (GD := g_desc _ _ G).
  destruct (write_stmt d f n OK G NL) as (f1 & A1 & _ & _ & _ & _ & _ & _ & _ & A2). rewrite RUN in A1. injection A1 as <-.
  cbv zeta in A2. change (wsize f n) with size in A2. fold r in A2.
  assert (MW : may_write f <-> wdenied f = false).
  { unfold may_write, wdenied. destruct (d_access (x_desc f)); destruct (x_open f); split; intro H; auto; try discriminate;
      try (destruct H; discriminate); congruence. }
  destruct (wdenied f).
  - left. split; [|apply A2]. intro H. apply MW in H. discriminate.
  - right. split; [now apply MW|]. destruct ((size <? d_min d)%nat || (d_max d <? size)%nat) eqn:RG.
    + left. split; [|apply A2]. intros [H1 H2]. apply orb_prop in RG as [RG|RG]; apply Nat.ltb_lt in RG; lia.
    + right. apply orb_false_elim in RG as [RG1 RG2]. apply Nat.ltb_ge in RG1, RG2. split; auto.
      destruct A2 as (p & p' & P1 & P2 & P3). unfold lower, last_key. rewrite P1, P2.
      destruct P3 as [(Q1 & Q2 & Q3 & Q4 & Q5)|(Q1 & Q2 & Q3)]; [left|right].
      * auto.
      * split; auto. split; auto. destruct Q3 as [(C1 & C2 & C3)|(C1 & C2 & C3)]; [left|right]; auto.
Qed.
(** The RECORD KEY of the last WRITE is kept by all other statements. *)
Theorem C69_indexed_last_key : forall c d f o f', desc_ok d -> reach c d f -> allowed f o -> run_iop c f o = Ok f' ->
  match o with IOpen _ | IClose _ | IWrite _ => True | _ => last_key f' = last_key f end.
Proof.
  intros c d f o f' OK R AL RUN. assert (G := reach_good c d f OK R). unfold last_key. assert (SH := g_shape _ _ G).
  destruct o; auto; cbn [run_iop] in RUN.
  - destruct (start_stmt d f c0 off len OK G AL) as (f1 & A1 & _ & _ & _ & _ & _ & A2). rewrite RUN in A1. injection A1 as <-.
    destruct (x_isam f) as [p|] eqn:XI.
    + destruct AL as (NL & i & s & NE & EO & _). rewrite (g_desc _ _ G) in NE.
      unfold x_ex_start in RUN. xsin RUN. destruct SH as (XN & XO & _). rewrite XN in RUN.
      destruct (match x_open f with Closed | Output | Extend => true | _ => false end || match d_access (x_desc f) with AccRandom => true | _ => false end) eqn:DEN.
      { unfold xret in RUN. injection RUN as <-. xs. now rewrite XI. }
      apply orb_false_elim in DEN as [D1 D2]. rewrite (g_desc _ _ G) in D2.
      destruct (A2 p eq_refl) with (i := i) (s := s) as (p' & P1 & _ & P2 & _); auto.
      { destruct XO as [X|[X|[X|X]]]; rewrite X in D1; auto; discriminate. }
      { intro X. rewrite X in D2. discriminate. }
      now rewrite P1.
    + destruct (x_isam f') as [p'|] eqn:XI'; auto. exfalso. unfold x_ex_start in RUN. xsin RUN.
      destruct (x_ne f); [unfold xret in RUN; injection RUN as <-; xsin XI'; congruence|].
      destruct (_ || _); [unfold xret in RUN; injection RUN as <-; xsin XI'; congruence|].
      unfold with_isam in RUN. xsin RUN. rewrite XI in RUN. discriminate.
  - destruct (read_stmt d f k OK G AL) as (f1 & A1 & _ & _ & _ & _ & A2). rewrite RUN in A1. injection A1 as <-.
    destruct (x_isam f) as [p|] eqn:XI.
    + destruct (A2 p eq_refl) as (p' & P1 & P2 & _). now rewrite P1.
    + destruct (x_isam f') as [p'|] eqn:XI'; auto. exfalso. unfold x_ex_read in RUN. xsin RUN.
      destruct (x_ne f). { destruct (x_first f =? 0); unfold xret in RUN; injection RUN as <-; xsin XI'; congruence. }
      match type of RUN with (if ?b then _ else _) = _ => destruct b end; [unfold xret in RUN; injection RUN as <-; xsin XI'; congruence|].
      unfold with_isam in RUN. xsin RUN. rewrite XI in RUN.
      destruct (x_open f); try discriminate; unfold xret in RUN; injection RUN as <-; xsin XI'; congruence.
  - destruct (rewrite_stmt d f OK G AL) as (f1 & A1 & XO & _ & _ & _ & PK & _ & A2). rewrite RUN in A1. injection A1 as <-.
    unfold x_ex_rewrite in RUN. xsin RUN.
    destruct (x_open f); try (unfold xret in RUN; injection RUN as <-; xs; reflexivity).
    fold (seq_unread f) in RUN. destruct (seq_unread f). { unfold xret in RUN; injection RUN as <-; xs; reflexivity. }
    destruct A2 as (p & p' & P1 & P2 & P3 & _). rewrite P1, P2. auto.
  - destruct (delete_stmt d f OK G) as (f1 & A1 & XO & _ & _ & _ & PK & _ & A2). rewrite RUN in A1. injection A1 as <-.
    unfold x_ex_delete in RUN. xsin RUN.
    destruct (x_open f); try (unfold xret in RUN; injection RUN as <-; xs; reflexivity).
    fold (seq_unread f) in RUN. destruct (seq_unread f). { unfold xret in RUN; injection RUN as <-; xs; reflexivity. }
    destruct A2 as (p & p' & P1 & P2 & P3 & _). rewrite P1, P2. auto.
  - injection RUN as <-. reflexivity.
  - destruct (x_dep f); injection RUN as <-; reflexivity.
Qed.

(** READ with a key: the first record with that value, in the order of the key,
    or 23. *)
Theorem C69_indexed_read_key : forall c d f i s f', desc_ok d -> reach c d f -> may_read f -> x_isam f <> None ->
  nth_error (d_keys d) i = Some s ->
  run_iop c f (IRead (RKey (k_off s) (k_len s))) = Ok f' ->
  tells f f' (find (fun r => beq (slice s r) (slice s (x_area f))) (by_key f i)) 23 /\ reference f' = i.
Proof.
  intros c d f i s f' OK R MR XN NE RUN. assert (G := reach_good c d f OK R). cbn [run_iop] in RUN.
  assert (AL : allowed f (IRead (RKey (k_off s) (k_len s)))).
  { split. { destruct MR as [X|X]; rewrite X; discriminate. } exists i, s. rewrite (g_desc _ _ G). auto. }
  destruct (read_stmt d f _ OK G AL) as (f1 & A1 & _ & _ & _ & _ & A2). rewrite RUN in A1. injection A1 as <-.
  destruct (x_isam f) as [p|] eqn:XI; [|congruence]. destruct (A2 p eq_refl) as (p' & P1 & _ & _ & P2).
  destruct (P2 MR) as (o & O1 & O2); [discriminate|]. destruct (O2 i s NE eq_refl) as [K1 K2].
  split; [|unfold reference; now rewrite P1].
  assert (E : start_pick EQ s (slice s (x_area f)) (by_key f i) = find (fun r => beq (slice s r) (slice s (x_area f))) (by_key f i)).
  { unfold start_pick. apply find_ext_in. intros r I. unfold start_rel. f_equal.
    assert (SL : (k_off s + k_len s <= d_min d)%nat).
    { destruct OK as (_ & _ & FF & _). rewrite Forall_forall in FF. apply nth_error_In in NE. apply FF in NE. lia. }
    assert (d_min d <= d_max d)%nat by apply OK.
    destruct (C69_indexed_order c d f i s OK R NE) as (_ & _ & F). rewrite Forall_forall in F. assert (LR := F r I).
    rewrite (slice_length s (x_area f)) by (rewrite (g_area _ _ G); lia).
    rewrite <- (slice_length s r) by lia. apply firstn_all. }
  rewrite E in K2. rewrite <- K2. unfold readres in O1. unfold tells. destruct o as [r|].
  - destruct O1 as (S1 & S2 & S3 & S4 & _ & _ & _ & _ & _ & _ & _ & S5). auto.
  - destruct O1 as (S1 & S2 & _). auto.
Qed.

(** START: the first record (with LESS: the last one) in the order of the key
    that satisfies the condition; the READ NEXT or READ PREVIOUS after it
    delivers this record. *)
Theorem C69_indexed_start : forall c d f cd len i s f1, desc_ok d -> reach c d f -> may_read f -> x_isam f <> None ->
  d_access d <> AccRandom -> nth_error (d_keys d) i = Some s -> (len <= k_len s)%nat -> (cd = LE -> len = k_len s) ->
  run_iop c f (IStart cd (k_off s) len) = Ok f1 ->
  reference f1 = i /\
  match start_pick cd s (firstn len (skipn (k_off s) (x_area f))) (by_key f i) with
  | None => x_status f1 = 23
  | Some r => x_status f1 = 0 /\
      forall f2 back, keeps c r f1 f2 ->
      exists f3, run_iop c f2 (IRead (if back : bool then RPrev else RNext)) = Ok f3 /\
        tells f2 f3 (Some r) 10 /\ reference f3 = i
  end.
Proof.
  intros c d f cd len i s f1 OK R MR XN AC NE LEN LE0 RUN. assert (G := reach_good c d f OK R). cbn [run_iop] in RUN.
  assert (AL : allowed f (IStart cd (k_off s) len)).
  { split. { destruct MR as [X|X]; rewrite X; discriminate. } exists i, s. rewrite (g_desc _ _ G). auto. }
  destruct (start_stmt d f cd (k_off s) len OK G AL) as (f1' & A1 & G1 & CT & XO & _ & _ & A2). rewrite RUN in A1. injection A1 as <-.
  destruct (x_isam f) as [p|] eqn:XI; [|congruence].
  destruct (A2 p eq_refl MR AC i s NE eq_refl) as (p' & P1 & P2 & _ & P3).
  assert (RF : reference f1 = i) by (unfold reference; now rewrite P1). split; auto.
  destruct (start_pick cd s _ (by_key f i)) as [r|]; auto.
  destruct P3 as (S1 & S2 & S3 & S4 & S5 & S6). split; auto. intros f2 back K.
  assert (AT : at_rec d f1 r) by (exists p'; auto).
  destruct (keeps_kept c d r f1 f2 OK K G1 AT) as (K1 & K2 & K3 & K4 & K5 & K6 & K7).
  destruct (first_at c d f2 back r OK K1 K2) as (f3 & N1 & _ & _ & N2 & N3 & _); try congruence.
  { unfold may_read in *. rewrite K3, XO. auto. }
  exists f3. split; [exact N1|]. split; auto. congruence.
Qed.

(** READ NEXT delivers the record behind the one read before, in the order of
    the key of reference, and READ PREVIOUS the one before it, or AT END; in
    between records may be written, rewritten and deleted. *)
Theorem C69_indexed_next : forall c d f k f1 f2 back, desc_ok d -> reach c d f -> allowed f (IRead k) ->
  run_iop c f (IRead k) = Ok f1 -> x_status f1 = 0 ->
  let r := delivered f1 in
  keeps c r f1 f2 ->
  In r (by_key f2 (reference f1)) /\
  forall a b, by_key f2 (reference f1) = a ++ r :: b ->
  exists f3, run_iop c f2 (IRead (if back : bool then RPrev else RNext)) = Ok f3 /\
    tells f2 f3 (hd_error (if back then rev a else b)) 10 /\ reference f3 = reference f1.
Proof.
  intros c d f k f1 f2 back OK R AL RUN ST r K. assert (G := reach_good c d f OK R).
  destruct (read_at c d f k f1 OK G AL RUN ST) as (R1 & R2 & R3 & R4 & R5 & R6 & _ & _ & _). fold r in R2.
  destruct (keeps_kept c d r f1 f2 OK K R1 R2) as (K1 & K2 & K3 & K4 & K5 & K6 & K7).
  rewrite <- K7. split; [now apply (at_in d)|]. intros a b BK.
  destruct (next_at c d f2 back r a b OK K1 K2) as (f3 & N1 & _ & _ & N2 & N3 & _); try congruence.
  { unfold may_read in *. now rewrite K3. }
  exists f3. auto.
Qed.

(** Deleting the record read last does not lose the place. *)
Theorem C69_indexed_delete_next : forall c d f k f1 f2 f3 back a b, desc_ok d -> reach c d f -> allowed f (IRead k) ->
  run_iop c f (IRead k) = Ok f1 -> x_status f1 = 0 ->
  let r := delivered f1 in
  keeps c r f1 f2 -> by_key f2 (reference f1) = a ++ r :: b ->
  run_iop c f2 IDelete = Ok f3 -> x_status f3 = 0 -> ~ In r (by_key f3 0) ->
  by_key f3 (reference f1) = a ++ b /\
  exists f4, run_iop c f3 (IRead (if back : bool then RPrev else RNext)) = Ok f4 /\
    tells f3 f4 (hd_error (if back then rev a else b)) 10 /\ reference f4 = reference f1.
Proof.
  intros c d f k f1 f2 f3 back a b OK R AL RUN ST r K BK RD SD NI. assert (G := reach_good c d f OK R).
  destruct (read_at c d f k f1 OK G AL RUN ST) as (R1 & R2 & R3 & R4 & R5 & R6 & _ & _ & _). fold r in R2.
  destruct (keeps_kept c d r f1 f2 OK K R1 R2) as (K1 & K2 & K3 & K4 & K5 & K6 & K7).
  rewrite <- K7 in *.
  destruct (deleted_at c d f2 f3 back r a b OK K1 K2) as (D1 & D2 & f4 & D3 & D4 & D5 & D6); try congruence.
  { unfold may_read in *. now rewrite K3. }
  split; auto. exists f4. auto.
Qed.

(** At the end: READ NEXT gives 46, READ PREVIOUS delivers the last record. *)
Theorem C69_indexed_end : forall c d f k f1 f2 f3 back, desc_ok d -> reach c d f -> allowed f (IRead k) ->
  run_iop c f (IRead k) = Ok f1 -> x_status f1 = 0 -> keeps c (delivered f1) f1 f2 ->
  run_iop c f2 (IRead (if back : bool then RPrev else RNext)) = Ok f3 -> x_status f3 = 10 ->
  (exists f4, run_iop c f3 (IRead (if back then RPrev else RNext)) = Ok f4 /\ x_status f4 = 46) /\
  (exists f4, run_iop c f3 (IRead (if back then RNext else RPrev)) = Ok f4 /\
     tells f3 f4 (hd_error (if back then by_key f3 (reference f1) else rev (by_key f3 (reference f1)))) 10).
Proof.
  intros c d f k f1 f2 f3 back OK R AL RUN ST K RN SN. assert (G := reach_good c d f OK R).
  destruct (read_at c d f k f1 OK G AL RUN ST) as (R1 & R2 & R3 & R4 & R5 & R6 & _ & _ & _).
  set (r := delivered f1) in *.
  destruct (keeps_kept c d r f1 f2 OK K R1 R2) as (K1 & K2 & K3 & K4 & K5 & K6 & K7).
  destruct (in_split _ _ (proj2 (at_in d f2 r OK K1 K2))) as (a & b & BK).
  destruct (next_at c d f2 back r a b OK K1 K2) as (f3' & N1 & N2 & N3 & N4 & N5 & N6 & N7 & N8 & N9); try congruence.
  { unfold may_read in *. now rewrite K3. }
  unfold dir_read in N1. rewrite RN in N1. injection N1 as <-. destruct (N9 SN) as [E1 E2].
  assert (SH := g_shape _ _ N2). destruct (x_isam f3) as [p|] eqn:XI.
  2:{ exfalso. destruct SH as [[X|[X|[X Y]]] _]; try (destruct N6; congruence).
      destruct R2 as (p1 & X1 & _). destruct K2 as (p2 & X2 & _).
      destruct (readn_at c d f2 back p2 OK K1 X2) as (g & o & M1 & _ & _ & _ & _ & _ & _ & _ & _ & _ & (q & Q & _) & _).
      { unfold may_read in *. now rewrite K3. } { destruct back; congruence. }
      unfold dir_read in M1. rewrite RN in M1. injection M1 as <-. congruence. }
  destruct SH as (XN & _ & DB & AR). split.
  - cbn [run_iop]. unfold x_ex_read. xs. rewrite XN. destruct back; rewrite ?E1, ?E2; cbn [negb andb]; unfold xret; eexists; (split; [reflexivity|]); auto.
  - destruct (readn_at c d f3 (negb back) p OK N2 XI N6) as (f4 & o & M1 & M2 & M3 & M4 & M5 & M6 & M7 & M8 & M9 & M10 & M11 & M12 & M13).
    { rewrite E1, E2. destruct back; auto. }
    exists f4. split. { unfold dir_read in M1. destruct back; exact M1. }
    assert (O : o = hd_error (if back then by_key f3 (reference f1) else rev (by_key f3 (reference f1)))); [|rewrite <- O; auto].
    rewrite (M12 N7), E1, E2. destruct (arr_spec d p AR) as (s & NE). assert (IX := dbs_idx d _ _ s OK DB NE).
    rewrite <- K7, <- N4. unfold by_key, content, reference. rewrite XI, (io_view _ _ _ _ IX).
    unfold trec, which, target, the_db. destruct back; cbn [negb].
    + rewrite hd_error_map. auto.
    + rewrite <- map_rev, hd_error_map. auto.
Qed.

(** Reading the whole file. *)
Theorem C69_indexed_scan : forall c d f m f1 n, desc_ok d -> reach c d f -> x_open f = Closed ->
  m = Input \/ m = InOut -> run_iop c f (IOpen m) = Ok f1 -> x_status f1 = 0 ->
  let l := by_key f1 0 in
  ((n < length l)%nat ->
     exists f2, run_iops c f1 (repeat (IRead RNext) (S n)) = Ok f2 /\ x_status f2 = 0 /\ Some (delivered f2) = nth_error l n) /\
  (n = length l -> exists f2, run_iops c f1 (repeat (IRead RNext) (S n)) = Ok f2 /\ x_status f2 = 10).
Proof.
  intros c d f m f1 n OK R XO M RUN ST l. assert (G := reach_good c d f OK R). cbn [run_iop] in RUN.
  destruct (open_stmt c d f m OK G) as (f1' & A1 & G1 & A2). { unfold opened. tauto. }
  rewrite RUN in A1. injection A1 as <-. rewrite XO in A2.
  destruct A2 as [(S1 & _)|(_ & S2 & S3 & [(D1 & D2 & D3 & D4)|(p & P1 & P2 & P3 & P4 & P5 & P6 & P7)])]; [congruence| |].
  { exfalso. rewrite D2 in RUN. unfold x_ex_open in RUN. xsin RUN. rewrite XO, D1 in RUN. cbn [andb negb] in RUN.
    destruct (d_optional (x_desc f)); cbn in RUN; injection RUN as <-; discriminate ST. }
  assert (MR : may_read f1) by (unfold may_read; rewrite S2; auto).
  assert (RF : reference f1 = 0%nat) by (unfold reference; now rewrite P1).
  fold l in P6. destruct l as [|r b] eqn:EL.
  - split; [cbn; lia|]. intros ->. cbn [length repeat run_iops].
    destruct (readn_at c d f1 false p OK G1 P1 MR P4) as (f2 & o & M1 & M2 & M3 & M4 & M5 & M6 & M7 & M8 & M9 & M10 & M11 & M12 & M13).
    unfold dir_read in M1. rewrite M1. cbn [obind]. exists f2. split; auto. destruct o as [r|]; [|apply M5]. exfalso.
    destruct (M10 r eq_refl) as (q & Q1 & Q2 & _).
    assert (AT : at_rec d f2 r) by (apply M10; auto). destruct (at_in d f2 r OK M2 AT) as [H _].
    unfold by_key in H. rewrite M3 in H. fold (by_key f1 0) in H. fold l in EL. unfold l in EL. rewrite EL in H. destruct H.
  - destruct P6 as [P6 P8]. assert (AT : at_rec d f1 r) by (exists p; auto).
    destruct (first_at c d f1 false r OK G1 AT MR) as (f2 & N1 & N2 & N3 & N4 & N5 & N6 & N7 & N8 & N9 & N10); auto.
    { rewrite S3. discriminate. }
    unfold dir_read in N1. cbn [tells] in N5. destruct N5 as (T1 & T2 & _).
    assert (BK : by_key f2 (reference f2) = [] ++ r :: b).
    { unfold by_key. rewrite N3, N4, RF. exact EL. }
    assert (SC := fun k => scan_on c d false OK k f2 r [] b N2 N10 N6 N7 N8 N9 BK). cbv zeta in SC. unfold dir_read in SC.
    split.
    + intro LT. destruct n as [|n].
      * exists f2. cbn [repeat run_iops]. rewrite N1. cbn [obind nth_error]. split; auto. split; auto. congruence.
      * destruct (SC n) as (f3 & Q1 & Q2 & Q3 & _). { cbn in LT. lia. }
        exists f3. change (repeat (IRead RNext) (S (S n))) with (IRead RNext :: repeat (IRead RNext) (S n)).
        cbn [run_iops]. rewrite N1. cbn [obind]. split; [exact Q1|]. split; auto.
    + intros ->. cbn [length]. change (repeat (IRead RNext) (S (S (length b)))) with (IRead RNext :: repeat (IRead RNext) (S (length b))).
      cbn [run_iops]. rewrite N1. cbn [obind].
      replace (S (length b)) with (length b + 1)%nat by lia. rewrite repeat_app. change (repeat (IRead RNext) 1) with [IRead RNext].
      destruct (length b) as [|n] eqn:LB.
      * cbn [repeat app run_iops].
        destruct (next_at c d f2 false r [] b OK N2 N10 N6 N7 N8 N9 BK) as (f3 & Q1 & _ & _ & _ & Q2 & _).
        unfold dir_read in Q1. rewrite Q1. cbn [obind]. exists f3. split; auto. destruct b; [|discriminate]. apply Q2.
      * destruct (SC n) as (f3 & Q1 & Q2 & Q3 & Q4 & Q5 & Q6 & Q7 & Q8 & Q9 & Q10 & Q11). { lia. }
        rewrite run_iops_app, Q1. cbn [obind run_iops].
        assert (LA : exists a, r :: b = a ++ [delivered f3]).
        { destruct (nth_error_split b n (eq_sym Q3)) as (b1 & b2 & B1 & B2). exists (r :: b1). rewrite B1.
          assert (b2 = []); [|subst; auto]. rewrite B1, app_length in LB. cbn [length] in LB. destruct b2; auto. cbn [length] in LB. lia. }
        destruct LA as (a & LA).
        destruct (next_at c d f3 false (delivered f3) a [] OK Q6 Q11 Q7 Q8 Q9 Q10) as (f4 & W1 & _ & _ & _ & W2 & _).
        { unfold by_key. rewrite Q4, Q5. exact (eq_trans BK LA). }
        unfold dir_read in W1. rewrite W1. cbn [obind]. exists f4. split; auto. apply W2.
Qed.

(** Reading on from a START, forwards or backwards, to the end. *)
Theorem C69_indexed_scan_from : forall c d f cd len i s f1 back n r a b, desc_ok d -> reach c d f -> may_read f -> x_isam f <> None ->
  d_access d <> AccRandom -> nth_error (d_keys d) i = Some s -> (len <= k_len s)%nat -> (cd = LE -> len = k_len s) ->
  run_iop c f (IStart cd (k_off s) len) = Ok f1 ->
  start_pick cd s (firstn len (skipn (k_off s) (x_area f))) (by_key f i) = Some r ->
  by_key f i = a ++ r :: b ->
  let l := r :: (if back : bool then rev a else b) in
  (n < length l)%nat ->
  exists f2, run_iops c f1 (repeat (IRead (if back then RPrev else RNext)) (S n)) = Ok f2 /\ x_status f2 = 0 /\
    Some (delivered f2) = nth_error l n.
Proof.
  intros c d f cd len i s f1 back n r a b OK R MR XN AC NE LEN LE0 RUN SP BK l LT. assert (G := reach_good c d f OK R). cbn [run_iop] in RUN.
  assert (AL : allowed f (IStart cd (k_off s) len)).
  { split. { destruct MR as [X|X]; rewrite X; discriminate. } exists i, s. rewrite (g_desc _ _ G). auto. }
  destruct (start_stmt d f cd (k_off s) len OK G AL) as (f1' & A1 & G1 & CT & XO & _ & _ & A2). rewrite RUN in A1. injection A1 as <-.
  destruct (x_isam f) as [p|] eqn:XI; [|congruence].
  destruct (A2 p eq_refl MR AC i s NE eq_refl) as (p' & P1 & P2 & _ & P3). rewrite SP in P3.
  destruct P3 as (S1 & S2 & S3 & S4 & S5 & S6). assert (RF : reference f1 = i) by (unfold reference; now rewrite P1).
  assert (AT : at_rec d f1 r) by (exists p'; auto).
  destruct (first_at c d f1 back r OK G1 AT) as (f2 & N1 & N2 & N3 & N4 & N5 & N6 & N7 & N8 & N9 & N10); auto; try congruence.
  { unfold may_read in *. rewrite XO. auto. }
  destruct N5 as (T1 & T2 & _). destruct n as [|n].
  - exists f2. cbn [repeat run_iops]. unfold dir_read in N1. rewrite N1. cbn [obind nth_error]. split; auto. split; auto. unfold l. cbn [nth_error]. congruence.
  - assert (BK2 : by_key f2 (reference f2) = a ++ r :: b).
    { unfold by_key. rewrite N3, N4, RF, CT. exact BK. }
    destruct (scan_on c d back OK n f2 r a b N2 N10 N6 N7 N8 N9 BK2) as (f3 & Q1 & Q2 & Q3 & _). { unfold l in LT. cbn [length] in LT. lia. }
    exists f3. change (repeat (IRead (if back then RPrev else RNext)) (S (S n)))
      with (IRead (if back then RPrev else RNext) :: repeat (IRead (if back then RPrev else RNext)) (S n)).
    cbn [run_iops]. unfold dir_read in N1, Q1. rewrite N1. cbn [obind]. split; [exact Q1|]. split; auto.
Qed.

(** DELETE in random or dynamic access: the record with the RECORD KEY in the
    record area. *)
Theorem C69_indexed_delete : forall c d f f', desc_ok d -> reach c d f -> x_open f = InOut -> d_access d <> AccSequential ->
  run_iop c f IDelete = Ok f' ->
  let k := slice (prime d) (x_area f) in
  ((exists old, In old (by_key f 0) /\ slice (prime d) old = k) /\ x_status f' = 0 /\ content f' = deleted d k (content f)) \/
  ((forall old, In old (by_key f 0) -> slice (prime d) old <> k) /\ x_status f' = 23 /\ content f' = content f).
Proof.
  intros c d f f' OK R XO AC RUN k. assert (G := reach_good c d f OK R). cbn [run_iop] in RUN.
  destruct (delete_stmt d f OK G) as (f1 & A1 & _ & _ & _ & _ & _ & _ & A2). rewrite RUN in A1. injection A1 as <-. rewrite XO in A2.
  assert (GD := g_desc _ _ G).
  assert (SU : seq_unread f = false) by (unfold seq_unread; rewrite GD; destruct (d_access d); congruence).
  rewrite SU in A2. destruct A2 as (p & p' & P1 & P2 & _ & _ & P3).
  assert (DK : dkey f = k) by (unfold dkey; rewrite GD; destruct (d_access d); [congruence|reflexivity|reflexivity]). rewrite DK in P3.
  destruct (good_isam d f p G P1) as (_ & _ & DB & _).
  assert (V := fun r => in_view0 d (p_dbs p) k r OK DB).
  assert (BK : by_key f 0 = nth 0 (views (p_dbs p)) []) by (unfold by_key, content; now rewrite P1). rewrite BK.
  destruct (rec_at (the_db p 0) k) as [old|] eqn:RA; unfold the_db in RA; [left|right].
  - split; [exists old; now apply V|]. tauto.
  - split; [|tauto]. intros old I E. assert (X : rec_at (nth 0 (p_dbs p) []) k = Some old) by (apply V; auto). congruence.
Qed.
(** In sequential access: the record read last; without a READ just before (MOVE
    statements aside), 43. *)
Theorem C69_indexed_delete_sequential : forall c d f k f1 f2, desc_ok d -> reach c d f -> x_open f = InOut -> d_access d = AccSequential ->
  allowed f (IRead k) -> run_iop c f (IRead k) = Ok f1 -> x_status f1 = 0 -> moves c f1 f2 ->
  exists f3, run_iop c f2 IDelete = Ok f3 /\ x_status f3 = 0 /\
    content f3 = deleted d (slice (prime d) (delivered f1)) (content f).
Proof.
  intros c d f k f1 f2 OK R XO AC AL RUN ST M. assert (G := reach_good c d f OK R).
  destruct (read_at c d f k f1 OK G AL RUN ST) as (R1 & R2 & R3 & R4 & R5 & R6 & R7 & R8 & R9).
  destruct (moves_kept c d f1 f2 OK M R1) as (M1 & M2 & M3 & M4 & M5 & M6).
  destruct (delete_stmt d f2 OK M1) as (f3 & A1 & _ & _ & _ & _ & _ & _ & A2). exists f3. split; [exact A1|].
  assert (XO1 : x_open f1 = InOut).
  { cbn [run_iop] in RUN. destruct (read_stmt d f k OK G AL) as (g & B1 & _ & _ & B2 & _). rewrite RUN in B1. injection B1 as <-. congruence. }
  rewrite M3, XO1 in A2. assert (GD := g_desc _ _ M1).
  assert (SU : seq_unread f2 = false) by (unfold seq_unread; rewrite GD, AC, M5, R7; auto). rewrite SU in A2.
  destruct A2 as (p & p' & P1 & P2 & _ & _ & P3).
  assert (DK : dkey f2 = slice (prime d) (delivered f1)).
  { unfold dkey. rewrite GD, AC, P1. unfold last_read in R8. rewrite R7 in R8. rewrite <- M4, P1 in R8. congruence. }
  rewrite DK in P3. destruct (rec_at (the_db p 0) _) eqn:RA.
  - destruct P3 as (S1 & S2 & _). split; auto. rewrite S2, M2, R9. auto.
  - destruct P3; congruence.
Qed.
Theorem C69_indexed_not_read : forall c d f o f1 f2, desc_ok d -> reach c d f -> d_access d = AccSequential ->
  allowed f o -> run_iop c f o = Ok f1 -> x_status f1 <> 44 -> ~ is_move o -> (forall k, o = IRead k -> x_status f1 <> 0) -> moves c f1 f2 ->
  x_open f1 = InOut ->
  (exists f3, run_iop c f2 IDelete = Ok f3 /\ x_status f3 = 43 /\ content f3 = content f2) /\
  (exists f3, run_iop c f2 IRewrite = Ok f3 /\ x_status f3 = 43 /\ content f3 = content f2).
Proof.
  intros c d f o f1 f2 OK R AC AL RUN ST NM NR M XO. assert (G1 := reach_good c d f1 OK (reach_step c d f o f1 R AL RUN ST)).
  destruct (moves_kept c d f1 f2 OK M G1) as (M1 & M2 & M3 & M4 & M5 & M6).
  assert (DN : x_done f1 = false).
  { destruct (x_done f1) eqn:D; auto. destruct (done_read c f o f1 RUN NM D) as (S & k & E). now apply NR in E. }
  cbn [run_iop]. unfold x_ex_delete, x_ex_rewrite. xs. rewrite M3, XO, M5, DN, (g_desc _ _ M1), AC. cbn [negb].
  unfold xret. split; (eexists; split; [reflexivity|]; split; reflexivity).
Qed.

(** REWRITE in random or dynamic access: 22 exactly if another record has the
    value of an alternate key without DUPLICATES, 23 if there is no record with
    the RECORD KEY; otherwise the record is replaced, keeping its place by the
    keys that did not change. *)
Theorem C69_indexed_rewrite : forall c d f f', desc_ok d -> reach c d f -> x_open f = InOut -> d_access d <> AccSequential ->
  run_iop c f IRewrite = Ok f' ->
  let r := delivered f in
  (clash_with_other d (by_key f 0) r /\ x_status f' = 22 /\ content f' = content f) \/
  (~ clash_with_other d (by_key f 0) r /\
   (((forall x, In x (by_key f 0) -> slice (prime d) x <> slice (prime d) r) /\ x_status f' = 23 /\ content f' = content f) \/
    (exists old, In old (by_key f 0) /\ slice (prime d) old = slice (prime d) r /\ x_status f' = 0 /\
       content f' = replaced d old r (content f)))).
Proof.
  intros c d f f' OK R XO AC RUN r. assert (G := reach_good c d f OK R). cbn [run_iop] in RUN. assert (GD := g_desc _ _ G).
  assert (AL : allowed f IRewrite) by (split; [rewrite XO; discriminate|left; rewrite GD; auto]).
  destruct (rewrite_stmt d f OK G AL) as (f1 & A1 & _ & _ & _ & _ & _ & _ & A2). rewrite RUN in A1. injection A1 as <-. rewrite XO in A2.
  assert (SU : seq_unread f = false) by (unfold seq_unread; rewrite GD; destruct (d_access d); congruence).
  rewrite SU in A2. destruct A2 as (p & p' & P1 & P2 & _ & _ & P3). cbv zeta in P3. fold r in P3.
  destruct (good_isam d f p G P1) as (_ & _ & DB & _).
  assert (V := fun k r => in_view0 d (p_dbs p) k r OK DB).
  assert (BK : by_key f 0 = nth 0 (views (p_dbs p)) []) by (unfold by_key, content; now rewrite P1).
  destruct P3 as [P3|(C1 & P3)]; [left; exact P3|right]. split; [exact C1|]. rewrite BK. unfold the_db in P3.
  destruct P3 as [(Q1 & Q2 & Q3)|(old & Q1 & Q2 & Q3)]; [left|right].
  - split; auto. intros x I E. assert (X : rec_at (nth 0 (p_dbs p) []) (slice (prime d) r) = Some x) by (apply V; auto). congruence.
  - exists old. apply V in Q1 as [I E]. auto.
Qed.
(** In sequential access, for files whose alternate keys all have DUPLICATES: the
    record read last is replaced if its RECORD KEY was not changed. *)
Theorem C69_indexed_rewrite_sequential : forall c d f k f1 f2, desc_ok d -> reach c d f -> x_open f = InOut -> d_access d = AccSequential ->
  Forall (fun s => k_dup s = true) (tl (d_keys d)) ->
  allowed f (IRead k) -> run_iop c f (IRead k) = Ok f1 -> x_status f1 = 0 -> moves c f1 f2 ->
  slice (prime d) (x_area f2) = slice (prime d) (delivered f1) ->
  exists f3, run_iop c f2 IRewrite = Ok f3 /\ x_status f3 = 0 /\
    content f3 = replaced d (delivered f1) (delivered f2) (content f).
Proof.
  intros c d f k f1 f2 OK R XO AC AD AL RUN ST M KE. assert (G := reach_good c d f OK R).
  destruct (read_at c d f k f1 OK G AL RUN ST) as (R1 & R2 & R3 & R4 & R5 & R6 & R7 & R8 & R9).
  destruct (moves_kept c d f1 f2 OK M R1) as (M1 & M2 & M3 & M4 & M5 & M6). assert (GD := g_desc _ _ M1).
  assert (XO1 : x_open f1 = InOut).
  { cbn [run_iop] in RUN. destruct (read_stmt d f k OK G AL) as (g & B1 & _ & _ & B2 & _). rewrite RUN in B1. injection B1 as <-. congruence. }
  assert (AL2 : allowed f2 IRewrite).
  { split; [rewrite M3, XO1; discriminate|right]. rewrite GD. split; auto. intros q Q. unfold last_read in *. rewrite M5, M4 in Q. congruence. }
  destruct (rewrite_stmt d f2 OK M1 AL2) as (f3 & A1 & _ & _ & _ & _ & _ & _ & A2). exists f3. split; [exact A1|].
  rewrite M3, XO1 in A2.
  assert (SU : seq_unread f2 = false) by (unfold seq_unread; rewrite GD, AC, M5, R7; auto). rewrite SU in A2.
  destruct A2 as (p & p' & P1 & P2 & _ & _ & P3). cbv zeta in P3.
  assert (SL : slice (prime d) (delivered f2) = slice (prime d) (delivered f1)).
  { rewrite <- KE. unfold delivered at 1. apply slice_firstn. assert (H := prime_ok d OK). assert (H' := g_size _ _ M1). lia. }
  destruct (good_isam d f2 p M1 P1) as (_ & _ & DB & _).
  assert (RA : rec_at (the_db p 0) (slice (prime d) (delivered f2)) = Some (delivered f1)).
  { unfold the_db. apply (in_view0 d (p_dbs p) _ _ OK DB). split; auto.
    destruct (at_in d f1 _ OK R1 R2) as [H _]. unfold by_key, content in H. rewrite <- M4, P1 in H. exact H. }
  destruct P3 as [((s & x & I1 & I2 & _) & _)|(_ & [(Q1 & _)|(old & Q1 & Q2 & Q3)])].
  - exfalso. rewrite Forall_forall in AD. rewrite (AD s I1) in I2. discriminate.
  - congruence.
  - rewrite RA in Q1. injection Q1 as <-. split; auto. rewrite Q3, M2, R9. auto.
Qed.

(** ** Concrete files *)
Definition allowedb (f : ixf) (o : iop) : bool :=
  let unlocked := match x_open f with Locked => false | _ => true end in
  match o with
  | IOpen m => match m with Closed | Locked => false | _ => true end
  | ISet a => (length a =? d_max (x_desc f))%nat
  | IDep _ => true
  | IStart c off len => unlocked && existsb (fun s => (off =? k_off s)%nat &&
      (if match c with LE => true | _ => false end then (len =? k_len s)%nat else (len <=? k_len s)%nat)) (d_keys (x_desc f))
  | IRead (RKey off len) => unlocked && existsb (fun s => (off =? k_off s)%nat && (len =? k_len s)%nat) (d_keys (x_desc f))
  | IRewrite => unlocked && match d_access (x_desc f) with AccSequential =>
      forallb k_dup (tl (d_keys (x_desc f))) && match last_read f with Some k => beq (slice (prime (x_desc f)) (x_area f)) k | None => true end | _ => true end
  | _ => unlocked
  end.
Lemma allowedb_ok f o : allowedb f o = true -> allowed f o.
Proof.
  unfold allowedb, allowed. intro H.
  assert (U : forall b, (match x_open f with Locked => false | _ => true end) && b = true -> x_open f <> Locked /\ b = true).
  { intros b X. apply andb_prop in X as [X Y]. split; auto. destruct (x_open f); congruence. }
  assert (U' : (match x_open f with Locked => false | _ => true end) = true -> x_open f <> Locked).
  { destruct (x_open f); congruence. }
  destruct o as [m|o|c off len|[off len| |]|n| | |a|n]; auto.
  - destruct m; auto; discriminate.
  - destruct (U _ H) as [U1 U2]. split; auto. apply existsb_exists in U2 as (s & S1 & S2). apply In_nth_error in S1 as (i & S1).
    apply andb_prop in S2 as [S2 S3]. apply Nat.eqb_eq in S2. exists i, s. split; auto. split; auto.
    destruct c; cbv iota in S3; try (apply Nat.leb_le in S3); try (apply Nat.eqb_eq in S3); split; auto; try discriminate; lia.
  - destruct (U _ H) as [U1 U2]. split; auto. apply existsb_exists in U2 as (s & S1 & S2). apply In_nth_error in S1 as (i & S1).
    apply andb_prop in S2 as [S2 S3]. apply Nat.eqb_eq in S2, S3. exists i, s. auto.
  - destruct (U _ H) as [U1 U2]. split; auto. destruct (d_access (x_desc f)); [|left; discriminate|left; discriminate].
    right. apply andb_prop in U2 as [U2 U3]. rewrite forallb_forall in U2. split; [apply Forall_forall; auto|].
    intros k K. rewrite K in U3. now apply beq_true.
  - now apply Nat.eqb_eq.
Qed.
Fixpoint goes (c : iocfg) (f : ixf) (os : list iop) : option ixf :=
  match os with
  | [] => Some f
  | o :: r => if allowedb f o then
                match run_iop c f o with
                | Ok f' => if x_status f' =? 44 then None else goes c f' r
                | _ => None
                end
              else None
  end.
Lemma goes_reach c d os : forall f f', reach c d f -> goes c f os = Some f' -> reach c d f'.
Proof.
  induction os as [|o os IH]; intros f f' R H; cbn [goes] in H; [congruence|].
  destruct (allowedb f o) eqn:A; [|discriminate]. destruct (run_iop c f o) as [f1| |] eqn:RUN; try discriminate.
  destruct (Z.eqb_spec (x_status f1) 44); [discriminate|]. eapply IH; [|exact H]. eapply reach_step; eauto. now apply allowedb_ok.
Qed.

Definition cfg0 : iocfg := mkIO 0 false false false false.
Definition blank6 : list Z := repeat 32 6.
(** RECORD KEY: bytes 0-1; alternate key WITH DUPLICATES: bytes 2-3; alternate
    key without: bytes 4-5. *)
Definition desc3 (a : access_mode) : fdesc := mkDesc [mkK 0 2 false; mkK 2 2 true; mkK 4 2 false] a false 6 6.
Definition desc1 (a : access_mode) : fdesc := mkDesc [mkK 0 2 false] a false 4 6.
Definition desc2 (a : access_mode) : fdesc := mkDesc [mkK 0 2 false; mkK 2 2 true] a false 6 6.
Lemma desc3_ok a : desc_ok (desc3 a).
Proof.
  unfold desc_ok. cbn. split; [discriminate|]. split; auto. split. { repeat constructor; cbn; lia. }
  split; [|lia]. repeat constructor; cbn; intuition lia.
Qed.
Lemma desc1_ok a : desc_ok (desc1 a).
Proof.
  unfold desc_ok. cbn. split; [discriminate|]. split; auto. split. { repeat constructor; cbn; lia. }
  split; [|lia]. repeat constructor; cbn; intuition lia.
Qed.
Lemma desc2_ok a : desc_ok (desc2 a).
Proof.
  unfold desc_ok. cbn. split; [discriminate|]. split; auto. split. { repeat constructor; cbn; lia. }
  split; [|lia]. repeat constructor; cbn; intuition lia.
Qed.
Definition put (r : list Z) : list iop := [ISet r; IWrite 6].
Definition rA : list Z := [49; 49; 66; 66; 49; 50].   (* 11 BB 12 *)
Definition rB : list Z := [49; 50; 65; 65; 50; 49].   (* 12 AA 21 *)
Definition rC : list Z := [49; 51; 66; 66; 51; 51].   (* 13 BB 33 *)
Definition filled : list iop := [IOpen Output] ++ put rA ++ put rB ++ put rC ++ [IClose CloseNormal].
Definition start_of (d : fdesc) : ixf := new_file d blank6 None.
Definition after (d : fdesc) (os : list iop) : ixf := match goes cfg0 (start_of d) os with Some f => f | None => start_of d end.
Lemma after_reach d os : d_max d = 6%nat -> goes cfg0 (start_of d) os <> None -> reach cfg0 d (after d os).
Proof.
  intros L N. unfold after. destruct (goes cfg0 (start_of d) os) as [f|] eqn:G; [|congruence].
  eapply goes_reach; [|exact G]. apply reach_new. now rewrite L.
Qed.

Ltac reached := apply after_reach; [vm_compute; reflexivity|vm_compute; discriminate].
Definition got_of (f : outcome ixf) : option (Z * record * list (list record)) :=
  match f with Ok f => Some (x_status f, delivered f, content f) | _ => None end.

(** The three records, by the three keys. *)
Example C69_indexed_nonvacuous :
  let d := desc3 AccDynamic in
  let f := after d (filled ++ [IOpen InOut]) in
  desc_ok d /\ reach cfg0 d f /\ may_read f /\ x_isam f <> None /\ x_open f = InOut /\ may_write f /\
  content f = [[rA; rB; rC]; [rB; rA; rC]; [rA; rB; rC]].
Proof.
  cbv zeta. split; [apply desc3_ok|]. split; [reached|]. split; [right; vm_compute; reflexivity|]. split; [vm_compute; discriminate|].
  split; [vm_compute; reflexivity|]. split; [vm_compute; auto|]. vm_compute; reflexivity.
Qed.
(** START at BB by the alternate key; the READ NEXT after it gives 11 BB, a
    WRITE of 09 AB keeps the place, DELETE of 11, READ NEXT gives 13 BB, then AT
    END, then backwards. *)
Example C69_indexed_position :
  let d := desc3 AccDynamic in
  let f := after d (filled ++ [IOpen InOut; ISet [32; 32; 66; 66; 32; 32]; IStart EQ 2 2]) in
  let f1 := after d (filled ++ [IOpen InOut; ISet [32; 32; 66; 66; 32; 32]; IStart EQ 2 2; IRead RNext]) in
  let f2 := after d (filled ++ [IOpen InOut; ISet [32; 32; 66; 66; 32; 32]; IStart EQ 2 2; IRead RNext;
                      ISet [48; 57; 65; 66; 57; 57]; IWrite 6; ISet rA]) in
  let f3 := after d (filled ++ [IOpen InOut; ISet [32; 32; 66; 66; 32; 32]; IStart EQ 2 2; IRead RNext;
                      ISet [48; 57; 65; 66; 57; 57]; IWrite 6; ISet rA; IDelete]) in
  reach cfg0 d f /\ run_iop cfg0 f (IRead RNext) = Ok f1 /\ x_status f1 = 0 /\ delivered f1 = rA /\
  keeps cfg0 rA f1 f2 /\ reference f2 = 1%nat /\
  by_key f2 1 = [rB; [48; 57; 65; 66; 57; 57]; rA; rC] /\
  run_iop cfg0 f2 IDelete = Ok f3 /\ x_status f3 = 0 /\ by_key f3 1 = [rB; [48; 57; 65; 66; 57; 57]; rC] /\
  got_of (run_iop cfg0 f3 (IRead RNext)) = Some (0, rC, content f3) /\
  got_of (run_iops cfg0 f3 [IRead RNext; IRead RNext]) = Some (10, rC, content f3) /\
  got_of (run_iops cfg0 f3 [IRead RNext; IRead RNext; IRead RNext]) = Some (46, rC, content f3) /\
  got_of (run_iops cfg0 f3 [IRead RNext; IRead RNext; IRead RPrev; IRead RPrev]) = Some (0, [48; 57; 65; 66; 57; 57], content f3).
Proof.
  cbv zeta. split; [reached|]. split; [vm_compute; reflexivity|]. split; [vm_compute; reflexivity|]. split; [vm_compute; reflexivity|].
  split.
  { eapply keeps_step with (o := ISet [48; 57; 65; 66; 57; 57]); [exact I|apply allowedb_ok; vm_compute; reflexivity|vm_compute; reflexivity|vm_compute; discriminate|vm_compute; auto|].
    eapply keeps_step with (o := IWrite 6); [exact I|apply allowedb_ok; vm_compute; reflexivity|vm_compute; reflexivity|vm_compute; discriminate|vm_compute; auto|].
    eapply keeps_step with (o := ISet rA); [exact I|apply allowedb_ok; vm_compute; reflexivity|vm_compute; reflexivity|vm_compute; discriminate|vm_compute; auto|].
    apply keeps_refl. }
  repeat (split; [vm_compute; reflexivity|]). vm_compute; reflexivity.
Qed.
(** Statuses, and REWRITE with a changed alternate key. *)
Example C69_indexed_statuses :
  let d := desc3 AccDynamic in
  let f := after d (filled ++ [IOpen InOut]) in
  got_of (run_iops cfg0 f (put [49; 52; 65; 65; 50; 49])) = Some (22, [49; 52; 65; 65; 50; 49], content f) /\
  got_of (run_iops cfg0 f [ISet [49; 52; 65; 65; 53; 53]; IRewrite]) = Some (23, [49; 52; 65; 65; 53; 53], content f) /\
  got_of (run_iops cfg0 f [ISet [49; 51; 65; 65; 50; 49]; IRewrite]) = Some (22, [49; 51; 65; 65; 50; 49], content f) /\
  got_of (run_iops cfg0 f [ISet [49; 51; 65; 65; 48; 48]; IRewrite]) =
    Some (0, [49; 51; 65; 65; 48; 48],
      [[rA; rB; [49; 51; 65; 65; 48; 48]]; [rB; [49; 51; 65; 65; 48; 48]; rA]; [[49; 51; 65; 65; 48; 48]; rA; rB]]) /\
  got_of (run_iops cfg0 f [ISet [57; 57; 32; 32; 32; 32]; IDelete]) = Some (23, [57; 57; 32; 32; 32; 32], content f) /\
  got_of (run_iops cfg0 f [ISet [32; 32; 66; 66; 32; 32]; IRead (RKey 2 2)]) = Some (0, rA, content f).
Proof. vm_compute. auto 10. Qed.
(** Sequential access: order of WRITE, DELETE and REWRITE of the record read. *)
Example C69_indexed_sequential :
  let d := desc2 AccSequential in
  let f := after d (filled ++ [IOpen InOut; IRead RNext]) in
  reach cfg0 d f /\ x_open f = InOut /\ Forall (fun s => k_dup s = true) (tl (d_keys d)) /\
  got_of (run_iop cfg0 f (IRead RNext)) = Some (0, rB, content f) /\
  got_of (run_iops cfg0 f [IRead RNext; IDelete]) = Some (0, rB, [[rA; rC]; [rA; rC]]) /\
  got_of (run_iops cfg0 f [IRead RNext; ISet [49; 50; 88; 88; 0; 0]; IRewrite]) =
    Some (0, [49; 50; 88; 88; 0; 0], [[rA; [49; 50; 88; 88; 0; 0]; rC]; [rA; rC; [49; 50; 88; 88; 0; 0]]]) /\
  got_of (run_iops cfg0 f [IRead RNext; IDelete; IDelete]) = Some (43, rB, [[rA; rC]; [rA; rC]]) /\
  got_of (run_iops cfg0 (start_of d) ([IOpen Output] ++ put rB ++ put rA)) = Some (21, rA, [[rB]; [rB]]).
Proof.
  cbv zeta. split; [reached|]. split; [vm_compute; reflexivity|]. split; [repeat constructor|]. vm_compute. auto 10.
Qed.

(** ** What does not hold *)

(** REWRITE in sequential access of a file with an alternate key without
    DUPLICATES: the test of that key loses the place.  Rewriting the record read,
    unchanged, reports 22 and has deleted another record; or its effect is not
    defined. *)
Theorem C69_indexed_seq_rewrite_refuted : ~ (forall c d f k f1, desc_ok d -> reach c d f -> x_open f = InOut -> d_access d = AccSequential ->
  allowed f (IRead k) -> run_iop c f (IRead k) = Ok f1 -> x_status f1 = 0 ->
  exists f2, run_iop c f1 IRewrite = Ok f2 /\ (x_status f2 = 0 \/ content f2 = content f)).
Proof.
  intro H. set (d := desc3 AccSequential).
  destruct (H cfg0 d (after d (filled ++ [IOpen InOut])) RNext (after d (filled ++ [IOpen InOut; IRead RNext]))) as (f2 & R & C);
    try (vm_compute; reflexivity).
  - apply desc3_ok.
  - reached.
  - apply allowedb_ok; vm_compute; reflexivity.
  - vm_compute in R. injection R as <-. destruct C as [C|C]; vm_compute in C; discriminate.
Qed.
Theorem C69_indexed_seq_rewrite_undefined_refuted : ~ (forall c d f k f1, desc_ok d -> reach c d f -> x_open f = InOut -> d_access d = AccSequential ->
  allowed f (IRead k) -> run_iop c f (IRead k) = Ok f1 -> x_status f1 = 0 -> exists f2, run_iop c f1 IRewrite = Ok f2).
Proof.
  intro H. set (d := desc3 AccSequential).
  destruct (H cfg0 d (after d (filled ++ [IOpen InOut; IRead RNext])) RNext (after d (filled ++ [IOpen InOut; IRead RNext; IRead RNext]))) as (f2 & R);
    try (vm_compute; reflexivity).
  - apply desc3_ok.
  - reached.
  - apply allowedb_ok; vm_compute; reflexivity.
  - vm_compute in R. discriminate.
Qed.
(** REWRITE in sequential access with another RECORD KEY than that of the record
    read: a failure (22) that has deleted the record. *)
Theorem C69_indexed_seq_rewrite_key_refuted : ~ (forall c d f f', desc_ok d -> reach c d f -> x_open f = InOut ->
  run_iop c f IRewrite = Ok f' -> x_status f' <> 0 -> content f' = content f).
Proof.
  intro H. set (d := desc1 AccSequential). set (f := after d (filled ++ [IOpen InOut; IRead RNext; ISet rB])).
  destruct (run_iop cfg0 f IRewrite) as [f'| |] eqn:RUN; vm_compute in RUN; try discriminate.
  assert (X := H cfg0 d f f' (desc1_ok _)). vm_compute in RUN. injection RUN as <-.
  assert (Y := X ltac:(reached) ltac:(vm_compute; reflexivity) ltac:(vm_compute; reflexivity) ltac:(vm_compute; discriminate)). vm_compute in Y. discriminate.
Qed.
(** The length of a rewritten record is that of the record read last, not that
    of the record in the program. *)
Theorem C69_indexed_rewrite_length_refuted : ~ (forall c d f n f1 f2, desc_ok d -> reach c d f -> x_open f = InOut ->
  d_access d <> AccSequential -> x_dep f = None -> run_iop c f (IWrite n) = Ok f1 -> x_status f1 = 0 ->
  run_iop c f1 IRewrite = Ok f2 -> content f2 = content f1).
Proof.
  intro H. set (d := desc1 AccDynamic). set (f := after d (filled ++ [IOpen InOut; ISet [49; 52; 7; 7; 7; 7]])).
  destruct (run_iop cfg0 f (IWrite 4)) as [f1| |] eqn:R1; vm_compute in R1; try discriminate.
  assert (X := H cfg0 d f 4%nat f1). injection R1 as <-.
  match type of X with context [run_iop cfg0 ?g IRewrite] => destruct (run_iop cfg0 g IRewrite) as [f2| |] eqn:R2; vm_compute in R2; try discriminate;
    assert (Y := X f2 (desc1_ok _) ltac:(reached) ltac:(vm_compute; reflexivity) ltac:(vm_compute; discriminate) ltac:(vm_compute; reflexivity) ltac:(vm_compute; reflexivity) ltac:(vm_compute; reflexivity)) end.
  injection R2 as <-. assert (Z := Y ltac:(vm_compute; reflexivity)). vm_compute in Z. discriminate.
Qed.
(** REWRITE after a WRITE that was refused with 44 reads behind the record. *)
Theorem C69_indexed_rewrite_after_44_refuted : ~ (forall c d f n f1, desc_ok d -> reach c d f -> x_open f = InOut ->
  d_access d <> AccSequential -> run_iop c f (IWrite n) = Ok f1 -> exists f2, run_iop c f1 IRewrite = Ok f2).
Proof.
  intro H. set (d := desc1 AccDynamic). set (f := after d (filled ++ [IOpen InOut; ISet rA])).
  destruct (run_iop cfg0 f (IWrite 9)) as [f1| |] eqn:R1; vm_compute in R1; try discriminate.
  destruct (H cfg0 d f 9%nat f1 (desc1_ok _)) as (f2 & R2).
  - reached.
  - vm_compute; reflexivity.
  - vm_compute; discriminate.
  - injection R1 as <-. vm_compute. reflexivity.
  - injection R1 as <-. vm_compute in R2. discriminate.
Qed.
(** The first READ NEXT after OPEN delivers the record that was the first at
    OPEN, even if a smaller one has been written since. *)
Theorem C69_indexed_first_refuted : ~ (forall c d f m f1 f2 f3, desc_ok d -> reach c d f -> x_open f = Closed ->
  run_iop c f (IOpen m) = Ok f1 -> x_status f1 = 0 -> may_read f1 ->
  run_iops c f1 [ISet [49; 48; 0; 0; 0; 0]; IWrite 6] = Ok f2 -> x_status f2 = 0 ->
  run_iop c f2 (IRead RNext) = Ok f3 -> hd_error (by_key f2 0) = Some (delivered f3)).
Proof.
  intro H. set (d := desc1 AccDynamic).
  assert (X := H cfg0 d (after d filled) InOut (after d (filled ++ [IOpen InOut])) (after d (filled ++ [IOpen InOut; ISet [49; 48; 0; 0; 0; 0]; IWrite 6]))
    (after d (filled ++ [IOpen InOut; ISet [49; 48; 0; 0; 0; 0]; IWrite 6; IRead RNext])) (desc1_ok _) ltac:(reached)
    ltac:(vm_compute; reflexivity) ltac:(vm_compute; reflexivity) ltac:(vm_compute; reflexivity) ltac:(right; vm_compute; reflexivity) ltac:(vm_compute; reflexivity) ltac:(vm_compute; reflexivity) ltac:(vm_compute; reflexivity)).
  vm_compute in X. discriminate.
Qed.
(** A new duplicate takes the number of the last one if that was deleted: after
    DELETE of the record read last, a WRITE of a new duplicate, which stands
    behind the place, is not found by READ NEXT. *)
Theorem C69_indexed_new_duplicate_refuted : ~ (forall c d f f1 f2 f3, desc_ok d -> reach c d f -> x_open f = InOut ->
  run_iop c f (IRead RNext) = Ok f1 -> x_status f1 = 0 -> reference f1 = 1%nat ->
  run_iops c f1 [IDelete; ISet [49; 52; 66; 66; 0; 0]; IWrite 6] = Ok f2 -> x_status f2 = 0 ->
  last (by_key f2 1) [] = [49; 52; 66; 66; 0; 0] -> hd_error (rev (by_key f 1)) = Some (delivered f1) ->
  run_iop c f2 (IRead RNext) = Ok f3 -> x_status f3 = 0).
Proof.
  intro H. set (d := desc2 AccDynamic).
  set (pre := filled ++ [IOpen InOut; ISet [32; 32; 66; 66; 32; 32]; IStart EQ 2 2; IRead RNext]).
  assert (X := H cfg0 d (after d pre) (after d (pre ++ [IRead RNext]))
    (after d (pre ++ [IRead RNext; IDelete; ISet [49; 52; 66; 66; 0; 0]; IWrite 6]))
    (after d (pre ++ [IRead RNext; IDelete; ISet [49; 52; 66; 66; 0; 0]; IWrite 6; IRead RNext])) (desc2_ok _) ltac:(reached)
    ltac:(vm_compute; reflexivity) ltac:(vm_compute; reflexivity) ltac:(vm_compute; reflexivity) ltac:(vm_compute; reflexivity) ltac:(vm_compute; reflexivity) ltac:(vm_compute; reflexivity) ltac:(vm_compute; reflexivity) ltac:(vm_compute; reflexivity) ltac:(vm_compute; reflexivity)).
  vm_compute in X. discriminate.
Qed.
(** START NOT GREATER with a leading part of a key finds the first record with
    that part, not the last. *)
Theorem C69_indexed_start_le_partial_refuted : ~ (forall c d f len i s f1 r, desc_ok d -> reach c d f -> may_read f -> x_isam f <> None ->
  d_access d <> AccRandom -> nth_error (d_keys d) i = Some s -> (len <= k_len s)%nat ->
  run_iop c f (IStart LE (k_off s) len) = Ok f1 ->
  start_pick LE s (firstn len (skipn (k_off s) (x_area f))) (by_key f i) = Some r ->
  exists f2, run_iop c f1 (IRead RPrev) = Ok f2 /\ delivered f2 = r).
Proof.
  intro H. set (d := desc1 AccDynamic). set (f := after d (filled ++ [IOpen InOut])).
  destruct (run_iop cfg0 f (IStart LE 0 1)) as [f1| |] eqn:R1; vm_compute in R1; try discriminate.
  destruct (H cfg0 d f 1%nat 0%nat (mkK 0 2 false) f1 rC (desc1_ok _)) as (f2 & R2 & D2).
  - reached.
  - right; vm_compute; reflexivity.
  - vm_compute; discriminate.
  - vm_compute; discriminate.
  - vm_compute; reflexivity.
  - cbn; lia.
  - injection R1 as <-. vm_compute. reflexivity.
  - vm_compute. reflexivity.
  - injection R1 as <-. vm_compute in R2. injection R2 as <-. vm_compute in D2. discriminate.
Qed.
(** After CLOSE WITH LOCK, statements that should be refused use memory that was
    given back. *)
Theorem C69_indexed_locked_refuted : ~ (forall c d f o, desc_ok d -> reach c d f -> x_open f = Locked -> exists f', run_iop c f o = Ok f').
Proof.
  intro H. set (d := desc1 AccDynamic).
  destruct (H cfg0 d (after d ([IOpen Output] ++ put rA ++ [IClose CloseLock])) (IRead RNext) (desc1_ok _)) as (f' & R).
  - reached.
  - vm_compute; reflexivity.
  - vm_compute in R. discriminate.
Qed.
(** OPEN EXTEND: WRITE in sequential access is not compared with the records that
    are there. *)
Theorem C69_indexed_extend_order_refuted : ~ (forall c d f f1 n f2, desc_ok d -> reach c d f -> d_access d = AccSequential ->
  run_iop c f (IOpen Extend) = Ok f1 -> x_status f1 = 0 -> run_iop c f1 (IWrite n) = Ok f2 -> x_status f2 = 0 ->
  exists k, last (by_key f2 0) [] = firstn k (x_area f1)).
Proof.
  intro H. set (d := desc1 AccSequential).
  destruct (H cfg0 d (after d (filled ++ [ISet [48; 48; 0; 0; 0; 0]])) (after d (filled ++ [ISet [48; 48; 0; 0; 0; 0]; IOpen Extend])) 6%nat
    (after d (filled ++ [ISet [48; 48; 0; 0; 0; 0]; IOpen Extend; IWrite 6])) (desc1_ok _) ltac:(reached)
    ltac:(vm_compute; reflexivity) ltac:(vm_compute; reflexivity) ltac:(vm_compute; reflexivity) ltac:(vm_compute; reflexivity) ltac:(vm_compute; reflexivity)) as (k & K).
  vm_compute in K. destruct k as [|[|[|k]]]; discriminate.
Qed.
(** A READ that finds no record changes the key of reference. *)
Theorem C69_indexed_failed_read_refuted : ~ (forall c d f k f1, desc_ok d -> reach c d f -> may_read f -> allowed f (IRead k) ->
  run_iop c f (IRead k) = Ok f1 -> x_status f1 <> 0 -> reference f1 = reference f).
Proof.
  intro H. set (d := desc2 AccDynamic).
  assert (X := H cfg0 d (after d (filled ++ [IOpen InOut; IRead RNext; ISet blank6])) (RKey 2 2)
     (after d (filled ++ [IOpen InOut; IRead RNext; ISet blank6; IRead (RKey 2 2)])) (desc2_ok _) ltac:(reached) ltac:(right; vm_compute; reflexivity)
     ltac:(apply allowedb_ok; vm_compute; reflexivity) ltac:(vm_compute; reflexivity) ltac:(vm_compute; discriminate)).
  vm_compute in X. discriminate.
Qed.

Print Assumptions C69_indexed_total.
Print Assumptions C69_indexed_order.
Print Assumptions C69_indexed_frame.
Print Assumptions C69_indexed_open.
Print Assumptions C69_indexed_close.
Print Assumptions C69_indexed_write.
Print Assumptions C69_indexed_last_key.
Print Assumptions C69_indexed_read_key.
Print Assumptions C69_indexed_start.
Print Assumptions C69_indexed_next.
Print Assumptions C69_indexed_delete_next.
Print Assumptions C69_indexed_end.
Print Assumptions C69_indexed_scan.
Print Assumptions C69_indexed_scan_from.
Print Assumptions C69_indexed_delete.
Print Assumptions C69_indexed_delete_sequential.
Print Assumptions C69_indexed_not_read.
Print Assumptions C69_indexed_rewrite.
Print Assumptions C69_indexed_rewrite_sequential.
Print Assumptions C69_indexed_seq_rewrite_refuted.
Print Assumptions C69_indexed_seq_rewrite_undefined_refuted.
Print Assumptions C69_indexed_seq_rewrite_key_refuted.
Print Assumptions C69_indexed_rewrite_length_refuted.
Print Assumptions C69_indexed_rewrite_after_44_refuted.
Print Assumptions C69_indexed_first_refuted.
Print Assumptions C69_indexed_new_duplicate_refuted.
Print Assumptions C69_indexed_start_le_partial_refuted.
Print Assumptions C69_indexed_locked_refuted.
Print Assumptions C69_indexed_extend_order_refuted.
Print Assumptions C69_indexed_failed_read_refuted.
