(** Towards the theorems on indexed files. *)
From Coq Require Import Permutation Sorted.
From Verif Require Import Base FileIO Indexed SpecIndexed IndexedDb IndexedInv IndexedOps IndexedPos IndexedState IndexedRead IndexedStmt IndexedStmt2 IndexedStmt3 IndexedStmt4.
Local Open Scope Z_scope.

(** The file is positioned at the record [r]. *)
Definition at_rec (d : fdesc) (f : ixf) (r : record) : Prop :=
  exists p, x_isam f = Some p /\ positioned d p r /\ p_data p <> None.

Lemma content_ok d f : desc_ok d -> good d f -> content f <> [] ->
  exists dbs, dbs_ok d dbs /\ content f = views dbs.
Proof.
  intros OK G NE. assert (SH := g_shape _ _ G). unfold content in *. destruct (x_isam f) as [p|].
  - exists (p_dbs p). split; auto. apply SH.
  - destruct (x_disk f) as [l|]; [|congruence]. exists l. split; auto. apply SH; auto.
Qed.

Lemma order_idx d dbs i s : desc_ok d -> dbs_ok d dbs -> nth_error (d_keys d) i = Some s ->
  in_order s (nth i (views dbs) []).
Proof.
  intros OK DB NE. destruct dbs as [|l0 alts]; [destruct DB|]. destruct DB as [P F].
  assert (KD := prime_cons d (proj1 OK)). destruct i as [|j].
  - rewrite KD in NE. cbn [nth_error] in NE. injection NE as <-. cbn [views nth]. apply pinv_order; auto. apply OK.
  - rewrite KD in NE. cbn [nth_error] in NE. cbn [views nth].
    assert (K := forall2_nth _ _ _ j s (@nil ent) F NE). cbv beta in K.
    destruct (Nat.lt_ge_cases j (length alts)) as [L|L].
    + rewrite nth_indep with (d' := deref l0 []) by (rewrite map_length; auto). rewrite map_nth, deref_vw. eapply kinv_order; eauto.
    + rewrite nth_overflow by (rewrite map_length; auto). cbn. auto.
Qed.

Lemma by_key_perm d f i s : desc_ok d -> good d f -> nth_error (d_keys d) i = Some s -> Permutation (by_key f 0) (by_key f i).
Proof.
  intros OK G NE. unfold by_key. destruct (content f) as [|v vs] eqn:E.
  - destruct i; constructor.
  - destruct (content_ok d f OK G) as (dbs & DB & V); [congruence|]. rewrite <- E, V. eapply io_perm. eapply dbs_idx; eauto.
Qed.

(** Keeping the position. *)
Lemma moves_good d f o c f' : good d f -> allowed f o -> is_move o -> run_iop c f o = Ok f' ->
  good d f' /\ content f' = content f /\ x_open f' = x_open f /\ x_isam f' = x_isam f /\ x_done f' = x_done f /\
  x_first f' = x_first f /\ x_eof f' = x_eof f /\ x_bof f' = x_bof f /\ x_desc f' = x_desc f /\ x_size f' = x_size f.
Proof.
  intros G AL M RUN. destruct o; try destruct M; cbn [run_iop] in RUN.
  - injection RUN as <-. split; [apply set_area_stmt; auto; cbn [allowed] in AL; now rewrite (g_desc _ _ G) in AL|]. xs. auto 20.
  - destruct (x_dep f); injection RUN as <-; (split; [auto using set_dep_stmt|]); xs; auto 20.
Qed.

Lemma between_kept c d f o f' : desc_ok d -> good d f -> in_between o -> allowed f o -> run_iop c f o = Ok f' ->
  x_status f' <> 44 \/ is_move o -> good d f' /\ pos_kept d f f' /\ x_open f' = x_open f.
Proof.
  intros OK G B AL RUN NS. destruct o; try destruct B; cbn [run_iop] in RUN.
  - destruct AL as [NL _]. destruct (write_stmt d f rsize OK G NL) as (f1 & A1 & A2 & _ & _ & _ & _ & A3 & A4 & _).
    rewrite RUN in A1. injection A1 as <-. destruct NS as [NS|[]]. auto.
  - destruct (rewrite_stmt d f OK G AL) as (f1 & A1 & A2 & _ & _ & A3 & A4 & _). rewrite RUN in A1. injection A1 as <-. auto.
  - destruct (delete_stmt d f OK G) as (f1 & A1 & A2 & _ & _ & A3 & A4 & _). rewrite RUN in A1. injection A1 as <-. auto.
  - destruct (moves_good d f (ISet d0) c f' G AL I RUN) as (A1 & A2 & A3 & A4 & A5 & A6 & A7 & A8 & A9 & _).
    split; auto. split; auto. apply pos_kept_same; auto.
  - destruct (moves_good d f (IDep n) c f' G AL I RUN) as (A1 & A2 & A3 & A4 & A5 & A6 & A7 & A8 & A9 & _).
    split; auto. split; auto. apply pos_kept_same; auto.
Qed.

Lemma keeps_kept c d r f f' : desc_ok d -> keeps c r f f' -> good d f -> at_rec d f r ->
  good d f' /\ at_rec d f' r /\ x_open f' = x_open f /\ x_first f' = x_first f /\ x_eof f' = x_eof f /\ x_bof f' = x_bof f /\
  reference f' = reference f.
Proof.
  intros OK K. induction K as [f|f o f' f'' B AL RUN NS IN K IH]; intros G AT.
  - auto 10.
  - destruct (between_kept c d f o f' OK G B AL RUN (or_introl NS)) as (G' & (P1 & P2 & P3 & P4 & P5) & XO).
    destruct AT as (p & XI & PO & DA). destruct (P5 p XI) as (p' & XI' & SP & DA' & KP).
    destruct IH as (I1 & I2 & I3 & I4 & I5 & I6 & I7); auto.
    { exists p'. split; auto. }
    split; auto. split; auto. split; [congruence|]. split; [congruence|]. split; [congruence|]. split; [congruence|].
    rewrite I7. unfold reference. rewrite XI, XI'. apply SP.
Qed.

Lemma at_in d f r : desc_ok d -> good d f -> at_rec d f r -> In r (by_key f 0) /\ In r (by_key f (reference f)).
Proof.
  intros OK G (p & XI & (e & (E1 & _) & E2) & _). destruct (good_isam d f p G XI) as (_ & _ & DB & AR).
  destruct (arr_spec d p AR) as (s & NE). assert (IX := dbs_idx d _ _ s OK DB NE).
  assert (In r (by_key f (reference f))).
  { unfold by_key, content, reference. rewrite XI, (io_view _ _ _ _ IX). subst r. apply in_map. exact E1. }
  split; auto. eapply Permutation_in; [|exact H]. apply Permutation_sym.
  apply (by_key_perm d f _ s); auto. unfold reference. rewrite XI. auto.
Qed.

(** A successful READ or START gives a position. *)
Lemma read_at c d f k f1 : desc_ok d -> good d f -> allowed f (IRead k) -> run_iop c f (IRead k) = Ok f1 -> x_status f1 = 0 ->
  good d f1 /\ at_rec d f1 (delivered f1) /\ may_read f1 /\ x_first f1 = 0 /\ x_eof f1 = false /\ x_bof f1 = false /\
  x_done f1 = true /\ last_read f1 = Some (slice (prime d) (delivered f1)) /\ content f1 = content f.
Proof.
  intros OK G AL RUN ST. destruct (read_stmt d f k OK G AL) as (f' & A1 & A2 & A3 & A4 & A5 & A6).
  cbn [run_iop] in RUN. rewrite RUN in A1. injection A1 as <-.
  assert (SH := g_shape _ _ G). unfold x_ex_read in RUN. xsin RUN. fold (keyed k) in RUN. fold (backwards k) in RUN.
  destruct (x_isam f) as [p|] eqn:XI.
  - destruct SH as (XN & XO & _). rewrite XN in RUN.
    destruct (negb (keyed k) && (if backwards k then x_bof f else x_eof f)) eqn:END.
    { unfold xret in RUN. injection RUN as <-. discriminate ST. }
    assert (MR : x_open f = Input \/ x_open f = InOut).
    { destruct XO as [X|[X|[X|X]]]; rewrite X in RUN; auto; unfold xret in RUN; injection RUN as <-; discriminate ST. }
    destruct (A6 p eq_refl) as (p' & B1 & B2 & B3 & B4). destruct (B4 MR) as (o & R & _).
    { intro K. rewrite K in END. exact END. }
    unfold readres in R. destruct o as [r|].
    + destruct R as (R1 & R2 & R3 & R4 & R5 & R6 & R7 & R8 & R9 & R10 & R11 & R12). split; auto. rewrite R2. split; [exists p'; auto|].
      split. { unfold may_read. rewrite A4. auto. } split; auto. split; auto. split; auto. split; auto. split; auto.
      unfold last_read. rewrite R10, B1, R11. auto.
    + destruct R as (R1 & _). rewrite ST in R1. destruct (keyed k); discriminate.
  - exfalso. destruct (x_ne f) eqn:XN.
    { destruct (x_first f =? 0); unfold xret in RUN; injection RUN as <-; discriminate ST. }
    assert (CL : x_open f = Closed). { destruct SH as [[X|[X|[X Y]]] _]; destruct AL; congruence. }
    rewrite CL in RUN. destruct (negb (keyed k) && _); unfold xret in RUN; injection RUN as <-; discriminate ST.
Qed.

Definition dir_read (back : bool) : iop := IRead (if back then RPrev else RNext).

(** READ NEXT and READ PREVIOUS. *)
Lemma readn_at c d f (back : bool) p : desc_ok d -> good d f -> x_isam f = Some p -> may_read f ->
  (if back then x_bof f else x_eof f) = false ->
  exists f' o, run_iop c f (dir_read back) = Ok f' /\ good d f' /\ content f' = content f /\ reference f' = reference f /\
    tells f f' o 10 /\ may_read f' /\ x_first f' = (match o with Some _ => 0 | None => x_first f end) /\
    x_eof f' = (match o with Some _ => false | None => if back then x_eof f else true end) /\
    x_bof f' = (match o with Some _ => false | None => if back then true else x_bof f end) /\
    (forall r, o = Some r -> at_rec d f' r) /\
    (exists p', x_isam f' = Some p' /\ (p_data p <> None -> p_data p' <> None) /\ (o = None -> same_pos p p')) /\
    (x_first f = 0 -> o = trec d p (which back (x_eof f) (x_bof f))) /\
    (x_first f <> 0 -> p_data p <> None -> ~ (x_first f = 2 /\ back = true /\ x_eof f = false) ->
       forall r, positioned d p r -> o = Some r).
Proof.
  intros OK G XI MR FL. set (k := if back then RPrev else RNext).
  assert (AL : allowed f (IRead k)).
  { split. { destruct MR as [X|X]; rewrite X; discriminate. } unfold k. destruct back; exact I. }
  destruct (read_stmt d f k OK G AL) as (f' & A1 & A2 & A3 & A4 & A5 & A6).
  destruct (A6 p XI) as (p' & B1 & B2 & B3 & B4). destruct (B4 MR) as (o & R & Q).
  { intros _. unfold k. destruct back; exact FL. }
  assert (Q' : p_ki p' = p_ki p /\ (o = None -> same_pos p p') /\
      (x_first f = 0 -> o = trec d p (which back (x_eof f) (x_bof f))) /\
      (x_first f <> 0 -> p_data p <> None -> ~ (x_first f = 2 /\ back = true /\ x_eof f = false) ->
         forall r, positioned d p r -> o = Some r)).
  { unfold k in Q. destruct back; exact Q. }
  destruct Q' as (Q1 & Q2 & Q3 & Q4).
  exists f', o. split; [exact A1|]. split; auto. split; auto. split. { unfold reference. now rewrite XI, B1. }
  assert (MR' : may_read f') by (unfold may_read; rewrite A4; auto).
  assert (PP : exists p', x_isam f' = Some p' /\ (p_data p <> None -> p_data p' <> None) /\ (o = None -> same_pos p p')) by eauto.
  unfold readres in R. destruct o as [r|].
  - destruct R as (R1 & R2 & R3 & R4 & R5 & R6 & R7 & R8 & R9 & R10 & R11 & R12).
    split; [unfold tells; auto|]. split; auto. split; auto. split; auto. split; auto. split; auto.
    intros r' E. injection E as <-. exists p'. auto.
  - destruct R as (R1 & R2 & R3 & R4 & R5 & R6 & R7).
    assert (keyed k = false) by (unfold k; destruct back; auto). rewrite H in R1.
    split; [unfold tells; auto|]. split; auto. split; auto.
    split. { rewrite R6. unfold k. destruct back; auto. } split. { rewrite R7. unfold k. destruct back; auto. }
    split; [discriminate|]. auto.
Qed.

Lemma next_at c d f (back : bool) r a b : desc_ok d -> good d f -> at_rec d f r -> may_read f ->
  x_first f = 0 -> x_eof f = false -> x_bof f = false ->
  by_key f (reference f) = a ++ r :: b ->
  exists f', run_iop c f (dir_read back) = Ok f' /\ good d f' /\ content f' = content f /\ reference f' = reference f /\
    tells f f' (hd_error (if back then rev a else b)) 10 /\ may_read f' /\ x_first f' = 0 /\
    (x_status f' = 0 -> x_eof f' = false /\ x_bof f' = false /\ at_rec d f' (delivered f')) /\
    (x_status f' = 10 -> x_eof f' = negb back /\ x_bof f' = back).
Proof.
  intros OK G (p & XI & PO & DA) MR XF XE XB BK.
  destruct (good_isam d f p G XI) as (_ & _ & DB & AR). destruct (arr_spec d p AR) as (s & NE).
  destruct (readn_at c d f back p OK G XI MR) as (f' & o & N1 & N2 & N3 & N4 & N5 & N6 & N7 & N8 & N9 & N10 & N11 & N12 & N13).
  { destruct back; auto. }
  assert (O : o = hd_error (if back then rev a else b)).
  { rewrite (N12 XF). rewrite XE, XB. unfold by_key, content, reference in BK. rewrite XI in BK.
    destruct (target_positioned d p s r a b OK DB NE PO BK) as [T1 T2]. unfold trec, which. destruct back; auto. }
  exists f'. split; auto. split; auto. split; auto. split; auto. rewrite <- O. split; auto. split; auto.
  split. { rewrite N7. destruct o; auto. } unfold tells in N5. destruct o as [x|].
  - destruct N5 as (S1 & S2 & _). split; [|congruence]. intros _. split; auto. split; auto. rewrite S2. auto.
  - destruct N5 as (S1 & S2). split; [congruence|]. intros _. rewrite N8, N9, XE, XB. destruct back; auto.
Qed.

Lemma first_at c d f (back : bool) r : desc_ok d -> good d f -> at_rec d f r -> may_read f ->
  x_first f <> 0 -> x_eof f = false -> x_bof f = false -> (x_first f = 2 -> back = false) ->
  exists f', run_iop c f (dir_read back) = Ok f' /\ good d f' /\ content f' = content f /\ reference f' = reference f /\
    tells f f' (Some r) 10 /\ may_read f' /\ x_first f' = 0 /\ x_eof f' = false /\ x_bof f' = false /\ at_rec d f' r.
Proof.
  intros OK G (p & XI & PO & DA) MR XF XE XB NB.
  destruct (readn_at c d f back p OK G XI MR) as (f' & o & N1 & N2 & N3 & N4 & N5 & N6 & N7 & N8 & N9 & N10 & N11 & N12 & N13).
  { destruct back; auto. }
  assert (O : o = Some r).
  { apply N13; auto. intros (X & Y & _). rewrite (NB X) in Y. discriminate. }
  subst o. exists f'. auto 20.
Qed.

(** After the record of the position was deleted. *)
Lemma filter_all {A} (q : A -> bool) l : Forall (fun x => q x = true) l -> filter q l = l.
Proof. induction 1 as [|x l X F IH]; cbn; auto. rewrite X. now f_equal. Qed.

Lemma map_app_split {A B} (g : A -> B) A1 A2 a b : map g (A1 ++ A2) = a ++ b -> length A1 = length a -> map g A1 = a /\ map g A2 = b.
Proof.
  revert a; induction A1 as [|x A1 IH]; intros [|y a] H L; cbn in *; try discriminate; auto.
  injection H as H1 H2. destruct (IH a H2) as [I1 I2]; [lia|]. subst. auto.
Qed.

Lemma deleted_at c d f f1 (back : bool) r a b : desc_ok d -> good d f -> at_rec d f r -> may_read f ->
  x_first f = 0 -> x_eof f = false -> x_bof f = false ->
  by_key f (reference f) = a ++ r :: b ->
  run_iop c f IDelete = Ok f1 -> x_status f1 = 0 -> ~ In r (by_key f1 0) ->
  reference f1 = reference f /\ by_key f1 (reference f) = a ++ b /\
  exists f', run_iop c f1 (dir_read back) = Ok f' /\ content f' = content f1 /\ reference f' = reference f /\
    tells f1 f' (hd_error (if back then rev a else b)) 10.
Proof.
  intros OK G (p & XI & PO & DA) MR XF XE XB BK RUN ST NI.
  destruct (good_isam d f p G XI) as (_ & _ & DB & AR). destruct (arr_spec d p AR) as (s & NE).
  destruct (delete_stmt d f OK G) as (f1' & A1 & A2 & _ & _ & A3 & (P1 & P2 & P3 & _ & _) & _ & A5).
  cbn [run_iop] in RUN. rewrite RUN in A1. injection A1 as <-.
  destruct (x_open f) eqn:XOP; try (destruct A5 as [A5 _]; congruence).
  destruct (seq_unread f); [destruct A5 as [A5 _]; congruence|].
  destruct A5 as (q & p' & Q1 & Q2 & Q3 & Q4 & Q5). rewrite XI in Q1. injection Q1 as <-.
  destruct (rec_at (the_db p 0) (dkey f)) as [old|] eqn:RA; [|destruct Q5 as (_ & Q5 & _); congruence].
  destruct Q5 as (_ & Q5 & Q6). set (k := dkey f) in *.
  assert (KI : p_ki p' = p_ki p) by apply Q4.
  assert (RF : reference f1 = reference f) by (unfold reference; now rewrite XI, Q2). split; auto.
  assert (IX := dbs_idx d _ _ s OK DB NE).
  destruct PO as (e & (E1 & E2 & E3 & E4) & E5).
  destruct (io_ent _ _ _ _ IX e E1) as (I1 & I2 & I3). fold (the_db p 0) in I1, I2, I3. rewrite E5 in I1, I2, I3.
  (* the deleted record is r *)
  assert (RK : slice (prime d) r = k).
  { destruct (beq_spec (slice (prime d) r) k) as [X|X]; auto. exfalso. apply NI. unfold by_key. rewrite Q5.
    assert (IN : In r (nth 0 (content f) [])).
    { unfold content. rewrite XI. apply (in_view0 d (p_dbs p) (slice (prime d) r) r OK DB). exact I2. }
    unfold deleted. destruct (content f) as [|v0 vs]; [destruct IN|]. cbn [nth map] in *. apply filter_In. split; auto.
    apply negb_true_iff, beq_false. auto. }
  destruct (pos_split (k_dup (key_spec d (p_ki p))) (nth (p_ki p) (p_lrk p) []) (nth (p_ki p) (p_ldup p) 0) (the_db p (p_ki p)) e)
    as (A & B & L & FA & FB).
  { rewrite (io_spec _ _ _ _ IX). apply IX. }
  { exact E1. }
  { apply at_ent_pat. unfold at_ent. auto. }
  set (g := fun x : ent => negb (beq (if (p_ki p =? 0)%nat then e_key x else e_prim x) k)).
  assert (LF : the_db p' (p_ki p) = filter g (the_db p (p_ki p))).
  { unfold the_db in *. rewrite Q6. destruct (p_dbs p) as [|l0 alts]; [destruct DB|]. unfold g.
    destruct (p_ki p) as [|j]; cbn [nth Nat.eqb]; auto.
    change (@nil ent) with (filter (fun e0 : ent => negb (beq (e_prim e0) k)) []) at 1. now rewrite map_nth. }
  assert (ND := io_nodup _ _ _ _ IX). fold (the_db p 0) in ND. fold (the_db p (p_ki p)) in ND.
  assert (VW := io_view _ _ _ _ IX). fold (the_db p 0) in VW. fold (the_db p (p_ki p)) in VW.
  unfold by_key, content, reference in BK. rewrite XI in BK. rewrite BK in VW. rewrite L in VW, ND. rewrite map_app in VW, ND. cbn [map] in VW, ND. rewrite E5 in VW, ND.
  assert (SPL : a = map (erec (the_db p 0) (p_ki p)) A /\ b = map (erec (the_db p 0) (p_ki p)) B).
  { destruct (nodup_split (map (erec (the_db p 0) (p_ki p)) A) (map (erec (the_db p 0) (p_ki p)) B) a b r ND (eq_sym VW)) as [X Y]. auto. }
  destruct SPL as [SA SB].
  assert (GE : g e = false) by (unfold g; rewrite I3, RK, beq_refl; auto).
  assert (GO : forall x, In x (the_db p (p_ki p)) -> erec (the_db p 0) (p_ki p) x <> r -> g x = true).
  { intros x X NX. unfold g. apply negb_true_iff, beq_false. intro Y.
    destruct (io_ent _ _ _ _ IX x X) as (J1 & J2 & J3). fold (the_db p 0) in J1, J2, J3. rewrite Y in J3. rewrite <- J3, <- RK, I2 in J2. congruence. }
  assert (NIN : ~ In r (map (erec (the_db p 0) (p_ki p)) A ++ map (erec (the_db p 0) (p_ki p)) B)) by (apply NoDup_remove_2; auto).
  assert (LAB : the_db p' (p_ki p) = A ++ B).
  { rewrite LF, L, filter_app. cbn [filter]. rewrite GE. f_equal; apply filter_all, Forall_forall; intros x X; apply GO.
    - rewrite L. apply in_or_app; auto.
    - intro Y. apply NIN, in_or_app. left. rewrite <- Y. now apply in_map.
    - rewrite L. apply in_or_app; right; right; auto.
    - intro Y. apply NIN, in_or_app. right. rewrite <- Y. now apply in_map. }
  destruct (good_isam d f1 p' A3 Q2) as (_ & _ & DB' & AR'). assert (NE' := NE). rewrite <- KI in NE'.
  assert (IX' := dbs_idx d _ _ s OK DB' NE'). assert (VW' := io_view _ _ _ _ IX'). rewrite KI in VW'.
  fold (the_db p' 0) in VW'. fold (the_db p' (p_ki p)) in VW'. rewrite LAB in VW'.
  assert (BK1 : by_key f1 (reference f) = a ++ b).
  { unfold by_key, reference. rewrite XI, Q5. unfold deleted.
    change (@nil record) with (without (prime d) k []) at 1. rewrite map_nth. unfold content. rewrite XI, BK.
    unfold without. rewrite filter_app. cbn [filter]. rewrite RK, beq_refl. cbn [negb].
    assert (KK : forall x, In x (a ++ b) -> negb (beq (slice (prime d) x) k) = true).
    { intros x X. apply negb_true_iff, beq_false. intro Y.
      assert (J : exists y, In y (A ++ B) /\ erec (the_db p 0) (p_ki p) y = x).
      { rewrite SA, SB, <- map_app in X. apply in_map_iff in X as (y & Y1 & Y2). eauto. }
      destruct J as (y & Y1 & Y2).
      assert (Y3 : In y (the_db p (p_ki p))). { rewrite L. apply in_app_or in Y1 as [Y1|Y1]; apply in_or_app; [auto|right; right; auto]. }
      destruct (io_ent _ _ _ _ IX y Y3) as (J1 & J2 & J3). fold (the_db p 0) in J1, J2, J3. rewrite Y2 in J2. rewrite Y, <- RK, I2 in J2.
      injection J2 as J2. subst x. rewrite SA, SB in X. apply NIN. now rewrite J2. }
    f_equal; apply filter_all, Forall_forall; intros x X; apply KK, in_or_app; auto. }
  split; auto.
  assert (MR1 : may_read f1) by (unfold may_read; rewrite A2; auto).
  destruct (readn_at c d f1 back p' OK A3 Q2 MR1) as (f' & o & N1 & N2 & N3 & N4 & N5 & N6 & N7 & N8 & N9 & N10 & N11 & N12 & N13).
  { rewrite P2, P3, XE, XB. destruct back; auto. }
  exists f'. split; auto. split; auto. split; [congruence|].
  assert (O : o = hd_error (if back then rev a else b)); [|rewrite <- O; auto].
  rewrite N12 by congruence. rewrite P2, P3, XE, XB. unfold trec, which, target. destruct Q4 as (K1 & K2 & K3 & K4). rewrite K1, K2, K4, LAB.
  destruct (pos_find (k_dup (key_spec d (p_ki p))) (nth (p_ki p) (p_lrk p) []) (nth (p_ki p) (p_ldup p) 0) A B FA FB) as [T1 T2].
  unfold by_key, content, reference in BK1. rewrite XI, Q2, VW' in BK1.
  destruct (map_app_split _ A B a b BK1) as [M1 M2]. { rewrite SA, map_length. auto. }
  destruct back.
  - rewrite T2, <- M1. rewrite <- map_rev, hd_error_map. auto.
  - rewrite T1, <- M2, hd_error_map. auto.
Qed.

Lemma run_iops_app c os os' : forall f, run_iops c f (os ++ os') = obind (run_iops c f os) (fun f' => run_iops c f' os').
Proof. induction os as [|o os IH]; intro f; cbn [app run_iops obind]; auto. destruct (run_iop c f o); cbn [obind]; auto. Qed.

(** Reading on to the end. *)
Lemma scan_on c d (back : bool) : desc_ok d -> forall n f r a b, good d f -> at_rec d f r -> may_read f ->
  x_first f = 0 -> x_eof f = false -> x_bof f = false ->
  by_key f (reference f) = a ++ r :: b ->
  let l := if back then rev a else b in
  (n < length l)%nat ->
  exists f', run_iops c f (repeat (dir_read back) (S n)) = Ok f' /\ x_status f' = 0 /\ Some (delivered f') = nth_error l n /\
    content f' = content f /\ reference f' = reference f /\ good d f' /\ may_read f' /\ x_first f' = 0 /\ x_eof f' = false /\ x_bof f' = false /\
    at_rec d f' (delivered f').
Proof.
  intros OK. induction n as [|n IH]; intros f r a b G AT MR XF XE XB BK l LT.
  - destruct (next_at c d f back r a b OK G AT MR XF XE XB BK) as (f' & N1 & N2 & N3 & N4 & N5 & N6 & N7 & N8 & N9).
    fold l in N5. destruct l as [|x l]; [cbn in LT; lia|]. cbn [hd_error tells] in N5. destruct N5 as (S1 & S2 & _).
    destruct (N8 S1) as (M1 & M2 & M3). exists f'. cbn [repeat run_iops]. rewrite N1. cbn [obind]. split; auto. split; auto.
    split; [cbn [nth_error]; congruence|]. auto 10.
  - destruct (next_at c d f back r a b OK G AT MR XF XE XB BK) as (f' & N1 & N2 & N3 & N4 & N5 & N6 & N7 & N8 & N9).
    fold l in N5. destruct l as [|x l0] eqn:EL; [cbn in LT; lia|]. cbn [hd_error tells] in N5. destruct N5 as (S1 & S2 & _).
    destruct (N8 S1) as (M1 & M2 & M3). rewrite S2 in M3.
    assert (BK' : exists a' b', by_key f' (reference f') = a' ++ x :: b' /\ (if back then rev a' else b') = l0).
    { unfold by_key. rewrite N3, N4. fold (by_key f (reference f)). rewrite BK. unfold l in EL. destruct back.
      - exists (rev l0), (r :: b). rewrite rev_involutive. split; auto. rewrite <- (rev_involutive a), EL. cbn [rev]. rewrite <- app_assoc. auto.
      - exists (a ++ [r]), l0. rewrite EL, <- app_assoc. auto. }
    destruct BK' as (a' & b' & BK' & L0).
    destruct (IH f' x a' b') as (f2 & R1 & R2 & R3 & R4 & R5 & R6); auto. { rewrite L0. cbn in LT. lia. }
    exists f2. change (repeat (dir_read back) (S (S n))) with (dir_read back :: repeat (dir_read back) (S n)).
    cbn [run_iops]. rewrite N1. cbn [obind]. split; auto. split; auto. split; [cbn [nth_error]; rewrite <- L0; auto|].
    split; [congruence|]. split; [congruence|]. auto.
Qed.

(** MOVE statements. *)
Lemma moves_kept c d f f' : desc_ok d -> moves c f f' -> good d f ->
  good d f' /\ content f' = content f /\ x_open f' = x_open f /\ x_isam f' = x_isam f /\ x_done f' = x_done f /\ x_size f' = x_size f.
Proof.
  intros OK M. induction M as [f|f o f' f'' B AL RUN M IH]; intro G; auto 10.
  destruct (moves_good d f o c f' G AL B RUN) as (A1 & A2 & A3 & A4 & A5 & A6 & A7 & A8 & A9 & A10).
  destruct (IH A1) as (I1 & I2 & I3 & I4 & I5 & I6). split; auto. repeat split; congruence.
Qed.

Lemma read_done f k f' : x_ex_read f k = Ok f' -> x_done f' = true -> x_status f' = 0.
Proof.
  intros RUN DN. unfold x_ex_read in RUN. xsin RUN.
  destruct (x_ne f). { destruct (x_first f =? 0); unfold xret in RUN; injection RUN as <-; discriminate DN. }
  match type of RUN with (if ?b then _ else _) = _ => destruct b end; [unfold xret in RUN; injection RUN as <-; discriminate DN|].
  destruct (x_open f); try (unfold xret in RUN; injection RUN as <-; discriminate DN);
    unfold with_isam in RUN; xsin RUN; (destruct (x_isam f) as [p|]; try discriminate RUN);
    match type of RUN with obind ?e _ = _ => destruct e as [[[[st p'] a] n]| |] end; try discriminate RUN; cbn [obind] in RUN;
    destruct (st =? 0); try (destruct (x_dep f); unfold xret in RUN; injection RUN as <-; reflexivity);
    destruct (st =? 10); destruct k; unfold xret in RUN; injection RUN as <-; discriminate DN.
Qed.

(** Only a successful READ leaves a record to be deleted or rewritten. *)
Lemma done_read c f o f' : run_iop c f o = Ok f' -> ~ is_move o -> x_done f' = true -> x_status f' = 0 /\ exists k, o = IRead k.
Proof.
  intros RUN NM DN. destruct o; cbn [run_iop is_move] in *; try tauto.
  4:{ split; [|eauto]. clear NM. revert RUN DN. apply read_done. }
  all: exfalso.
  - unfold x_ex_open in RUN. xsin RUN.
    destruct (x_open f); try (unfold xret in RUN; injection RUN as <-; discriminate DN).
    match type of RUN with (if ?b then _ else _) = _ => destruct b end; [unfold xret in RUN; injection RUN as <-; discriminate DN|].
    match type of RUN with match ?b with Some _ => _ | None => _ end = _ => destruct b end; [unfold xret in RUN; injection RUN as <-; discriminate DN|].
    destruct (d_optional _); unfold xret in RUN; injection RUN as <-; discriminate DN.
  - unfold x_ex_close in RUN. xsin RUN.
    destruct (x_open f); destruct (x_ne f); unfold with_isam in RUN; xsin RUN; destruct (x_isam f); try discriminate RUN;
      unfold xret in RUN; injection RUN as <-; discriminate DN.
  - unfold x_ex_start in RUN. xsin RUN. destruct (x_ne f); [unfold xret in RUN; injection RUN as <-; discriminate DN|].
    destruct (_ || _); [unfold xret in RUN; injection RUN as <-; discriminate DN|].
    unfold with_isam in RUN; xsin RUN; destruct (x_isam f) as [p|]; try discriminate RUN.
    destruct (start_internal _ _ _ _ _) as [[st p']| |]; try discriminate RUN. cbn [obind] in RUN.
    unfold xret in RUN; injection RUN as <-. destruct (st =? 0); discriminate DN.
  - unfold x_ex_write in RUN. xsin RUN.
    match type of RUN with (if ?b then _ else _) = _ => destruct b end; [unfold xret in RUN; injection RUN as <-; discriminate DN|].
    match type of RUN with (if ?b then _ else _) = _ => destruct b end; [unfold xret in RUN; injection RUN as <-; discriminate DN|].
    unfold with_isam in RUN; xsin RUN; destruct (x_isam f) as [p|]; try discriminate RUN.
    destruct (indexed_write _ _ _ _) as [st p']. unfold xret in RUN; injection RUN as <-; discriminate DN.
  - unfold x_ex_rewrite in RUN. xsin RUN. destruct (x_open f); try (unfold xret in RUN; injection RUN as <-; discriminate DN).
    match type of RUN with (if ?b then _ else _) = _ => destruct b end; [unfold xret in RUN; injection RUN as <-; discriminate DN|].
    unfold with_isam in RUN; xsin RUN; destruct (x_isam f) as [p|]; try discriminate RUN.
    destruct (indexed_rewrite _ _ _ _) as [[st p']| |]; try discriminate RUN. cbn [obind] in RUN.
    unfold xret in RUN; injection RUN as <-; discriminate DN.
  - unfold x_ex_delete in RUN. xsin RUN. destruct (x_open f); try (unfold xret in RUN; injection RUN as <-; discriminate DN).
    match type of RUN with (if ?b then _ else _) = _ => destruct b end; [unfold xret in RUN; injection RUN as <-; discriminate DN|].
    unfold with_isam in RUN; xsin RUN; destruct (x_isam f) as [p|]; try discriminate RUN.
    destruct (indexed_delete _ _ _) as [[st p']| |]; try discriminate RUN. cbn [obind] in RUN.
    unfold xret in RUN; injection RUN as <-; discriminate DN.
Qed.
