(** WRITE, REWRITE and DELETE on indexed files. *)
From Coq Require Import Permutation Sorted.
From Verif Require Import Base FileIO Indexed SpecIndexed IndexedDb IndexedInv IndexedOps IndexedPos IndexedState IndexedRead IndexedStmt IndexedStmt2 IndexedStmt3.
Local Open Scope Z_scope.

Definition wsize (f : ixf) (rsize : nat) : nat := match x_dep f with Some v => Z.to_nat (i_val v) | None => rsize end.
Definition wdenied (f : ixf) : bool :=
  match d_access (x_desc f), x_open f with
  | AccSequential, (Closed | Input | InOut) => true
  | AccSequential, _ => false
  | _, (Closed | Input | Extend) => true
  | _, _ => false
  end.

(** What is left of the position. *)
Definition pos_kept (d : fdesc) (f f' : ixf) : Prop :=
  x_first f' = x_first f /\ x_eof f' = x_eof f /\ x_bof f' = x_bof f /\ x_desc f' = x_desc f /\
  forall p, x_isam f = Some p -> exists p', x_isam f' = Some p' /\ same_pos p p' /\
    (p_data p <> None -> p_data p' <> None) /\
    forall r, positioned d p r -> In r (by_key f' 0) -> positioned d p' r.

Lemma pos_kept_same d f f' : x_first f' = x_first f -> x_eof f' = x_eof f -> x_bof f' = x_bof f ->
  x_desc f' = x_desc f -> x_isam f' = x_isam f -> pos_kept d f f'.
Proof.
  intros A B C D E. unfold pos_kept. rewrite A, B, C, D, E. repeat (split; [reflexivity|]).
  intros p P. exists p. auto using same_pos_refl.
Qed.

Lemma set_area_stmt d f a : good d f -> length a = d_max d -> good d (xset_area a (x_size f) f).
Proof. intros G L. split; xs; try apply G; auto. Qed.
Lemma set_dep_stmt d f v : good d f -> good d (xset_dep v f).
Proof. intros G. split; xs; try apply G; auto. Qed.

Lemma forall2_incl (l m : list db) i : Forall2 (fun l l' => incl l l') l m -> incl (nth i l []) (nth i m []).
Proof.
  intro F; revert i; induction F; intros [|i]; cbn [nth]; auto using incl_refl.
Qed.

Lemma write_stmt d f rsize : desc_ok d -> good d f -> x_open f <> Locked ->
  exists f', x_ex_write f rsize = Ok f' /\ x_open f' = x_open f /\ x_dep f' = x_dep f /\ x_area f' = x_area f /\
    x_disk f' = x_disk f /\ x_done f' = false /\
    (x_status f' <> 44 -> good d f') /\ pos_kept d f f' /\
    let n := wsize f rsize in
    let r := firstn n (x_area f) in
    if wdenied f then x_status f' = 48 /\ content f' = content f /\ x_isam f' = x_isam f
    else if (n <? d_min d)%nat || (d_max d <? n)%nat then x_status f' = 44 /\ content f' = content f /\ x_isam f' = x_isam f
    else exists p p', x_isam f = Some p /\ x_isam f' = Some p' /\
      ((x_status f' = 21 /\ p_last p' = p_last p /\ d_access d = AccSequential /\ content f' = content f /\
        exists k, p_last p = Some k /\ blt (slice (prime d) r) k = true) \/
       (~ (d_access d = AccSequential /\ exists k, p_last p = Some k /\ blt (slice (prime d) r) k = true) /\
        p_last p' = Some (slice (prime d) r) /\
        ((clash_in (d_keys d) (by_key f 0) r /\ x_status f' = 22 /\ content f' = content f) \/
         (~ clash_in (d_keys d) (by_key f 0) r /\ x_status f' = 0 /\ content f' = inserted d r (content f))))).
Proof.
  intros OK G NL. assert (GD := g_desc _ _ G). assert (SH := g_shape _ _ G). assert (GA := g_area _ _ G).
  unfold x_ex_write. xs. fold (wdenied f). destruct (wdenied f) eqn:WD.
  { unfold xret. eexists. split; [reflexivity|]. xs. do 5 (split; [reflexivity|]).
    split; [intros _; split; xs; try apply G; discriminate|]. split; [now apply pos_kept_same|]. auto. }
  fold (wsize f rsize). rewrite GD. destruct ((wsize f rsize <? d_min d)%nat || (d_max d <? wsize f rsize)%nat) eqn:RG.
  { unfold xret. eexists. split; [reflexivity|]. xs. do 5 (split; [reflexivity|]).
    split; [congruence|]. split; [now apply pos_kept_same|]. auto. }
  apply orb_false_elim in RG as [RG1 RG2]. apply Nat.ltb_ge in RG1, RG2. set (n := wsize f rsize) in *.
  destruct (x_isam f) as [p|] eqn:XI.
  2:{ exfalso. unfold wdenied in WD. destruct SH as [[X|[X|[X Y]]] _]; try congruence; rewrite X in WD; destruct (d_access (x_desc f)); discriminate. }
  destruct SH as (XN & XO & DB & AR). unfold with_isam. xs. rewrite XI.
  assert (SL : slice (prime d) (firstn n (x_area f)) = slice (prime d) (x_area f)).
  { apply slice_firstn. assert (H := prime_ok d OK). lia. }
  destruct (indexed_write d p (x_area f) n) as [st p'] eqn:IW. unfold indexed_write in IW.
  match type of IW with (if ?b then _ else _) = _ => destruct b eqn:LOW end.
  - cbn [p_last set_pkey] in LOW. injection IW as <- <-. unfold xret. eexists. split; [reflexivity|]. xs. do 5 (split; [reflexivity|]).
    split. { intros _. eapply (good_upd d f p); eauto; try apply G. discriminate. }
    split. { unfold pos_kept. xs. repeat (split; [reflexivity|]). intros q X. rewrite XI in X. injection X as <-. eexists. split; [reflexivity|].
      split; [unfold same_pos; auto|]. split; auto. }
    exists p. eexists. split; auto. split; [reflexivity|]. left. split; auto. split; auto.
    destruct (p_last p) as [k|] eqn:PL; [|discriminate]. destruct (d_access d) eqn:AC; try discriminate.
    split; auto. split. { unfold content. xs. rewrite XI. auto. }
    exists k. split; auto. rewrite SL. destruct (bcmp k (slice (prime d) (x_area f))) eqn:BC; try discriminate.
    rewrite (bcmp_opp (slice (prime d) (x_area f)) k) in BC. unfold blt. destruct (bcmp (slice (prime d) (x_area f)) k); try discriminate; auto.
  - cbn [p_last set_pkey] in LOW.
    destruct (write_internal_ok d (set_last (Some (slice (prime d) (x_area f))) (set_pkey (slice (prime d) (x_area f)) p)) (x_area f) n OK)
      with (st := st) (p' := p') as (W1 & W2 & W3 & W4 & W5); auto; try lia.
    cbn [p_dbs p_last set_last set_pkey] in W2, W5.
    unfold xret. eexists. split; [reflexivity|]. xs. do 5 (split; [reflexivity|]).
    assert (SP : same_pos p p') by exact W1.
    split. { intros _. eapply (good_upd d f p); eauto; try apply G; [eapply arr_same; eauto|discriminate]. }
    destruct (arr_spec d p AR) as (s & NE).
    split.
    { unfold pos_kept. xs. repeat (split; [reflexivity|]). intros q X. rewrite XI in X. injection X as <-. exists p'. split; auto. split; auto. split; auto.
      intros r P I. eapply (positioned_frame d p p' s); eauto.
      destruct W5 as [(_ & _ & W6)|(_ & _ & _ & W6)].
      - intros e E1 _. unfold the_db in *. rewrite W6. auto.
      - intros e E1 _. unfold the_db in *. eapply forall2_incl; eauto. }
    exists p, p'. split; auto. split; auto. right. rewrite SL. split.
    { intros (AC & k & PL & BL). rewrite AC, PL in LOW. rewrite (bcmp_opp (slice (prime d) (x_area f)) k) in LOW. unfold blt in BL.
      destruct (bcmp (slice (prime d) (x_area f)) k); discriminate. }
    split; auto. unfold by_key, content. xs. rewrite XI. destruct W5 as [(C1 & C2 & C3)|(C1 & C2 & C3 & C4)].
    + left. rewrite C3. auto.
    + right. auto.
Qed.

(** ** DELETE *)
Definition dkey (f : ixf) : list Z :=
  match d_access (x_desc f), x_isam f with
  | AccSequential, Some p => p_key p
  | _, _ => slice (prime (x_desc f)) (x_area f)
  end.
Definition seq_unread (f : ixf) : bool :=
  match d_access (x_desc f) with AccSequential => negb (x_done f) | _ => false end.

Lemma in_view0 d dbs k r : desc_ok d -> dbs_ok d dbs -> rec_at (nth 0 dbs []) k = Some r <-> In r (nth 0 (views dbs) []) /\ slice (prime d) r = k.
Proof.
  intros OK DB. destruct dbs as [|l0 alts]; [destruct DB|]. destruct DB as [P _]. cbn [nth views]. split.
  - intro H. split; [eapply rec_at_in_view; eauto|eapply pinv_rec_at; eauto].
  - intros [I <-]. now apply pinv_in.
Qed.

Lemma delete_stmt d f : desc_ok d -> good d f ->
  exists f', x_ex_delete f = Ok f' /\ x_open f' = x_open f /\ x_area f' = x_area f /\ x_size f' = x_size f /\ good d f' /\ pos_kept d f f' /\
    x_status f' <> 44 /\
    match x_open f with
    | InOut =>
      if seq_unread f then x_status f' = 43 /\ content f' = content f
      else exists p p', x_isam f = Some p /\ x_isam f' = Some p' /\ p_last p' = p_last p /\ same_pos p p' /\
        match rec_at (the_db p 0) (dkey f) with
        | Some old => x_status f' = 0 /\ content f' = deleted d (dkey f) (content f) /\
            p_dbs p' = match p_dbs p with
               | [] => []
               | l0 :: alts => filter (fun e => negb (beq (e_key e) (dkey f))) l0
                               :: map (filter (fun e => negb (beq (e_prim e) (dkey f)))) alts
               end
        | None => d_access d <> AccSequential /\ x_status f' = 23 /\ content f' = content f
        end
    | _ => x_status f' = 49 /\ content f' = content f
    end.
Proof.
  intros OK G. assert (GD := g_desc _ _ G). assert (SH := g_shape _ _ G).
  unfold x_ex_delete. xs.
  assert (NOT : forall st, exists f', xret st (xset_done false f) = Ok f' /\ x_open f' = x_open f /\ x_area f' = x_area f /\ x_size f' = x_size f /\ good d f' /\ pos_kept d f f' /\
     x_status f' = st /\ content f' = content f).
  { intros st. unfold xret. eexists. split; [reflexivity|]. xs. do 3 (split; [reflexivity|]). split; [split; xs; try apply G; discriminate|].
    split; [now apply pos_kept_same|]. auto. }
  destruct (x_open f) eqn:XOP;
    try (destruct (NOT 49) as (f' & F1 & F2 & F3 & F4 & F5 & F6 & F7 & F8); exists f'; rewrite F7; split; [exact F1|]; do 5 (split; [assumption|]);
         split; [discriminate|]; split; [reflexivity|assumption]).
  fold (seq_unread f). destruct (seq_unread f) eqn:SU.
  { destruct (NOT 43) as (f' & F1 & F2 & F3 & F4 & F5 & F6 & F7 & F8); exists f'; rewrite F7; split; [exact F1|]; do 5 (split; [assumption|]);
         split; [discriminate|]; split; [reflexivity|assumption]. }
  clear NOT. destruct (x_isam f) as [p|] eqn:XI.
  2:{ exfalso. destruct SH as [[X|[X|[X Y]]] _]; congruence. }
  destruct SH as (XN & XO & DB & AR). unfold with_isam. xs. rewrite XI, GD.
  destruct (arr_spec d p AR) as (s & NE).
  assert (DK : p_key (match d_access d with AccSequential => p | _ => set_pkey (slice (prime d) (x_area f)) p end) = dkey f).
  { unfold dkey. rewrite GD, XI. destruct (d_access d); auto. }
  destruct (rec_at (the_db p 0) (dkey f)) as [old|] eqn:RA.
  - destruct (delete_found d p (x_area f) (dkey f) old DB DK RA) as (p' & D1 & D2 & D3 & D4 & D5 & D6 & D7).
    rewrite D1. cbn [obind]. unfold xret. eexists. split; [reflexivity|]. xs. do 3 (split; [auto|]).
    split. { eapply (good_upd d f p); eauto; try apply G; [eapply arr_same; eauto|discriminate]. }
    split.
    { unfold pos_kept. xs. repeat (split; [reflexivity|]). intros q X. rewrite XI in X. injection X as <-. exists p'. split; auto. split; auto. split; auto.
      intros r P I. eapply (positioned_frame d p p' s); eauto.
      intros e E1 E2. unfold by_key, content in I. xsin I.
      assert (IX := dbs_idx d _ _ s OK DB NE). destruct (io_ent _ _ _ _ IX e E1) as (I1 & I2 & I3).
      fold (the_db p 0) in I1, I2, I3. rewrite E2 in I2, I3.
      assert (NK : slice (prime d) r <> dkey f).
      { intro Y. rewrite D6 in I. unfold deleted in I. rewrite nth_indep with (d' := without (prime d) (dkey f) []) in I.
        - rewrite map_nth in I. unfold without in I at 1. apply filter_In in I as [_ I]. rewrite Y, beq_refl in I. discriminate.
        - rewrite map_length. destruct (p_dbs p); [destruct DB|]. cbn [views length]. lia. }
      unfold the_db in *. rewrite D7. destruct (p_dbs p) as [|l0 alts]; [destruct DB|].
      destruct (p_ki p) as [|j]; cbn [nth Nat.eqb] in *.
      - apply filter_In. split; auto. apply negb_true_iff. apply beq_false. congruence.
      - rewrite nth_indep with (d' := filter (fun e0 => negb (beq (e_prim e0) (dkey f))) []).
        + rewrite map_nth. apply filter_In. split; auto. apply negb_true_iff. apply beq_false. congruence.
        + rewrite map_length. destruct (Nat.lt_ge_cases j (length alts)) as [Z|Z]; auto. rewrite nth_overflow in E1 by auto. destruct E1. }
    split; [discriminate|]. exists p, p'. split; auto. split; auto. split; auto. split; auto. rewrite RA. split; auto. split; auto.
    unfold content. xs. rewrite XI. auto.
  - assert (NS : d_access d <> AccSequential).
    { intro AC. unfold seq_unread in SU. rewrite GD, AC in SU. apply negb_false_iff in SU.
      destruct (g_done _ _ G SU) as (q & r & Q1 & Q2 & Q3). rewrite XI in Q1. injection Q1 as <-.
      rewrite AC in DK. rewrite <- DK, Q2, Q3 in RA. discriminate. }
    assert (RA' : rec_at (nth 0 (p_dbs p) []) (slice (prime d) (x_area f)) = None).
    { rewrite <- RA. unfold the_db. f_equal. unfold dkey. rewrite GD. destruct (d_access d); congruence. }
    rewrite (delete_missing d p (x_area f) NS RA'). cbn [obind]. unfold xret. eexists. split; [reflexivity|]. xs. do 3 (split; [auto|]).
    split. { eapply (good_upd d f p); eauto; try apply G; discriminate. }
    split.
    { unfold pos_kept. xs. repeat (split; [reflexivity|]). intros q X. rewrite XI in X. injection X as <-. eexists. split; [reflexivity|].
      split; [unfold same_pos; auto|]. split; auto. }
    split; [discriminate|]. exists p. eexists. split; auto. split; [reflexivity|]. split; auto. split; [unfold same_pos; auto|].
    rewrite RA. split; auto. split; auto. unfold content. xs. rewrite XI. auto.
Qed.

(** ** REWRITE *)
Lemma replaced_key d old r v x : d_keys d <> [] -> v <> [] ->
  In x (nth 0 (replaced d old r v) []) -> slice (prime d) x = slice (prime d) r ->
  slice (prime d) old = slice (prime d) r -> x = r.
Proof.
  intros KN VN I E EO. unfold replaced in I. rewrite (prime_cons d KN) in I. destruct v as [|v0 v]; [easy|].
  cbn [map2 nth] in I. unfold put_back in I. rewrite EO, beq_refl in I. apply in_map_iff in I as (y & Y1 & Y2).
  destruct (beq_spec (slice (prime d) y) (slice (prime d) r)) as [Z|Z]; [auto|]. subst y. contradiction.
Qed.

Lemma rewrite_stmt d f : desc_ok d -> good d f -> allowed f IRewrite ->
  exists f', x_ex_rewrite f = Ok f' /\ x_open f' = x_open f /\ x_area f' = x_area f /\ x_size f' = x_size f /\ good d f' /\ pos_kept d f f' /\
    x_status f' <> 44 /\
    match x_open f with
    | InOut =>
      if seq_unread f then x_status f' = 43 /\ content f' = content f
      else exists p p', x_isam f = Some p /\ x_isam f' = Some p' /\ p_last p' = p_last p /\ same_pos p p' /\
        let r := delivered f in
        ((clash_other (prime d) (tl (d_keys d)) (by_key f 0) r /\ x_status f' = 22 /\ content f' = content f) \/
         (~ clash_other (prime d) (tl (d_keys d)) (by_key f 0) r /\
          ((rec_at (the_db p 0) (slice (prime d) r) = None /\ x_status f' = 23 /\ content f' = content f) \/
           exists old, rec_at (the_db p 0) (slice (prime d) r) = Some old /\ x_status f' = 0 /\
             content f' = replaced d old r (content f))))
    | _ => x_status f' = 49 /\ content f' = content f
    end.
Proof.
  intros OK G (NL & AL). assert (GD := g_desc _ _ G). assert (SH := g_shape _ _ G). assert (GA := g_area _ _ G). assert (GS := g_size _ _ G).
  unfold x_ex_rewrite. xs.
  assert (NOT : forall st, exists f', xret st (xset_done false f) = Ok f' /\ x_open f' = x_open f /\ x_area f' = x_area f /\ x_size f' = x_size f /\ good d f' /\ pos_kept d f f' /\
     x_status f' = st /\ content f' = content f).
  { intros st. unfold xret. eexists. split; [reflexivity|]. xs. do 3 (split; [reflexivity|]). split; [split; xs; try apply G; discriminate|].
    split; [now apply pos_kept_same|]. auto. }
  destruct (x_open f) eqn:XOP;
    try (destruct (NOT 49) as (f' & F1 & F2 & F3 & F4 & F5 & F6 & F7 & F8); exists f'; rewrite F7; split; [exact F1|]; do 5 (split; [assumption|]);
         split; [discriminate|]; split; [reflexivity|assumption]).
  fold (seq_unread f). destruct (seq_unread f) eqn:SU.
  { destruct (NOT 43) as (f' & F1 & F2 & F3 & F4 & F5 & F6 & F7 & F8); exists f'; rewrite F7; split; [exact F1|]; do 5 (split; [assumption|]);
         split; [discriminate|]; split; [reflexivity|assumption]. }
  clear NOT. destruct (x_isam f) as [p|] eqn:XI.
  2:{ exfalso. destruct SH as [[X|[X|[X Y]]] _]; congruence. }
  destruct SH as (XN & XO & DB & AR). unfold with_isam. xs. rewrite XI, GD.
  destruct (arr_spec d p AR) as (s & NE).
  assert (SL : slice (prime d) (delivered f) = slice (prime d) (x_area f)).
  { unfold delivered. apply slice_firstn. assert (H := prime_ok d OK). lia. }
  destruct (indexed_rewrite_ok d p (x_area f) (x_size f) OK DB GA GS) as (st & p' & R1 & R2 & R3 & R4 & R5 & R6).
  { rewrite GD in AL. destruct AL as [AL|[AL1 AL2]]; auto. destruct (d_access d) eqn:AC; [|left; discriminate|left; discriminate].
    unfold seq_unread in SU. rewrite GD, AC in SU. apply negb_false_iff in SU.
    destruct (g_done _ _ G SU) as (q & r & Q1 & Q2 & Q3). rewrite XI in Q1. injection Q1 as <-.
    right. assert (E : slice (prime d) (x_area f) = p_key p).
    { apply AL2. unfold last_read. rewrite SU, XI. auto. }
    split; auto. split; auto. rewrite E, Q2. unfold the_db in Q3. rewrite Q3. discriminate. }
  fold (delivered f) in R6. rewrite R1. cbn [obind]. unfold xret. eexists. split; [reflexivity|]. xs. do 3 (split; [auto|]).
  split. { eapply (good_upd d f p); eauto; try apply G; [eapply arr_same; eauto|discriminate]. }
  split.
  { unfold pos_kept. xs. repeat (split; [reflexivity|]). intros q X. rewrite XI in X. injection X as <-. exists p'. split; auto. split; auto. split; auto.
    intros r P I. eapply (positioned_frame d p p' s); eauto.
    intros e E1 E2. unfold by_key, content in I. xsin I.
    destruct R6 as [(_ & _ & R6)|[(_ & _ & _ & R6)|(_ & old & O1 & O2 & O3 & O4)]];
      try (unfold the_db in *; rewrite R6; exact E1).
    assert (IX := dbs_idx d _ _ s OK DB NE). destruct (io_ent _ _ _ _ IX e E1) as (I1 & I2 & I3).
    fold (the_db p 0) in I1, I2, I3. rewrite E2 in I2, I3.
    apply O4; auto. rewrite I3. destruct (beq_spec (slice (prime d) r) (slice (prime d) (x_area f))) as [EQ0|NEQ]; auto. right.
    assert (r = old) by (unfold the_db in I2; rewrite EQ0, O1 in I2; congruence). subst r.
    rewrite O3 in I. eapply (replaced_key d old) in I; try congruence; auto. apply OK.
    destruct (p_dbs p); [destruct DB|]; discriminate. }
  assert (NS : st <> 44).
  { destruct R6 as [(_ & -> & _)|[(_ & _ & -> & _)|(_ & old & _ & -> & _)]]; discriminate. }
  split; auto. exists p, p'. split; auto. split; auto. split; auto. split; auto. cbv zeta. unfold by_key, content. xs. rewrite XI. unfold the_db. rewrite SL.
  destruct R6 as [(C1 & C2 & C3)|[(C1 & C2 & C3 & C4)|(C1 & old & C2 & C3 & C4 & _)]].
  - left. rewrite C3. auto.
  - right. split; auto. left. rewrite C4. auto.
  - right. split; auto. right. exists old. auto.
Qed.

(** ** Every reachable state *)
Lemma opened_mode m : (match m with Closed | Locked => False | _ => True end) -> opened m.
Proof. unfold opened. destruct m; intuition. Qed.

Lemma step_good c d f o : desc_ok d -> good d f -> allowed f o ->
  exists f', run_iop c f o = Ok f' /\ (x_status f' <> 44 -> good d f').
Proof.
  intros OK G AL. destruct o; cbn [run_iop].
  - destruct (open_stmt c d f m OK G (opened_mode m AL)) as (f' & A & B & _). eauto.
  - destruct AL as [NL _]. destruct (close_stmt d f o G NL) as (f' & A & B & _). eauto.
  - destruct (start_stmt d f c0 off len OK G AL) as (f' & A & B & _). eauto.
  - destruct (read_stmt d f k OK G AL) as (f' & A & B & _). eauto.
  - destruct AL as [NL _]. destruct (write_stmt d f rsize OK G NL) as (f' & A & _ & _ & _ & _ & _ & B & _). eauto.
  - destruct (rewrite_stmt d f OK G AL) as (f' & A & _ & _ & _ & B & _). eauto.
  - destruct (delete_stmt d f OK G) as (f' & A & _ & _ & _ & B & _). eauto.
  - eexists. split; [reflexivity|]. intros _. apply set_area_stmt; auto. cbn [allowed] in AL. now rewrite (g_desc _ _ G) in AL.
  - destruct (x_dep f); eexists; (split; [reflexivity|]); intros _; auto using set_dep_stmt.
Qed.

Lemma good_new d area dep : desc_ok d -> length area = d_max d -> good d (new_file d area dep).
Proof.
  intros OK L. split; cbn; auto; try discriminate. destruct OK as (_ & _ & _ & _ & OK). split; [exact OK|apply le_n].
  split; auto. discriminate.
Qed.

Lemma reach_good c d f : desc_ok d -> reach c d f -> good d f.
Proof.
  intros OK R. induction R as [area dep L|f o f' R IH AL RUN NS].
  - now apply good_new.
  - destruct (step_good c d f o OK IH AL) as (f'' & A & B). rewrite RUN in A. injection A as <-. auto.
Qed.
