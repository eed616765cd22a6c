(** START and READ on indexed files. *)
From Coq Require Import Permutation Sorted.
From Verif Require Import Base FileIO Indexed SpecIndexed IndexedDb IndexedInv IndexedOps IndexedPos IndexedState IndexedRead IndexedStmt.
Local Open Scope Z_scope.

Lemma arr_spec d p : arr_ok d p -> exists s, nth_error (d_keys d) (p_ki p) = Some s.
Proof.
  intros (_ & _ & _ & A). destruct (nth_error (d_keys d) (p_ki p)) eqn:E; eauto. apply nth_error_None in E. lia.
Qed.

(** What READ NEXT or READ PREVIOUS gives: the record, or the end of the file. *)
Definition rres (d : fdesc) (p : isam) (area : list Z) (size : nat) (st : Z) (p' : isam) (a : list Z) (n : nat)
    (o : option record) : Prop :=
  match o with
  | Some r => st = 0 /\ a = r ++ skipn (length r) area /\ n = length r /\ positioned d p' r /\
              p_key p' = slice (prime d) r /\ rec_at (the_db p 0) (slice (prime d) r) = Some r /\ p_data p' <> None
  | None => st = 10 /\ a = area /\ n = size /\ same_pos p p'
  end.

Definition trec (d : fdesc) (p : isam) (nx : dir) : option record :=
  match target d p nx with Some e => Some (erec (the_db p 0) (p_ki p) e) | None => None end.

Definition which (prev eof bof : bool) : dir :=
  if prev then (if eof then DLast else DPrev) else if bof then DFirst else DNext.

Lemma same_target d p p' nx : same_pos p p' -> p_dbs p' = p_dbs p -> target d p' nx = target d p nx.
Proof. intros (A & B & C & D) E. unfold target, the_db. now rewrite A, B, D, E. Qed.

Lemma arr_same d p p' : same_pos p p' -> arr_ok d p -> arr_ok d p'.
Proof. intros (A & B & C & D). unfold arr_ok. now rewrite A, B, C, D. Qed.

Lemma read_next_ok d p area size prev eof bof first : desc_ok d -> dbs_ok d (p_dbs p) -> arr_ok d p ->
  exists st p' a n o, indexed_read_next d p area size prev eof bof first = (st, p', a, n) /\
    arr_ok d p' /\ p_dbs p' = p_dbs p /\ p_ki p' = p_ki p /\ p_last p' = p_last p /\
    (p_data p <> None -> p_data p' <> None) /\ rres d p area size st p' a n o /\
    (first = 0 -> o = trec d p (which prev eof bof)) /\
    (first <> 0 -> p_data p <> None -> ~ (first = 2 /\ prev = true /\ eof = false) ->
       forall r, positioned d p r -> o = Some r).
Proof.
  intros OK DB AR. destruct (arr_spec d p AR) as (s & NE).
  unfold indexed_read_next. fold (which prev eof bof). set (nx := which prev eof bof).
  match goal with |- context [if ?b then (10, _, _, _) else _] => destruct b eqn:GUARD end.
  { exists 10, p, area, size, None. split; auto. split; auto. split; auto. split; auto. split; auto. split; auto.
    split; [unfold rres; auto using same_pos_refl|]. apply andb_prop in GUARD as [G1 G2].
    apply negb_true_iff, Z.eqb_neq in G1. split; [easy|]. intros _ D0 NP. exfalso.
    destruct (p_data p); [|congruence]. cbn [orb] in G2. apply andb_prop in G2 as [G2 G3]. apply Z.eqb_eq in G2.
    apply NP. split; auto. subst nx. unfold which in G3. destruct prev, eof, bof; auto; discriminate. }
  destruct (Z.eqb_spec first 0) as [F0|F0].
  - (* the next one *)
    assert (ST := step_ok d p s nx area size OK DB AR NE).
    destruct (target d p nx) as [e|] eqn:TG.
    + destruct ST as (c & p' & N1 & N2 & N3 & N4 & N5 & N6 & N7 & N8 & N9 & N10).
      rewrite N1. cbv zeta. cbv zeta in N2. rewrite N2.
      eexists _, p', _, _, (Some _). split; [reflexivity|]. split; auto. split; auto. split; auto. split; auto. split; auto.
      split; [unfold rres; auto 10|]. split; [|congruence]. intros _. unfold trec. rewrite TG. auto.
    + rewrite ST. exists 10, p, area, size, None. split; auto. split; auto. split; auto. split; auto. split; auto. split; auto.
      split; [unfold rres; auto using same_pos_refl|]. split; [|congruence]. intros _. unfold trec. now rewrite TG.
  - destruct (still_spec d p s OK DB AR NE) as (b & p1 & S1 & S2 & S3 & S4 & S5 & S6). rewrite S1.
    assert (K1 : p_ki p1 = p_ki p) by apply S2. assert (AR1 := arr_same d _ _ S2 AR).
    destruct b.
    + destruct S6 as (r & n & R1 & R2 & R3 & R4). unfold deliver. rewrite R3.
      eexists _, p1, _, _, (Some r). split; [reflexivity|]. split; auto. split; auto. split; auto. split; auto. split; auto.
      split.
      { unfold rres. split; auto. split; auto. split; auto. split; [|split; auto; split; auto; congruence].
        destruct R1 as (e & E1 & E2). exists e. destruct S2 as (B1 & B2 & B3 & B4). unfold at_ent, the_db in *.
        rewrite B1, B2, B3, B4, S3. auto. }
      split; [easy|]. intros _ _ _ r' (e' & E1' & E2'). f_equal. subst r'. destruct R1 as (e & E1 & E2). subst r. f_equal.
      assert (P1 := at_ent_pat _ _ _ E1). assert (P2 := at_ent_pat _ _ _ E1').
      assert (IX := dbs_idx d _ _ s OK DB NE). eapply pat_unique; eauto; try apply E1; try apply E1'.
      unfold the_db. rewrite (io_spec _ _ _ _ IX). apply IX.
    + assert (ST := step_ok d p1 s nx area size OK). rewrite S3, K1 in ST. specialize (ST DB AR1 NE).
      rewrite (same_target d p p1 nx S2 S3) in ST.
      destruct (target d p nx) as [e|] eqn:TG.
      * destruct ST as (c & p' & N1 & N2 & N3 & N4 & N5 & N6 & N7 & N8 & N9 & N10).
        rewrite N1. cbv zeta. cbv zeta in N2. rewrite N2.
        eexists _, p', _, _, (Some _). split; [reflexivity|]. split; auto. split; auto. split; [congruence|]. split; [congruence|]. split; auto.
        split. { unfold rres. unfold the_db in *. rewrite S3 in *. auto 10. }
        split; [easy|]. intros _ _ _ r P. exfalso. now apply (S6 r).
      * rewrite ST. exists 10, p1, area, size, None. split; auto. split; auto. split; auto. split; auto. split; auto. split; auto.
        split; [unfold rres; auto|]. split; [easy|]. intros _ _ _ r P. exfalso. now apply (S6 r).
Qed.

Lemma dbs_len d dbs k r : dbs_ok d dbs -> rec_at (nth 0 dbs []) k = Some r -> (d_min d <= length r <= d_max d)%nat.
Proof. intros D H. destruct dbs as [|l0 alts]; [destruct D|]. destruct D as [P _]. cbn [nth] in H. eapply (pinv_rec_at d); eauto. Qed.

Lemma area_len (r area : list Z) m : (length r <= m)%nat -> length area = m -> length (r ++ skipn (length r) area) = m.
Proof. intros A B. rewrite app_length, skipn_length. lia. Qed.
Lemma area_firstn (r t : list Z) : firstn (length r) (r ++ t) = r.
Proof. rewrite firstn_app, Nat.sub_diag, firstn_all. cbn [firstn]. apply app_nil_r. Qed.

(** ** START *)
Lemma start_stmt d f c off len : desc_ok d -> good d f -> allowed f (IStart c off len) ->
  exists f', x_ex_start f c off len = Ok f' /\ good d f' /\ content f' = content f /\ x_open f' = x_open f /\
    x_status f' <> 44 /\
    (x_status f' = 0 \/ x_status f' = 23 \/ x_status f' = 47) /\
    (forall p, x_isam f = Some p -> (x_open f = Input \/ x_open f = InOut) -> d_access d <> AccRandom ->
      forall i s, nth_error (d_keys d) i = Some s -> off = k_off s ->
      exists p', x_isam f' = Some p' /\ p_ki p' = i /\ p_last p' = p_last p /\
        match start_pick c s (firstn len (skipn off (x_area f))) (by_key f i) with
        | Some r => x_status f' = 0 /\ positioned d p' r /\ p_data p' <> None /\ x_first f' = 1 /\
                    x_eof f' = false /\ x_bof f' = false
        | None => x_status f' = 23
        end).
Proof.
  intros OK G (NL & i & s & NE & -> & LEN & LE0). assert (GD := g_desc _ _ G). rewrite GD in NE.
  assert (SH := g_shape _ _ G). unfold x_ex_start. xs.
  assert (NOT : forall st, st <> 44 -> (st = 0 \/ st = 23 \/ st = 47) -> exists f', xret st (xset_first 0 (xset_done false f)) = Ok f' /\ good d f' /\
     content f' = content f /\ x_open f' = x_open f /\ x_status f' = st).
  { intros st _ _. unfold xret. eexists. split; [reflexivity|]. split; [split; xs; try apply G; discriminate|]. auto. }
  destruct (x_ne f) eqn:XN.
  { destruct (NOT 23) as (f' & F1 & F2 & F3 & F4 & F5); auto; [discriminate|]. exists f'. split; auto. split; auto. split; auto. split; auto.
    rewrite F5. split; [discriminate|]. split; auto. intros p XI. rewrite XI in SH. destruct SH; discriminate. }
  destruct (match x_open f with Closed | Output | Extend => true | _ => false end ||
            match d_access (x_desc f) with AccRandom => true | _ => false end) eqn:DEN.
  { destruct (NOT 47) as (f' & F1 & F2 & F3 & F4 & F5); auto; [discriminate|]. exists f'. split; auto. split; auto. split; auto. split; auto.
    rewrite F5. split; [discriminate|]. split; auto. intros p XI XO AC. exfalso. rewrite GD in DEN.
    destruct XO as [XO|XO]; rewrite XO in DEN; cbn [orb] in DEN; destruct (d_access d); congruence. }
  apply orb_false_elim in DEN as [DO DA]. clear NOT.
  destruct (x_isam f) as [p|] eqn:XI.
  2:{ exfalso. destruct SH as [[X|[X|[X Y]]] _]; rewrite X in *; congruence. }
  destruct SH as (_ & XO & DB & AR). unfold with_isam. xs. rewrite XI, GD.
  assert (LK : length (firstn len (skipn (k_off s) (x_area f))) = len).
  { rewrite firstn_length, skipn_length, (g_area _ _ G).
    assert (k_off s + k_len s <= d_min d)%nat.
    { destruct OK as (_ & _ & FF & _). rewrite Forall_forall in FF. apply nth_error_In in NE. apply FF in NE. lia. }
    assert (d_min d <= d_max d)%nat by apply OK. lia. }
  destruct (start_ok d p c i s (firstn len (skipn (k_off s) (x_area f))) OK DB AR NE) as
    (st & p' & S1 & S2 & S3 & S4 & S5 & S6 & S7); [lia|lia|].
  rewrite S1. cbn [obind]. unfold by_key, content. rewrite XI. unfold xret. eexists. split; [reflexivity|].
  assert (UNIQ : forall i' s', nth_error (d_keys d) i' = Some s' -> k_off s = k_off s' -> i' = i /\ s' = s).
  { intros i' s' N' E'. assert (i' = i).
    { assert (ND : NoDup (map k_off (d_keys d))) by apply OK. eapply NoDup_nth_error; eauto.
      - apply nth_error_Some. rewrite nth_error_map, N'. discriminate.
      - rewrite !nth_error_map, N', NE. cbn [option_map]. now rewrite E'. }
    subst i'. split; auto. congruence. }
  destruct (start_pick c s _ (nth i (views (p_dbs p)) [])) as [r|] eqn:SP.
  - destruct S7 as (-> & S8 & S9 & S10 & S11 & S12). change (0 =? 0) with true. cbv iota. xs. rewrite S3.
    split. { eapply (good_upd d f p); eauto; try apply G. rewrite S3; auto. discriminate. }
    split; auto. split; auto. split; [discriminate|]. split; auto.
    intros q X _ _ i' s' N' E'. injection X as <-. destruct (UNIQ i' s' N' E') as [-> ->]. exists p'. rewrite SP. auto 10.
  - rewrite S7. change (23 =? 0) with false. cbv iota. xs. rewrite S3.
    split. { eapply (good_upd d f p); eauto; try apply G. rewrite S3; auto. discriminate. }
    split; auto. split; auto. split; [discriminate|]. split; auto.
    intros q X _ _ i' s' N' E'. injection X as <-. destruct (UNIQ i' s' N' E') as [-> ->]. exists p'. rewrite SP. auto 10.
Qed.
