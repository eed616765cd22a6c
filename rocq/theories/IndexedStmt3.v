(** READ, WRITE, REWRITE and DELETE on indexed files. *)
From Coq Require Import Permutation Sorted.
From Verif Require Import Base FileIO Indexed SpecIndexed IndexedDb IndexedInv IndexedOps IndexedPos IndexedState IndexedRead IndexedStmt IndexedStmt2.
Local Open Scope Z_scope.

Definition keyed (k : rkind) : bool := match k with RKey _ _ => true | _ => false end.
Definition backwards (k : rkind) : bool := match k with RPrev => true | _ => false end.

Lemma key_len d i s (area : list Z) len : desc_ok d -> nth_error (d_keys d) i = Some s -> length area = d_max d -> (len <= k_len s)%nat ->
  length (firstn len (skipn (k_off s) area)) = len.
Proof.
  intros OK NE GA LE. rewrite firstn_length, skipn_length, GA.
  assert (k_off s + k_len s <= d_min d)%nat.
  { destruct OK as (_ & _ & FF & _). rewrite Forall_forall in FF. apply nth_error_In in NE. apply FF in NE. lia. }
  assert (d_min d <= d_max d)%nat by apply OK. lia.
Qed.

Lemma off_uniq d i s i' s' : desc_ok d -> nth_error (d_keys d) i = Some s -> nth_error (d_keys d) i' = Some s' ->
  k_off s = k_off s' -> i' = i /\ s' = s.
Proof.
  intros OK NE N' E'. assert (i' = i).
  { assert (ND : NoDup (map k_off (d_keys d))) by apply OK. eapply NoDup_nth_error; eauto.
    - apply nth_error_Some. rewrite nth_error_map, N'. discriminate.
    - rewrite !nth_error_map, N', NE. cbn [option_map]. now rewrite E'. }
  subst i'. split; auto. congruence.
Qed.

(** The record that comes back. *)
Definition readres (d : fdesc) (f f' : ixf) (k : rkind) (p' : isam) (o : option record) : Prop :=
  match o with
  | Some r => x_status f' = 0 /\ delivered f' = r /\ x_size f' = length r /\
      x_area f' = r ++ skipn (length r) (x_area f) /\
      positioned d p' r /\ p_data p' <> None /\
      x_first f' = 0 /\ x_eof f' = false /\ x_bof f' = false /\ x_done f' = true /\ p_key p' = slice (prime d) r /\
      x_dep f' = match x_dep f with Some v => Some (item_set v (Z.of_nat (length r))) | None => None end
  | None => x_status f' = (if keyed k then 23 else 10) /\ x_area f' = x_area f /\ x_size f' = x_size f /\
      x_first f' = x_first f /\ x_done f' = false /\
      x_eof f' = (match k with RNext => true | _ => x_eof f end) /\
      x_bof f' = (match k with RPrev => true | _ => x_bof f end)
  end.

Lemma read_stmt d f k : desc_ok d -> good d f -> allowed f (IRead k) ->
  exists f', x_ex_read f k = Ok f' /\ good d f' /\ content f' = content f /\ x_open f' = x_open f /\
    x_status f' <> 44 /\
    (forall p, x_isam f = Some p ->
       exists p', x_isam f' = Some p' /\ p_last p' = p_last p /\ (p_data p <> None -> p_data p' <> None) /\
       ((x_open f = Input \/ x_open f = InOut) ->
        (keyed k = false -> (if backwards k then x_bof f else x_eof f) = false) ->
        exists o, readres d f f' k p' o /\
          match k with
          | RKey off len => forall i s, nth_error (d_keys d) i = Some s -> off = k_off s ->
              p_ki p' = i /\ o = start_pick EQ s (slice s (x_area f)) (by_key f i)
          | _ => p_ki p' = p_ki p /\ (o = None -> same_pos p p') /\
              (x_first f = 0 -> o = trec d p (which (backwards k) (x_eof f) (x_bof f))) /\
              (x_first f <> 0 -> p_data p <> None ->
                 ~ (x_first f = 2 /\ backwards k = true /\ x_eof f = false) ->
                 forall r, positioned d p r -> o = Some r)
          end)).
Proof.
  intros OK G (NL & AL). assert (GD := g_desc _ _ G). assert (SH := g_shape _ _ G). assert (GA := g_area _ _ G).
  unfold x_ex_read. xs. fold (backwards k). fold (keyed k).
  assert (NOT : forall st fi, exists f', xret st (xset_first fi (xset_done false f)) = Ok f' /\ good d f' /\
     content f' = content f /\ x_open f' = x_open f /\ x_status f' = st).
  { intros st fi. unfold xret. eexists. split; [reflexivity|]. split; [split; xs; try apply G; discriminate|]. auto. }
  destruct (x_isam f) as [p|] eqn:XI.
  2:{
      destruct (x_ne f) eqn:XN.
      - destruct (x_first f =? 0) eqn:XF.
        + destruct (NOT 23 (x_first f)) as (f' & F1 & F2 & F3 & F4 & F5). exists f'. rewrite <- F1. split; auto.
          split; auto. split; auto. split; auto. rewrite F5. split; [discriminate|]. discriminate.
        + destruct (NOT 10 0) as (f' & F1 & F2 & F3 & F4 & F5). exists f'. rewrite <- F1. split; auto.
          split; auto. split; auto. split; auto. rewrite F5. split; [discriminate|]. discriminate.
      - assert (CL : x_open f = Closed).
        { destruct SH as [[X|[X|[X Y]]] _]; congruence. }
        destruct (NOT 46 (x_first f)) as (f1 & F1 & F2 & F3 & F4 & F5).
        destruct (NOT 47 (x_first f)) as (f2 & H1 & H2 & H3 & H4 & H5). rewrite CL.
        destruct (negb (keyed k) && (if backwards k then x_bof f else x_eof f)).
        + exists f1. rewrite <- F1. split; auto.
          split; auto. split; auto. split; [congruence|]. rewrite F5. split; [discriminate|]. discriminate.
        + exists f2. rewrite <- H1. split; auto.
          split; auto. split; auto. split; [congruence|]. rewrite H5. split; [discriminate|]. discriminate. }
  destruct SH as (XN & XO & DB & AR). rewrite XN.
  destruct (negb (keyed k) && (if backwards k then x_bof f else x_eof f)) eqn:END.
  { clear NOT. unfold xret. eexists. split; [reflexivity|]. split; [split; xs; try apply G; discriminate|]. xs.
    split; auto. split; auto. split; [discriminate|]. intros q X. injection X as <-. exists p. split; auto. split; auto. split; auto.
    intros _ K. exfalso. apply andb_prop in END as [E1 E2]. apply negb_true_iff in E1. rewrite (K E1) in E2. discriminate. }
  destruct (x_open f) eqn:XOP; try (destruct XO as [X|[X|[X|X]]]; discriminate).
  2,4: clear NOT; unfold xret; eexists; (split; [reflexivity|]); (split; [split; xs; try apply G; discriminate|]); xs;
    (split; [reflexivity|]); (split; [exact XOP|]); (split; [discriminate|]); intros q X; injection X as <-; exists p;
    (split; [exact XI|]); (split; [reflexivity|]); (split; [auto|]); intros [Y|Y]; discriminate.
  all: clear NOT; unfold with_isam; xs; rewrite XI, GD.
  all: assert (RES : exists st p' a n o,
     match k with
     | RKey off len =>
       do r <- start_internal d p EQ off (firstn len (skipn off (x_area f)));
       let '(st, p0) := r in
       if st =? 0 then let '(a, n) := deliver p0 (x_area f) in Ok (0, p0, a, n)
       else Ok (st, p0, x_area f, x_size f)
     | _ => Ok (indexed_read_next d p (x_area f) (x_size f) (backwards k) (x_eof f) (x_bof f) (x_first f))
     end = Ok (st, p', a, n) /\
     arr_ok d p' /\ p_dbs p' = p_dbs p /\ p_last p' = p_last p /\ (p_data p <> None -> p_data p' <> None) /\
     match o with
     | Some r => st = 0 /\ a = r ++ skipn (length r) (x_area f) /\ n = length r /\ positioned d p' r /\
                 p_key p' = slice (prime d) r /\ rec_at (the_db p 0) (slice (prime d) r) = Some r /\ p_data p' <> None
     | None => st = (if keyed k then 23 else 10) /\ a = x_area f /\ n = x_size f
     end /\
     match k with
     | RKey off len => forall i s, nth_error (d_keys d) i = Some s -> off = k_off s ->
         p_ki p' = i /\ o = start_pick EQ s (slice s (x_area f)) (by_key f i)
     | _ => p_ki p' = p_ki p /\ (o = None -> same_pos p p') /\
         (x_first f = 0 -> o = trec d p (which (backwards k) (x_eof f) (x_bof f))) /\
         (x_first f <> 0 -> p_data p <> None ->
            ~ (x_first f = 2 /\ backwards k = true /\ x_eof f = false) ->
            forall r, positioned d p r -> o = Some r)
     end).
  1,3: destruct k as [off len| |];
    [ destruct AL as (i & s & NE & -> & ->); rewrite GD in NE;
      destruct (start_ok d p EQ i s (slice s (x_area f)) OK DB AR NE) as (st & p' & S1 & S2 & S3 & S4 & S5 & S6 & S7);
      [ unfold slice; rewrite (key_len d i s) by auto; lia | discriminate |];
      unfold slice in S1; rewrite S1; cbn [obind];
      unfold by_key, content; rewrite XI;
      destruct (start_pick EQ s _ (nth i (views (p_dbs p)) [])) as [r|] eqn:SP;
      [ destruct S7 as (-> & S8 & S9 & S10 & S11 & S12); change (0 =? 0) with true; cbv iota;
        rewrite S12; eexists 0, p', _, _, (Some r); (split; [reflexivity|]); (split; [auto|]); (split; [auto|]); (split; [auto|]);
        (split; [auto|]); (split; [auto 10|])
      | subst st; change (23 =? 0) with false; cbv iota; eexists 23, p', _, _, None; (split; [reflexivity|]); (split; [auto|]); (split; [auto|]); (split; [auto|]);
        (split; [auto|]); (split; [auto 10|]) ];
      intros i' s' N' E'; destruct (off_uniq d i s i' s' OK NE N' E') as [-> ->]; rewrite SP; auto
    | destruct (read_next_ok d p (x_area f) (x_size f) false (x_eof f) (x_bof f) (x_first f) OK DB AR)
        as (st & p' & a & n & o & R1 & R2 & R3 & R4 & R5 & R6 & R7 & R8 & R9);
      exists st, p', a, n, o; cbn [backwards keyed]; rewrite R1; (split; [reflexivity|]); (split; [auto|]); (split; [auto|]); (split; [auto|]); (split; [auto|]);
      (split; [destruct o; unfold rres in R7; tauto|]); (split; [auto|]); (split; [|auto]);
      intros ->; apply R7
    | destruct (read_next_ok d p (x_area f) (x_size f) true (x_eof f) (x_bof f) (x_first f) OK DB AR)
        as (st & p' & a & n & o & R1 & R2 & R3 & R4 & R5 & R6 & R7 & R8 & R9);
      exists st, p', a, n, o; cbn [backwards keyed]; rewrite R1; (split; [reflexivity|]); (split; [auto|]); (split; [auto|]); (split; [auto|]); (split; [auto|]);
      (split; [destruct o; unfold rres in R7; tauto|]); (split; [auto|]); (split; [|auto]);
      intros ->; apply R7 ].
  all: destruct RES as (st & p' & a & n & o & R1 & R2 & R3 & R4 & R5 & R6 & R7); rewrite R1; cbn [obind];
    destruct o as [r|].
  1,3: destruct R6 as (-> & -> & -> & R8 & R9 & R10 & R11); change (0 =? 0) with true; cbv iota; xs;
    assert (LR := dbs_len d (p_dbs p) _ _ DB R10);
    assert (LA : length (r ++ skipn (length r) (x_area f)) = d_max d) by (apply area_len; [lia|auto]);
    assert (G' : forall dep st, good d (mkIx (x_desc f) (r ++ skipn (length r) (x_area f)) (length r) dep (x_open f) false false false 0 true (x_disk f) (Some p') st))
      by (intros dep0 st0; eapply (good_upd d f p); eauto; [rewrite R3; auto|];
          intros _; exists r; split; auto; unfold the_db in *; rewrite R3; auto);
    destruct (x_dep f) as [v|] eqn:XDEP; unfold xret; xs; (eexists; split; [reflexivity|]; split; [apply G'|]);
    unfold content, delivered; xs; rewrite XI, R3; (split; [reflexivity|]); (split; [auto|]); (split; [discriminate|]);
    intros q X; injection X as <-; exists p'; (split; [auto|]); (split; [auto|]); (split; [auto|]); intros _ _;
    exists (Some r); (split; [|exact R7]); unfold readres, delivered; xs; rewrite area_firstn; rewrite ?XDEP; auto 20.
  all: destruct R6 as (-> & -> & ->); destruct k; cbn [keyed backwards] in *.
  all: match goal with |- context [?a =? 0] => let b := eval compute in (a =? 0) in change (a =? 0) with b end; cbv iota.
  all: try match goal with |- context [?a =? 10] => let b := eval compute in (a =? 10) in change (a =? 10) with b end; cbv iota.
  all: unfold xret; xs; (eexists; split; [reflexivity|]);
    (split; [eapply (good_upd d f p); eauto; try apply G; [rewrite R3; auto|discriminate]|]);
    unfold content; xs; rewrite XI, R3; (split; [reflexivity|]); (split; [auto|]); (split; [discriminate|]);
    intros q X; injection X as <-; exists p'; (split; [auto|]); (split; [auto|]); (split; [auto|]); intros _ _;
    exists None; (split; [|exact R7]); unfold readres; xs; auto 10.
Qed.
