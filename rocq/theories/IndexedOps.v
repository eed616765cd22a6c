(** WRITE, DELETE and REWRITE on the databases. *)
From Coq Require Import Permutation Sorted.
From Verif Require Import Base FileIO Indexed SpecIndexed IndexedDb IndexedInv.
Local Open Scope Z_scope.

(** The saved position is not touched. *)
Definition same_pos (p p' : isam) : Prop :=
  p_ki p' = p_ki p /\ p_lrk p' = p_lrk p /\ p_lrp p' = p_lrp p /\ p_ldup p' = p_ldup p.
Lemma same_pos_refl p : same_pos p p.
Proof. unfold same_pos. auto. Qed.

Lemma write_internal_ok d p area n : desc_ok d -> dbs_ok d (p_dbs p) ->
  length area = d_max d -> (d_min d <= n <= d_max d)%nat -> p_key p = slice (prime d) area ->
  forall st p', write_internal d p area n false (map (fun _ => true) (tl (d_keys d))) = (st, p') ->
  let r := firstn n area in
  let v := views (p_dbs p) in
  same_pos p p' /\ p_last p' = p_last p /\ p_data p' <> None /\ dbs_ok d (p_dbs p') /\
  ((clash_in (d_keys d) (nth 0 v []) r /\ st = 22 /\ p_dbs p' = p_dbs p) \/
   (~ clash_in (d_keys d) (nth 0 v []) r /\ st = 0 /\ views (p_dbs p') = inserted d r v /\
    Forall2 (fun l l' => incl l l') (p_dbs p) (p_dbs p'))).
Proof.
  intros OK DB LA LN PK st p' H. cbv zeta.
  assert (LR : length (firstn n area) = n) by (rewrite firstn_length; lia).
  assert (E0 : slice (prime d) (firstn n area) = slice (prime d) area).
  { apply slice_firstn. assert (X := prime_ok d OK). lia. }
  assert (ES : forall s, In s (tl (d_keys d)) -> slice s (firstn n area) = slice s area).
  { intros s I. apply slice_firstn. assert (X := tl_ok d s OK I). lia. }
  assert (KD := prime_cons d (proj1 OK)).
  set (r := firstn n area) in *.
  unfold write_internal in H.
  destruct (p_dbs p) as [|l0 alts] eqn:PD; [destruct DB|]. cbn [dbs_ok] in DB. destruct DB as [P F].
  cbn [views nth tl] in *.
  (* the test of the alternate keys *)
  assert (T : exists b p1, (if (1 <? length (d_keys d))%nat && negb false then
      let '(b, p0) := check_alt false (slice (prime d) area) area (tl (d_keys d)) alts p in
      (b, if b then p0 else set_pkey (slice (prime d) area) p0) else (false, p)) = (b, p1) /\
     (b = true <-> clash_in (tl (d_keys d)) (map e_prim l0) r) /\
     same_pos p p1 /\ p_last p1 = p_last p /\ p_dbs p1 = p_dbs p /\
     (b = true -> p_data p1 <> None) /\
     (b = false -> p_key p1 = slice (prime d) area)).
  { destruct (1 <? length (d_keys d))%nat eqn:N; cbn [andb negb].
    - destruct (check_alt false (slice (prime d) area) area (tl (d_keys d)) alts p) as [b p1] eqn:C.
      assert (X := check_alt_write d l0 (slice (prime d) area) area _ _ p r P F ES). rewrite C in X. cbn [fst] in X.
      destruct (check_alt_dbs _ _ _ _ _ _ _ _ C) as (D1 & D2 & D3 & D4 & D5 & D6).
      eexists _, _. split; [reflexivity|]. split; [exact X|].
      assert (DN : b = true -> p_data p1 <> None).
      { intros ->. revert C. clear. revert alts p. generalize (tl (d_keys d)) as ks.
        induction ks as [|s ks IH]; intros [|l alts] p H; cbn [check_alt] in H; try discriminate.
        destruct (k_dup s); [eauto|]. destruct (db_set (slice s area) l).
        - injection H as <-. cbn. discriminate.
        - eauto. }
      destruct b; unfold same_pos; cbn; auto 20. repeat split; auto. discriminate.
    - exists false, p. split; auto. split; [|split; [apply same_pos_refl|]].
      + split; [discriminate|]. intros (s & x & I & _). exfalso. rewrite KD in N. cbn [length] in N.
        apply Nat.ltb_ge in N. destruct (tl (d_keys d)); [destruct I|cbn in N; lia].
      + repeat split; auto. discriminate. }
  destruct T as (b & p1 & T & TB & SP & LP & DP & DN & KP).
  rewrite T in H. clear T.
  assert (CL : clash_in (d_keys d) (map e_prim l0) r <->
               clash_in (tl (d_keys d)) (map e_prim l0) r \/ rec_at l0 (slice (prime d) area) <> None).
  { rewrite KD. cbn [tl]. split.
    - intros (s & x & [<-|I] & H1 & H2 & H3); [right|left; exists s, x; auto].
      rewrite <- E0, <- H3, (pinv_in d l0 x P H2). discriminate.
    - intros [(s & x & I & H1)|X]; [exists s, x; split; [right|]; auto|].
      destruct (rec_at l0 (slice (prime d) area)) as [x|] eqn:Q; [|easy].
      exists (prime d), x. destruct (pinv_rec_at _ _ _ _ P Q) as [X1 _].
      split; [left; auto|]. split; [apply OK|]. split; [eapply rec_at_in_view; eauto|]. congruence. }
  destruct b.
  - injection H as <- <-. rewrite DP, PD. split; [auto|]. split; [auto|]. split; [auto|]. split; [split; auto|].
    left. split; auto. apply CL. left. now apply TB.
  - rewrite KP in H by auto. unfold the_db in H. rewrite DP, PD in H. cbn [nth tl] in H.
    unfold rec_at in CL.
    destruct (db_set (slice (prime d) area) l0) as [c|] eqn:Q.
    + injection H as <- <-. cbn [p_dbs set_pdata p_data p_last]. rewrite DP, PD. unfold same_pos in *. cbn.
      split; [tauto|]. split; [auto|]. split; [discriminate|]. split; [split; auto|].
      left. split; auto. apply CL. right. discriminate.
    + assert (RN : rec_at l0 (slice (prime d) area) = None) by (unfold rec_at; now rewrite Q).
      assert (NC : ~ clash_in (tl (d_keys d)) (map e_prim l0) r) by (rewrite <- TB; discriminate).
      destruct (pinv_insert d l0 (slice (prime d) area) r P RN) as (P' & M & V0); auto.
      { rewrite LR. lia. }
      destruct (write_secs_ok d l0 _ (slice (prime d) area) area r _ _ P F ES RN NC M) as (secs & W & F' & V & FR).
      rewrite W in H. injection H as <- <-. cbn [p_dbs set_pdata set_dbs p_data p_last].
      unfold same_pos in *. cbn [p_ki p_lrk p_lrp p_ldup set_pdata set_dbs].
      split; [tauto|]. split; [auto|]. split; [discriminate|]. split; [split; auto|].
      right. split; [rewrite CL; intros [X|X]; [auto|congruence]|]. split; auto.
      split; [cbn [views]; unfold inserted; rewrite KD; cbn [map2 tl]; fold r; rewrite V0, V; reflexivity|].
      rewrite ?PD. constructor; auto. intros x X. apply db_insert_in. auto.
Qed.

(** ** DELETE *)
Lemma del_secs_ok d l0 l0' pk old area ks dbs : PInv d l0 ->
  Forall2 (fun s l => KInv s (rec_at l0) l) ks dbs -> rec_at l0 pk = Some old ->
  (forall k', rec_at l0' k' = if beq k' pk then None else rec_at l0 k') ->
  exists us secs, del_secs false pk old area ks dbs = (us, secs) /\
    Forall2 (fun s l => KInv s (rec_at l0') l) ks secs /\
    map (deref l0') secs = map (without (prime d) pk) (map (deref l0) dbs) /\
    secs = map (filter (fun e => negb (beq (e_prim e) pk))) dbs.
Proof.
  intros P F O M. induction F as [|s l ks dbs K F IH].
  - exists [], []. auto.
  - destruct IH as (us & secs & W & FK & V & FR). cbn [del_secs]. rewrite W. cbn [andb].
    rewrite (del_entries s (rec_at l0) l pk old K O).
    destruct (kinv_filter s (prime d) (rec_at l0) (rec_at l0') l pk K) as [K' V']; auto.
    { intros k r X. eapply pinv_rec_at; eauto. }
    eexists _, _. split; [reflexivity|]. split; [constructor; auto|]. cbn [map]. rewrite <- V, FR. split; [f_equal; exact V'|reflexivity].
Qed.

Lemma delete_found d p area k old : dbs_ok d (p_dbs p) ->
  p_key (match d_access d with AccSequential => p | _ => set_pkey (slice (prime d) area) p end) = k ->
  rec_at (nth 0 (p_dbs p) []) k = Some old ->
  exists p', indexed_delete d p area = Ok (0, p') /\ same_pos p p' /\ p_last p' = p_last p /\
    p_data p' <> None /\ dbs_ok d (p_dbs p') /\ views (p_dbs p') = deleted d k (views (p_dbs p)) /\
    p_dbs p' = match p_dbs p with
               | [] => []
               | l0 :: alts => filter (fun e => negb (beq (e_key e) k)) l0
                               :: map (filter (fun e => negb (beq (e_prim e) k))) alts
               end.
Proof.
  intros DB PK R. unfold indexed_delete, delete_internal.
  destruct (p_dbs p) as [|l0 alts] eqn:PD; [destruct DB|]. cbn [dbs_ok nth] in *. destruct DB as [P F].
  assert (X : (if match d_access d with AccSequential => true | _ => false end then p
               else set_pkey (slice (prime d) area) p)
              = match d_access d with AccSequential => p | _ => set_pkey (slice (prime d) area) p end)
    by (destruct (d_access d); reflexivity).
  rewrite X. clear X.
  set (p1 := match d_access d with AccSequential => p | _ => set_pkey (slice (prime d) area) p end) in *.
  assert (D1 : p_dbs p1 = l0 :: alts) by (subst p1; destruct (d_access d); cbn; auto).
  assert (S1 : same_pos p p1) by (subst p1; unfold same_pos; destruct (d_access d); cbn; auto).
  assert (L1 : p_last p1 = p_last p) by (subst p1; destruct (d_access d); auto).
  rewrite PK. unfold the_db. rewrite D1. cbn [nth tl].
  unfold rec_at in R. destruct (db_set k l0) as [c|] eqn:Q; [|easy]. injection R as R.
  destruct (pinv_filter d l0 k P) as (P' & M & V0).
  rewrite <- (c_del_filter k l0 c (pi_sorted _ _ P) Q) in P', M, V0.
  assert (O : rec_at l0 k = Some old) by (unfold rec_at; rewrite Q; now rewrite R).
  destruct (del_secs_ok d l0 (c_del c) k old area _ _ P F O M) as (us & secs & W & F' & V & FR).
  replace (fst (snd (c_ent c))) with old by (symmetry; exact R). rewrite W.
  cbn [obind]. eexists. split; [reflexivity|]. cbn [p_dbs set_pdata set_dbs p_data p_last].
  unfold same_pos in *. cbn [p_ki p_lrk p_lrp p_ldup set_pdata set_dbs].
  split; [tauto|]. split; [auto|]. split; [discriminate|]. split; [split; auto|].
  cbn [views]. unfold deleted. cbn [map]. rewrite V0, V, <- FR. split; [reflexivity|]. f_equal.
  exact (c_del_filter k l0 c (pi_sorted _ _ P) Q).
Qed.

Lemma delete_missing d p area : d_access d <> AccSequential ->
  rec_at (nth 0 (p_dbs p) []) (slice (prime d) area) = None ->
  indexed_delete d p area = Ok (23, set_pkey (slice (prime d) area) p).
Proof.
  intros A R. unfold indexed_delete, delete_internal, rec_at, the_db in *.
  destruct (d_access d); [easy| |]; cbn [p_dbs set_pkey p_key];
    (destruct (db_set (slice (prime d) area) (nth 0 (p_dbs p) [])); [easy|reflexivity]).
Qed.

(** ** REWRITE *)
Definition clash_other (s0 : kspec) (ks : list kspec) (v : list record) (r : record) : Prop :=
  exists s x, In s ks /\ k_dup s = false /\ In x v /\ slice s x = slice s r /\ slice s0 x <> slice s0 r.

Lemma check_alt_rewrite d l0 area ks dbs p r : PInv d l0 ->
  Forall2 (fun s l => KInv s (rec_at l0) l) ks dbs ->
  slice (prime d) r = slice (prime d) area ->
  (forall s, In s ks -> slice s r = slice s area) ->
  fst (check_alt true (slice (prime d) area) area ks dbs p) = true <-> clash_other (prime d) ks (map e_prim l0) r.
Proof.
  intros P F E0. revert p. induction F as [|s l ks dbs K F IH]; intros p E.
  - cbn. split; [easy|]. intros (s & x & [] & _).
  - cbn [check_alt]. assert (Es := E s ltac:(left; auto)).
    assert (E' : forall s, In s ks -> slice s r = slice s area) by (intros; apply E; right; auto).
    assert (REST : (~ exists x, k_dup s = false /\ In x (map e_prim l0) /\ slice s x = slice s r /\ slice (prime d) x <> slice (prime d) r) ->
      clash_other (prime d) ks (map e_prim l0) r <-> clash_other (prime d) (s :: ks) (map e_prim l0) r).
    { intro NX. split; intros (s' & x & I & H).
      - exists s', x. split; [right|]; auto.
      - destruct I as [<-|I]; [|exists s', x; auto]. exfalso. apply NX. exists x. auto. }
    destruct (k_dup s) eqn:D.
    + rewrite IH by auto. apply REST. intros (x & X & _). congruence.
    + destruct (db_set (slice s area) l) as [c|] eqn:C.
      * apply db_set_some in C as (a & e & post & -> & -> & _ & Ke).
        change (e_prim (c_ent (rev a, e, post))) with (e_prim e).
        assert (Ie : In e (a ++ e :: post)) by (apply in_or_app; right; left; auto).
        destruct (ki_rec _ _ _ K e Ie) as (x & X & SX).
        destruct (pinv_rec_at _ _ _ _ P X) as [PX _].
        destruct (beq_spec (e_prim e) (slice (prime d) area)) as [Q|Q]; cbn [negb].
        { rewrite IH by auto. apply REST. intros (y & _ & Y1 & Y2 & Y3).
          apply Y3. assert (Z := pinv_in d l0 y P Y1).
          destruct (kinv_key_prim _ _ _ _ _ K Z) as (e' & I' & P' & K').
          assert (S := ki_sorted _ _ _ K). rewrite D in S.
          rewrite (psorted_unique _ e e' S Ie I') in Q by congruence. congruence. }
        { cbn [fst]. split; [|auto]. intros _. exists s, x. split; [left; auto|]. split; auto.
          split; [eapply rec_at_in_view; eauto|]. split; congruence. }
      * rewrite IH by auto. apply REST. intros (y & _ & Y1 & Y2 & Y3).
        rewrite db_set_none in C.
        destruct (proj2 (kinv_key_rec s d l0 _ (slice s area) P K)) as (e & I' & Ke).
        { exists y. split; auto. congruence. }
        eapply C; eauto.
Qed.

Lemma rewrite_secs_ok d l0 l1 l0' pk old area r ks dbs : PInv d l0 ->
  Forall2 (fun s l => KInv s (rec_at l0) l) ks dbs -> rec_at l0 pk = Some old ->
  slice (prime d) r = pk ->
  (forall s, In s ks -> slice s r = slice s area) ->
  ~ clash_other (prime d) ks (map e_prim l0) r ->
  (forall k', rec_at l1 k' = if beq k' pk then None else rec_at l0 k') ->
  (forall k', rec_at l0' k' = if beq k' pk then Some r else rec_at l1 k') ->
  exists us secs1 secs, del_secs true pk old area ks dbs = (us, secs1) /\
    write_secs pk area ks secs1 us = (true, secs) /\
    Forall2 (fun s l => KInv s (rec_at l0') l) ks secs /\
    map (deref l0') secs = map2 (fun s v => put_back (prime d) s old r v) ks (map (deref l0) dbs) /\
    Forall2 (fun l l' => forall e, In e l -> e_prim e <> pk \/ old = r -> In e l') dbs secs.
Proof.
  intros P F O PK E C M1 M2.
  assert (CC : forall k x, rec_at l0 k = Some x -> slice (prime d) x = k) by (intros k x X; eapply pinv_rec_at; eauto).
  induction F as [|s l ks dbs K F IH].
  - exists [], [], []. auto.
  - destruct IH as (us & secs1 & secs & D & W & FK & V & FR).
    { intros s' I. apply E. right; auto. }
    { intros (s' & x & I & H). apply C. exists s', x. split; [right|]; auto. }
    assert (Es := E s ltac:(left; auto)).
    cbn [del_secs]. rewrite D. cbn [andb]. rewrite <- Es.
    destruct (beq (slice s old) (slice s r)) eqn:Q.
    + apply beq_true in Q. eexists _, _, _. split; [reflexivity|].
      cbn [write_secs negb]. rewrite W. split; [reflexivity|].
      destruct (kinv_keep s (prime d) (rec_at l0) (rec_at l0') l pk old r K CC O Q PK) as [K' V'].
      { intro k'. rewrite M2, M1. destruct (beq k' pk); auto. }
      split; [constructor; auto|]. cbn [map map2]. rewrite <- V. split; [|constructor; auto]. f_equal. unfold put_back.
      rewrite (proj2 (beq_true _ _) Q), PK. exact V'.
    + rewrite (del_entries s (rec_at l0) l pk old K O).
      destruct (kinv_filter s (prime d) (rec_at l0) (rec_at l1) l pk K CC M1) as [K1 V1].
      assert (N1 : rec_at l1 pk = None) by (rewrite M1, beq_refl; auto).
      set (lf := filter (fun e => negb (beq (e_prim e) pk)) l) in *.
      assert (U : k_dup s = false -> forall e, In e lf -> e_key e <> slice s r).
      { intros DS e I EK. subst lf. apply filter_In in I as [I NP]. apply negb_true_iff, beq_false in NP.
        destruct (ki_rec _ _ _ K e I) as (x & X & SX). apply C. exists s, x.
        split; [left; auto|]. split; auto. split; [eapply rec_at_in_view; eauto|]. split; [congruence|].
        rewrite (CC _ _ X), PK. auto. }
      assert (PB : put_back (prime d) s old r (deref l0 l) = insert_behind s r (vw (rec_at l1) lf)).
      { unfold put_back. rewrite Q, V1, PK. reflexivity. }
      assert (FRL : forall n e, In e l -> e_prim e <> pk \/ old = r -> In e (db_insert (slice s r, (pk, n)) lf)).
      { intros n e I [X|X]; [|exfalso; subst r; rewrite beq_refl in Q; discriminate].
        apply db_insert_in. right. apply filter_In. split; auto. now apply negb_true_iff, beq_false. }
      destruct (k_dup s) eqn:DS.
      * destruct (get_dupno_gt (slice s r) lf) as [G0 G].
        { assert (S := ki_sorted _ _ _ K1). now rewrite DS in S. }
        { intros e I. apply (ki_pos _ _ _ K1); auto. }
        destruct (kinv_insert s (rec_at l1) (rec_at l0') lf pk r (get_dupno (slice s r) lf)) as [K' V']; auto.
        { rewrite DS. discriminate. }
        eexists _, _, _. split; [reflexivity|]. cbn [write_secs negb]. rewrite W, DS, <- Es.
        try rewrite QQ.
        split; [reflexivity|]. split; [constructor; auto|]. cbn [map map2]. rewrite <- V, PB. split; [f_equal; exact V'|]. constructor; auto; try (intros e I X; apply FRL; auto).
      * destruct (db_set (slice s r) lf) as [c|] eqn:QQ.
        { exfalso. apply db_set_some in QQ as (a & e & post & X & -> & _ & Ke). apply (U eq_refl e); auto.
          rewrite X. apply in_or_app; right; left; auto. }
        destruct (kinv_insert s (rec_at l1) (rec_at l0') lf pk r 0) as [K' V']; auto.
        { rewrite DS. discriminate. }
        eexists _, _, _. split; [reflexivity|]. cbn [write_secs negb]. rewrite W, DS, <- Es.
        try rewrite QQ.
        split; [reflexivity|]. split; [constructor; auto|]. cbn [map map2]. rewrite <- V, PB. split; [f_equal; exact V'|]. constructor; auto; try (intros e I X; apply FRL; auto).
Qed.

Lemma db_insert_between e a b : Forall (fun x => blt (e_key e) (e_key x) = false) a ->
  Forall (fun x => blt (e_key e) (e_key x) = true) b -> db_insert e (a ++ b) = a ++ e :: b.
Proof.
  induction a as [|x a IH]; intros Fa Fb; cbn [app].
  - destruct Fb as [|y b Y _]; cbn [db_insert]; auto. now rewrite Y.
  - inversion Fa as [|? ? X Fa']; subst. cbn [db_insert]. rewrite X. now rewrite IH.
Qed.

Lemma primary_put_back d l0 c k r n : PInv d l0 -> db_set k l0 = Some c -> slice (prime d) r = k ->
  map e_prim (db_insert (k, (r, n)) (c_del c)) =
  map (fun x => if beq (slice (prime d) x) k then r else x) (map e_prim l0).
Proof.
  intros [S R RD] Q K. apply db_set_some in Q as (a & e & post & -> & -> & _ & Ke).
  destruct (psorted_split _ _ _ S) as [Sa Sp]. cbn [c_del]. rewrite rev_involutive.
  rewrite db_insert_between.
  - rewrite !map_app. cbn [map]. change (e_prim (k, (r, n))) with r.
    destruct (R e) as [Re _]; [apply in_or_app; right; left; auto|].
    rewrite <- Re, Ke, beq_refl. f_equal; [|f_equal].
    + rewrite map_map. apply map_ext_in. intros x X. destruct (R x) as [<- _]; [apply in_or_app; auto|].
      rewrite Forall_forall in Sa. specialize (Sa x X). apply blt_neq in Sa. rewrite Ke in Sa.
      now rewrite (proj2 (beq_false _ _) Sa).
    + rewrite map_map. apply map_ext_in. intros x X. destruct (R x) as [<- _]; [apply in_or_app; right; right; auto|].
      rewrite Forall_forall in Sp. specialize (Sp x X). apply blt_neq in Sp. rewrite Ke in Sp.
      rewrite (proj2 (beq_false (e_key x) k)); auto.
  - eapply Forall_impl; [|exact Sa]. cbn. intros x X. rewrite Ke in X. now apply blt_asym.
  - eapply Forall_impl; [|exact Sp]. cbn. intros x X. now rewrite Ke in X.
Qed.

Lemma check_alt_data rw prim area ks dbs p : p_data p <> None ->
  p_data (snd (check_alt rw prim area ks dbs p)) <> None.
Proof.
  revert dbs p; induction ks as [|s ks IH]; intros [|l dbs] p H; cbn [check_alt]; auto.
  destruct (k_dup s); auto.
  destruct (db_set (slice s area) l) as [c|]; [|apply IH; exact H].
  destruct rw; [destruct (negb (beq (e_prim (c_ent c)) prim))|]; cbn [snd p_data set_pdata]; try discriminate.
  apply IH. cbn. discriminate.
Qed.
Lemma check_alt_alldup rw prim area ks dbs p : Forall (fun s => k_dup s = true) ks ->
  check_alt rw prim area ks dbs p = (false, p).
Proof.
  intro F. revert dbs; induction F as [|s ks D F IH]; intros [|l dbs]; cbn [check_alt]; auto. now rewrite D.
Qed.

Lemma indexed_rewrite_ok d p area n : desc_ok d -> dbs_ok d (p_dbs p) ->
  length area = d_max d -> (d_min d <= n <= d_max d)%nat ->
  (d_access d <> AccSequential \/
   (p_key p = slice (prime d) area /\ Forall (fun s => k_dup s = true) (tl (d_keys d)) /\
    rec_at (nth 0 (p_dbs p) []) (slice (prime d) area) <> None)) ->
  let r := firstn n area in
  let v := views (p_dbs p) in
  exists st p', indexed_rewrite d p area n = Ok (st, p') /\
  same_pos p p' /\ p_last p' = p_last p /\ (p_data p <> None -> p_data p' <> None) /\ dbs_ok d (p_dbs p') /\
  ((clash_other (prime d) (tl (d_keys d)) (nth 0 v []) r /\ st = 22 /\ p_dbs p' = p_dbs p) \/
   (~ clash_other (prime d) (tl (d_keys d)) (nth 0 v []) r /\
    rec_at (nth 0 (p_dbs p) []) (slice (prime d) area) = None /\ st = 23 /\ p_dbs p' = p_dbs p) \/
   (~ clash_other (prime d) (tl (d_keys d)) (nth 0 v []) r /\
    exists old, rec_at (nth 0 (p_dbs p) []) (slice (prime d) area) = Some old /\ st = 0 /\
      views (p_dbs p') = replaced d old r v /\
      (forall i e, In e (nth i (p_dbs p) []) ->
         (if (i =? 0)%nat then e_key e else e_prim e) <> slice (prime d) area \/ old = r ->
         In e (nth i (p_dbs p') [])))).
Proof.
  intros OK DB LA LN ACC r v. subst v.
  assert (LR : length r = n) by (unfold r; rewrite firstn_length; lia).
  assert (E0 : slice (prime d) r = slice (prime d) area).
  { apply slice_firstn. assert (X := prime_ok d OK). lia. }
  assert (ES : forall s, In s (tl (d_keys d)) -> slice s r = slice s area).
  { intros s I. apply slice_firstn. assert (X := tl_ok d s OK I). lia. }
  assert (KD := prime_cons d (proj1 OK)).
  unfold indexed_rewrite.
  destruct (p_dbs p) as [|l0 alts] eqn:PD; [destruct DB|]. cbn [dbs_ok] in DB. destruct DB as [P F].
  cbn [views nth tl] in *.
  assert (CA := check_alt_rewrite d l0 area _ _ p r P F E0 ES).
  assert (DN := check_alt_data true (slice (prime d) area) area (tl (d_keys d)) alts p).
  assert (PKC : d_access d <> AccSequential \/
    p_key (snd (check_alt true (slice (prime d) area) area (tl (d_keys d)) alts p)) = slice (prime d) area).
  { destruct ACC as [A|(A & B & _)]; [auto|right]. rewrite check_alt_alldup by auto. exact A. }
  destruct (check_alt true (slice (prime d) area) area (tl (d_keys d)) alts p) as [b p1] eqn:C.
  cbn [fst snd] in CA, DN, PKC.
  destruct (check_alt_dbs _ _ _ _ _ _ _ _ C) as (D1 & D2 & D3 & D4 & D5 & D6). rewrite PD in D1.
  assert (SP : same_pos p p1) by (unfold same_pos; auto).
  destruct b.
  - exists 22, p1. split; auto. rewrite D1. split; auto. split; auto. split; auto. split; [split; auto|].
    left. split; auto. now apply CA.
  - assert (NC : ~ clash_other (prime d) (tl (d_keys d)) (map e_prim l0) r) by (rewrite <- CA; discriminate).
    clear CA C. unfold delete_internal.
    set (p2 := if match d_access d with AccSequential => true | _ => false end then p1
               else set_pkey (slice (prime d) area) p1).
    assert (K2 : p_key p2 = slice (prime d) area).
    { subst p2. destruct (d_access d); destruct PKC as [X|X]; auto; congruence. }
    assert (D2' : p_dbs p2 = l0 :: alts) by (subst p2; destruct (d_access d); auto).
    assert (S2 : same_pos p p2) by (subst p2; unfold same_pos in *; destruct (d_access d); cbn; tauto).
    assert (L2 : p_last p2 = p_last p) by (subst p2; destruct (d_access d); auto).
    assert (N2 : p_data p <> None -> p_data p2 <> None) by (intro; subst p2; destruct (d_access d); cbn; auto).
    assert (ACC2 : rec_at l0 (slice (prime d) area) = None ->
       match d_access d with AccSequential => true | _ => false end = false).
    { intro X. destruct ACC as [A|(_ & _ & A)]; [destruct (d_access d); auto; congruence|congruence]. }
    clearbody p2. rewrite K2. unfold the_db. rewrite D2'. cbn [nth tl].
    unfold rec_at at 1 2. unfold rec_at in ACC2.
    destruct (db_set (slice (prime d) area) l0) as [c|] eqn:Q.
    + destruct (pinv_filter d l0 (slice (prime d) area) P) as (P1 & M1 & _).
      rewrite <- (c_del_filter _ l0 c (pi_sorted _ _ P) Q) in P1, M1.
      assert (RN : rec_at (c_del c) (slice (prime d) area) = None) by (rewrite M1, beq_refl; auto).
      destruct (pinv_insert d (c_del c) (slice (prime d) area) r P1 RN) as (P' & M2 & _); auto.
      { rewrite LR. lia. }
      assert (O : rec_at l0 (slice (prime d) area) = Some (e_prim (c_ent c))) by (unfold rec_at; now rewrite Q).
      destruct (rewrite_secs_ok d l0 (c_del c) _ (slice (prime d) area) (e_prim (c_ent c)) area r _ _ P F O E0 ES NC M1 M2)
        as (us & secs1 & secs & DS & WS & F' & V & FR).
      change (fst (snd (c_ent c))) with (e_prim (c_ent c)). rewrite DS. cbn [obind].
      change (0 =? 0) with true. cbv iota.
      assert (LT : (length area <? n)%nat = false) by (apply Nat.ltb_ge; lia). rewrite LT.
      unfold write_internal. cbn [negb]. rewrite andb_false_r. cbn [p_key set_pkey].
      unfold the_db. cbn [p_dbs set_pkey set_pdata set_dbs nth tl]. fold r.
      assert (QN : db_set (slice (prime d) area) (c_del c) = None).
      { apply db_set_none. now apply rec_at_none. }
      rewrite QN, WS. eexists _, _. split; [reflexivity|].
      cbn [p_dbs set_pdata set_dbs p_data p_last set_pkey].
      unfold same_pos in *. cbn [p_ki p_lrk p_lrp p_ldup set_pdata set_dbs set_pkey].
      split; [tauto|]. split; [auto|]. split; [discriminate|]. split; [split; auto|].
      right; right. split; auto. exists (e_prim (c_ent c)). split; auto. split; auto.
      split.
      * cbn [views]. unfold replaced. rewrite KD. cbn [map2 tl]. rewrite V. f_equal.
        unfold put_back. destruct (pinv_rec_at _ _ _ _ P O) as [X _]. rewrite X, E0, beq_refl.
        now apply primary_put_back.
      * intros [|i] e I X; cbn [nth Nat.eqb] in *.
        { apply db_insert_in. destruct (beq_spec (e_key e) (slice (prime d) area)) as [EK|EK].
          - left. destruct X as [X|X]; [congruence|].
            apply db_set_some in Q as (a & e1 & post & -> & -> & _ & Ke). cbn [c_ent fst snd] in X.
            assert (E1 : e = e1).
            { eapply psorted_unique; [apply P|exact I|apply in_or_app; right; left; auto|congruence]. }
            subst e1. assert (DD := pi_dup _ _ P e I). destruct e as [ke [pe ne]]. unfold e_key, e_prim, e_dup, c_ent in EK, X, DD. cbn [fst snd] in EK, X, DD. now rewrite EK, X, DD.
          - right. rewrite (c_del_filter _ l0 c (pi_sorted _ _ P) Q). apply filter_In. split; auto.
            now apply negb_true_iff, beq_false. }
        { revert I X. revert FR. clear. intro FR. revert i. induction FR as [|l l' a b H FR IH]; intros [|i] I X; cbn in *; auto; contradiction. }
    + rewrite (ACC2 eq_refl). cbn [negb obind]. eexists _, _. split; [reflexivity|].
      split; auto. split; auto. split; auto. rewrite D2'. split; [split; auto|].
      right; left. auto.
Qed.
