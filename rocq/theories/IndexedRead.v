(** READ NEXT and READ PREVIOUS on the file. *)
From Coq Require Import Permutation Sorted.
From Verif Require Import Base FileIO Indexed SpecIndexed IndexedDb IndexedInv IndexedOps IndexedPos IndexedState.
Local Open Scope Z_scope.

Lemma at_ent_pat d p e : at_ent d p e ->
  pat (k_dup (key_spec d (p_ki p))) (nth (p_ki p) (p_lrk p) []) (nth (p_ki p) (p_ldup p) 0) e = true.
Proof.
  intros (I & K & D & _). unfold pat. rewrite K, beq_refl. cbn [andb].
  destruct (k_dup (key_spec d (p_ki p))); auto. cbn. apply Z.eqb_eq. symmetry. auto.
Qed.

Lemma pat_unique dup k n l e1 e2 : esorted dup l -> In e1 l -> In e2 l ->
  pat dup k n e1 = true -> pat dup k n e2 = true -> e1 = e2.
Proof.
  intros S I1 I2 P1 P2. apply in_split in I1 as (A & B & ->).
  apply ss_app in S as (_ & S & F). inversion S as [|? ? _ FB]; subst.
  assert (NA : forall x, pafter dup k n x = true -> pat dup k n x = true -> False).
  { intros x X Y. destruct (pcases dup k n x) as [(Q1 & Q2 & Q3)|[(Q1 & Q2 & Q3)|(Q1 & Q2 & Q3)]]; congruence. }
  apply in_app_or in I2 as [I2|[I2|I2]]; auto; exfalso.
  - rewrite Forall_forall in F. specialize (F e2 I2). inversion F as [|? ? X _]; subst.
    rewrite (elt_at dup k n e2 e1 P2) in X. eauto.
  - rewrite Forall_forall in FB. specialize (FB e2 I2). rewrite (elt_at dup k n e1 e2 P1) in FB. eauto.
Qed.

(** A position splits the index. *)
Lemma pos_split dup k n l e : esorted dup l -> In e l -> pat dup k n e = true ->
  exists A B, l = A ++ e :: B /\ Forall (fun x => pbefore dup k n x = true) A /\
    Forall (fun x => pafter dup k n x = true) B.
Proof.
  intros S I P. apply in_split in I as (A & B & ->). exists A, B. split; auto.
  apply ss_app in S as (_ & S & F). inversion S as [|? ? _ FB]; subst. split.
  - eapply Forall_impl; [|exact F]. intros x X. inversion X as [|? ? Y _]; subst.
    destruct (pcases dup k n x) as [(Q1 & Q2 & Q3)|[(Q1 & Q2 & Q3)|(Q1 & Q2 & Q3)]]; auto; exfalso.
    + rewrite (elt_at dup k n x e Q2) in Y.
      destruct (pcases dup k n e) as [(R1 & R2 & R3)|[(R1 & R2 & R3)|(R1 & R2 & R3)]]; congruence.
    + assert (Z := elt_after dup k n x e Y Q3).
      destruct (pcases dup k n e) as [(R1 & R2 & R3)|[(R1 & R2 & R3)|(R1 & R2 & R3)]]; congruence.
  - eapply Forall_impl; [|exact FB]. cbn. intros x X. now rewrite (elt_at dup k n e x P) in X.
Qed.
Lemma before_not_after dup k n x : pbefore dup k n x = true -> pafter dup k n x = false.
Proof. intro H. destruct (pcases dup k n x) as [(R1 & R2 & R3)|[(R1 & R2 & R3)|(R1 & R2 & R3)]]; congruence. Qed.
Lemma after_not_before dup k n x : pafter dup k n x = true -> pbefore dup k n x = false.
Proof. intro H. destruct (pcases dup k n x) as [(R1 & R2 & R3)|[(R1 & R2 & R3)|(R1 & R2 & R3)]]; congruence. Qed.

Lemma pos_find dup k n A B : Forall (fun x => pbefore dup k n x = true) A -> Forall (fun x => pafter dup k n x = true) B ->
  find (pafter dup k n) (A ++ B) = hd_error B /\ find (pbefore dup k n) (rev (A ++ B)) = hd_error (rev A).
Proof.
  intros FA FB. split.
  - rewrite find_app; [now apply find_hd|]. eapply Forall_impl; [|exact FA]. cbn. intros; now apply before_not_after.
  - rewrite rev_app_distr, find_app; [apply find_hd; now apply Forall_rev|].
    apply Forall_rev. eapply Forall_impl; [|exact FB]. cbn. intros; now apply after_not_before.
Qed.
Lemma pos_find_mid dup k n A e B : Forall (fun x => pbefore dup k n x = true) A -> Forall (fun x => pafter dup k n x = true) B ->
  pat dup k n e = true ->
  find (pafter dup k n) (A ++ e :: B) = hd_error B /\ find (pbefore dup k n) (rev (A ++ e :: B)) = hd_error (rev A).
Proof.
  intros FA FB P.
  assert (E : pbefore dup k n e = false /\ pafter dup k n e = false).
  { destruct (pcases dup k n e) as [(R1 & R2 & R3)|[(R1 & R2 & R3)|(R1 & R2 & R3)]]; split; congruence. }
  destruct E as [E1 E2]. split.
  - rewrite find_app; [cbn [find]; rewrite E2; now apply find_hd|].
    eapply Forall_impl; [|exact FA]. cbn. intros; now apply before_not_after.
  - rewrite rev_app_distr. cbn [rev]. rewrite <- app_assoc, find_app; [cbn [app find]; rewrite E1; apply find_hd; now apply Forall_rev|].
    apply Forall_rev. eapply Forall_impl; [|exact FB]. cbn. intros; now apply after_not_before.
Qed.

(** ** Is the record of the position still there? *)
Lemma still_spec d p s : desc_ok d -> dbs_ok d (p_dbs p) -> arr_ok d p ->
  nth_error (d_keys d) (p_ki p) = Some s ->
  exists b p', still_there d p = (b, p') /\ same_pos p p' /\ p_dbs p' = p_dbs p /\ p_last p' = p_last p /\
    (p_data p <> None -> p_data p' <> None) /\
    if b then exists r n, positioned d p r /\ p_key p' = slice (prime d) r /\ p_data p' = Some (r, n) /\
                rec_at (the_db p 0) (slice (prime d) r) = Some r
    else forall r, ~ positioned d p r.
Proof.
  intros OK DB AR NE. assert (IX := dbs_idx d _ _ s OK DB NE).
  unfold still_there. set (i := p_ki p) in *.
  set (k := nth i (p_lrk p) []). set (n := nth i (p_ldup p) 0). set (prim := nth i (p_lrp p) []).
  change (the_db (set_pkey k p) i) with (nth i (p_dbs p) []).
  assert (SS := io_sorted _ _ _ _ IX). assert (KS := io_spec _ _ _ _ IX).
  destruct (db_set k (nth i (p_dbs p) [])) as [c|] eqn:Q.
  2:{ eexists _, _. split; [reflexivity|]. split; [unfold same_pos; cbn; auto|]. split; auto. split; auto. split; auto.
      intros r (e & (I & K & _) & _). rewrite db_set_none in Q. eapply Q; [exact I|]. symmetry. exact K. }
  apply db_set_some in Q as (a & e & post & E & -> & Fa & Ke).
  assert (Ie : In e (nth i (p_dbs p) [])) by (rewrite E; apply in_or_app; right; left; auto).
  destruct (Nat.eqb_spec i 0) as [X0|X0].
  - (* the RECORD KEY *)
    eexists _, _. split; [reflexivity|]. split; [unfold same_pos; cbn; auto|]. split; auto. split; auto. split; [cbn; discriminate|].
    destruct (io_ent _ _ _ _ IX e Ie) as (K1 & K2 & K3). rewrite (proj2 (Nat.eqb_eq i 0) X0) in K3.
    exists (erec (nth 0 (p_dbs p) []) i e), (e_dup e). split.
    + exists e. split; [|reflexivity]. unfold at_ent. fold i. split; auto. split; [symmetry; exact Ke|].
      split; [|congruence]. intro D. rewrite (io_dup0 _ _ _ _ IX X0) in D. discriminate.
    + split; [exact K3|]. split; [|exact K2]. unfold erec. rewrite X0. cbn [Nat.eqb].
      change (Some (snd e) = Some (e_prim e, e_dup e)). unfold e_prim, e_dup. destruct (snd e); reflexivity.
  - rewrite KS in *.
    assert (FA : Forall (fun x => pbefore (k_dup s) k n x = true) a).
    { apply Forall_forall. intros x X. unfold pbefore. rewrite E in SS.
      assert (Y : blt (e_key e) (e_key x) = false) by (eapply esorted_keys with (a := a) (b := e :: post); eauto; left; auto).
      rewrite Forall_forall in Fa. specialize (Fa x X). rewrite Ke in Y.
      destruct (blt_total (e_key x) k) as [Z|[Z|Z]]; [now rewrite Z|congruence|congruence]. }
    (* the entry where the search stops *)
    assert (SK : exists x met, (if k_dup s then skip_dup k n (rev a) e post else (Some (rev a, e, post), (rev a, e, post))) = (x, met) /\
      match x with
      | Some c => In (c_ent c) (nth i (p_dbs p) []) /\
          find (pat (k_dup s) k n) (nth i (p_dbs p) []) = (if pat (k_dup s) k n (c_ent c) then Some (c_ent c) else None)
      | None => find (pat (k_dup s) k n) (nth i (p_dbs p) []) = None
      end).
    { destruct (k_dup s) eqn:D.
      - assert (H := skip_dup_spec k n (rev a) e post). destruct (skip_dup k n (rev a) e post) as [[c|] met].
        + destruct H as (a' & x & B & E' & -> & -> & F & N). eexists _, _. split; [reflexivity|].
          change (c_ent (rev a' ++ rev a, x, B)) with x.
          assert (E2 : nth i (p_dbs p) [] = (a ++ a') ++ x :: B) by (rewrite E, E', app_assoc; auto).
          split; [rewrite E2; apply in_or_app; right; left; auto|]. rewrite E2.
          refine (proj2 (proj2 (split_pos true k n (a ++ a') x B _ _ _))).
          * rewrite <- E2. exact SS.
          * apply Forall_app. auto.
          * unfold pbefore. cbn [andb]. rewrite N, orb_false_r.
            assert (X : In x (e :: post)) by (rewrite E'; apply in_or_app; right; left; auto).
            destruct X as [<-|X]; [rewrite Ke; apply blt_irrefl|].
            rewrite E in SS. assert (SS2 := SS). apply ss_app in SS2 as (_ & S2 & _). inversion S2 as [|? ? _ FF]; subst.
            rewrite Forall_forall in FF. specialize (FF x X). apply elt_key in FF. congruence.
        + destruct H as [F _]. eexists _, _. split; [reflexivity|]. rewrite E. refine (proj2 (proj2 (all_before true k n (a ++ e :: post) _))). apply Forall_app. auto.
      - eexists _, _. split; [reflexivity|]. change (c_ent (rev a, e, post)) with e. split; auto.
        rewrite E. refine (proj2 (proj2 (split_pos false k n a e post _ _ _))); [rewrite <- E; exact SS|auto|]. unfold pbefore. rewrite Ke, blt_irrefl. cbn. now rewrite andb_false_r. }
    destruct SK as (x & met & -> & SK).
    set (p1 := got (got (set_pkey k p) (Some (rev a, e, post))) (Some met)).
    assert (P1 : same_pos p p1 /\ p_dbs p1 = p_dbs p /\ p_last p1 = p_last p /\ p_data p1 <> None).
    { unfold p1, same_pos. cbn. repeat split; auto. discriminate. }
    clearbody p1. destruct P1 as (P1 & P2 & P3 & P4).
    assert (UNIQ : forall e', at_ent d p e' -> find (pat (k_dup s) k n) (nth i (p_dbs p) []) = Some e').
    { intros e' A. assert (PA := at_ent_pat d p e' A). fold i in PA. rewrite KS in PA. fold k n in PA.
      destruct (find (pat (k_dup s) k n) (nth i (p_dbs p) [])) as [e2|] eqn:F.
      - apply find_some in F as [F1 F2]. f_equal. eapply pat_unique; [exact SS|exact F1|apply A|exact F2|exact PA].
      - assert (Z := find_none _ _ F e' (proj1 A)). cbn in Z. congruence. }
    match goal with |- exists b p', (if ?fd then _ else _) = _ /\ _ => destruct fd eqn:FD end.
    + destruct x as [c|]; [|discriminate]. destruct SK as [Ic SK].
      apply andb_true_iff in FD as [FD1 FD2]. apply beq_true in FD2.
      assert (PA : pat (k_dup s) k n (c_ent c) = true).
      { unfold pat. destruct (k_dup s) eqn:D; cbn [negb orb].
        - exact FD1.
        - rewrite andb_true_r. destruct (pat false k n (c_ent c)) eqn:PP.
          + unfold pat in PP. cbn [negb orb] in PP. now rewrite andb_true_r in PP.
          + exfalso. assert (Z := find_none _ _ SK e Ie). unfold pat in Z. rewrite Ke, beq_refl in Z. discriminate. }
      destruct (io_ent _ _ _ _ IX _ Ic) as (K1 & K2 & K3).
      assert (N0 : (i =? 0)%nat = false) by now apply Nat.eqb_neq. rewrite N0 in K3.
      unfold the_db. cbn [p_dbs set_pkey]. rewrite P2. rewrite FD2, K3.
      set (r := erec (nth 0 (p_dbs p) []) i (c_ent c)) in *.
      assert (KK := K2). unfold rec_at in KK.
      destruct (db_set (slice (prime d) r) (nth 0 (p_dbs p) [])) as [c0|] eqn:Q0; [|discriminate]. injection KK as KK.
      eexists _, _. split; [reflexivity|]. split; [unfold same_pos in *; cbn; tauto|]. split; auto. split; auto. split; [cbn; discriminate|].
      exists r, (e_dup (c_ent c0)). split; [|split; [reflexivity|split; [|exact K2]]].
      * exists (c_ent c). split; [|reflexivity]. unfold at_ent. fold i. unfold the_db. split; [exact Ic|].
        unfold pat in PA. apply andb_true_iff in PA as [PA1 PA2]. apply beq_true in PA1. fold k n prim.
        split; [congruence|]. split; [|intros _; congruence]. rewrite KS. intro D. rewrite D in PA2. cbn [negb orb] in PA2.
        apply Z.eqb_eq in PA2. congruence.
      * rewrite <- KK. cbn [p_data set_pdata]. unfold e_prim, e_dup. destruct (snd (c_ent c0)); reflexivity.
    + eexists _, _. split; [reflexivity|]. split; auto. split; auto. split; auto. split; auto.
      intros r (e' & A & _). assert (U := UNIQ e' A).
      destruct x as [c|]; [|congruence]. destruct SK as [Ic SK]. rewrite U in SK.
      destruct (pat (k_dup s) k n (c_ent c)) eqn:PA; [|discriminate]. injection SK as SK.
      destruct A as (_ & A1 & A2 & A3). fold i in A1, A2, A3. rewrite KS in A2. fold k in A1. fold n in A2. fold prim in A3.
      rewrite <- SK in FD. rewrite (A3 X0), beq_refl, andb_true_r in FD.
      destruct (k_dup s); [|discriminate]. rewrite <- A1, beq_refl, (A2 eq_refl), Z.eqb_refl in FD. discriminate.
Qed.

(** ** The step *)
Definition target (d : fdesc) (p : isam) (nx : dir) : option ent :=
  let i := p_ki p in
  let l := the_db p i in
  match nx with
  | DFirst => hd_error l
  | DLast => hd_error (rev l)
  | DNext => find (pafter (k_dup (key_spec d i)) (nth i (p_lrk p) []) (nth i (p_ldup p) 0)) l
  | DPrev => find (pbefore (k_dup (key_spec d i)) (nth i (p_lrk p) []) (nth i (p_ldup p) 0)) (rev l)
  end.

Lemma next_target d p s nx : desc_ok d -> dbs_ok d (p_dbs p) -> nth_error (d_keys d) (p_ki p) = Some s ->
  cent (next_cursor d p nx) = target d p nx.
Proof.
  intros OK DB NE. assert (IX := dbs_idx d _ _ s OK DB NE).
  destruct (next_cursor_spec d p (io_dup0 _ _ _ _ IX)) as [N P].
  { rewrite (io_spec _ _ _ _ IX). apply IX. }
  unfold target. destruct nx; auto.
  - unfold next_cursor, db_first. destruct (the_db p (p_ki p)); reflexivity.
  - unfold next_cursor. apply db_last_hd.
Qed.
Lemma target_in d p nx e : target d p nx = Some e -> In e (the_db p (p_ki p)).
Proof.
  unfold target. destruct nx; intro H.
  - now apply find_some in H.
  - apply find_some in H as [H _]. now apply in_rev.
  - destruct (the_db p (p_ki p)); [discriminate|]. injection H as ->. left; auto.
  - destruct (rev (the_db p (p_ki p))) as [|x t] eqn:E; [discriminate|]. injection H as ->.
    apply in_rev. rewrite E. left; auto.
Qed.

(** Reading on in direction [nx]. *)
Lemma step_ok d p s nx area size : desc_ok d -> dbs_ok d (p_dbs p) -> arr_ok d p ->
  nth_error (d_keys d) (p_ki p) = Some s ->
  match target d p nx with
  | None => next_cursor d p nx = None
  | Some e => let r := erec (the_db p 0) (p_ki p) e in
    exists c p', next_cursor d p nx = Some c /\
      match to_record (got p (Some c)) (c_ent c) with
      | (None, p0) => (23, p0, area, size)
      | (Some p0, _) => let p0 := save_pos d p0 (c_ent c) in let '(a, n) := deliver p0 area in (0, p0, a, n)
      end = (0, p', r ++ skipn (length r) area, length r) /\
      arr_ok d p' /\ positioned d p' r /\ p_dbs p' = p_dbs p /\ p_ki p' = p_ki p /\ p_last p' = p_last p /\
      p_key p' = slice (prime d) r /\ p_data p' <> None /\ rec_at (the_db p 0) (slice (prime d) r) = Some r
  end.
Proof.
  intros OK DB AR NE. assert (T := next_target d p s nx OK DB NE).
  destruct (next_cursor d p nx) as [c|]; cbn [cent] in T.
  - rewrite <- T. cbv zeta.
    assert (I := target_in d p nx (c_ent c) (eq_sym T)).
    destruct (fetch_ok d p s c OK DB AR NE I) as (p1 & p2 & TR & S1 & S2 & S3 & S4 & S5 & S6 & S7 & S8 & S9 & S10).
    exists c, (save_pos d p1 (c_ent c)). split; auto. rewrite TR. cbv zeta. rewrite S8. auto 12.
  - rewrite <- T. auto.
Qed.

(** From a position at a record. *)
Lemma hd_error_map {A B} (g : A -> B) l : hd_error (map g l) = match hd_error l with Some x => Some (g x) | None => None end.
Proof. destruct l; reflexivity. Qed.
Lemma nodup_split {A} (a b a' b' : list A) x : NoDup (a ++ x :: b) -> a ++ x :: b = a' ++ x :: b' -> a = a' /\ b = b'.
Proof.
  revert a'; induction a as [|y a IH]; intros [|y' a'] N E; cbn [app] in *; injection E; clear E.
  - auto.
  - intros E <-. exfalso. inversion N as [|? ? NI _]; subst. apply NI. apply in_or_app; right; left; auto.
  - intros E ->. exfalso. inversion N as [|? ? NI _]; subst. apply NI. apply in_or_app; right; left; auto.
  - intros E <-. inversion N as [|? ? _ N']; subst. destruct (IH a' N' E) as [-> ->]. auto.
Qed.

Lemma target_positioned d p s r a b : desc_ok d -> dbs_ok d (p_dbs p) -> nth_error (d_keys d) (p_ki p) = Some s ->
  positioned d p r -> nth (p_ki p) (views (p_dbs p)) [] = a ++ r :: b ->
  match target d p DNext with Some e => Some (erec (the_db p 0) (p_ki p) e) | None => None end = hd_error b /\
  match target d p DPrev with Some e => Some (erec (the_db p 0) (p_ki p) e) | None => None end = hd_error (rev a).
Proof.
  intros OK DB NE (e & A & ER) V. assert (IX := dbs_idx d _ _ s OK DB NE).
  assert (PA := at_ent_pat d p e A). destruct A as (I & _).
  destruct (pos_split _ _ _ _ e (eq_ind_r (fun x => esorted (k_dup x) _) (io_sorted _ _ _ _ IX) (io_spec _ _ _ _ IX)) I PA) as (A & B & E & FA & FB).
  unfold target, the_db in *. rewrite E.
  destruct (pos_find_mid _ _ _ A e B FA FB PA) as [-> ->].
  assert (V2 := V). rewrite (io_view _ _ _ _ IX), E, map_app in V2. cbn [map] in V2. rewrite ER in V2.
  assert (ND := io_nodup _ _ _ _ IX). rewrite E, map_app in ND. cbn [map] in ND. rewrite ER in ND.
  destruct (nodup_split _ _ _ _ _ ND V2) as [<- <-].
  rewrite <- map_rev, !hd_error_map. auto.
Qed.

(** The position survives changes to other records. *)
Lemma positioned_frame d p p' s r : desc_ok d -> dbs_ok d (p_dbs p) -> dbs_ok d (p_dbs p') ->
  nth_error (d_keys d) (p_ki p) = Some s -> same_pos p p' -> positioned d p r ->
  (forall e, In e (the_db p (p_ki p)) -> erec (the_db p 0) (p_ki p) e = r -> In e (the_db p' (p_ki p))) ->
  In r (nth 0 (views (p_dbs p')) []) -> positioned d p' r.
Proof.
  intros OK DB DB' NE (S1 & S2 & S3 & S4) (e & A & ER) FR IR.
  assert (IX := dbs_idx d _ _ s OK DB NE). assert (IX' := dbs_idx d _ _ s OK DB' NE).
  assert (I' := FR e (proj1 A) ER). exists e. split.
  - unfold at_ent in *. rewrite S1, S2, S3, S4. tauto.
  - rewrite S1. destruct (io_ent _ _ _ _ IX e (proj1 A)) as (_ & _ & O). unfold the_db in *. rewrite ER in O.
    destruct (io_ent _ _ _ _ IX' e I') as (_ & R' & O'). rewrite <- O', O in R'.
    destruct (p_dbs p') as [|l0 alts]; [destruct DB'|]. destruct DB' as [P' _]. cbn [views nth] in *.
    rewrite (pinv_in d l0 r P' IR) in R'. congruence.
Qed.
