(** START and READ on the file. *)
From Coq Require Import Permutation Sorted.
From Verif Require Import Base FileIO Indexed SpecIndexed IndexedDb IndexedInv IndexedOps IndexedPos.
Local Open Scope Z_scope.

(** The record of an entry of index [i]. *)
Definition erec (l0 : db) (i : nat) (e : ent) : record :=
  if (i =? 0)%nat then e_prim e
  else match rec_at l0 (e_prim e) with Some r => r | None => [] end.

Record idx_ok (d : fdesc) (dbs : list db) (i : nat) (s : kspec) : Prop := mkIdx {
  io_spec : key_spec d i = s;
  io_sorted : esorted (k_dup s) (nth i dbs []);
  io_dup0 : i = 0%nat -> k_dup (key_spec d i) = false;
  io_view : nth i (views dbs) [] = map (erec (nth 0 dbs []) i) (nth i dbs []);
  io_ent : forall e, In e (nth i dbs []) ->
     e_key e = slice s (erec (nth 0 dbs []) i e) /\
     rec_at (nth 0 dbs []) (slice (prime d) (erec (nth 0 dbs []) i e)) = Some (erec (nth 0 dbs []) i e) /\
     (if (i =? 0)%nat then e_key e else e_prim e) = slice (prime d) (erec (nth 0 dbs []) i e);
  io_nodup : NoDup (map (erec (nth 0 dbs []) i) (nth i dbs []));
  io_perm : Permutation (nth 0 (views dbs) []) (nth i (views dbs) []);
  io_len : forall e, In e (nth i dbs []) -> length (e_key e) = k_len s }.

Lemma forall2_nth {A B} (R : A -> B -> Prop) l m i a (b0 : B) : Forall2 R l m -> nth_error l i = Some a -> R a (nth i m b0).
Proof.
  intro F; revert i; induction F as [|x y l m X F IH]; intros [|i] H; cbn in *; try discriminate.
  - injection H as ->. auto.
  - auto.
Qed.

Lemma pinv_view_nodup d l0 : PInv d l0 -> NoDup (map e_prim l0).
Proof.
  intro P. assert (N := pinv_nodup d l0 P). rewrite (map_ext_in e_key (fun e => slice (prime d) (e_prim e))) in N
    by (intros e I; apply P; auto).
  rewrite <- map_map in N. eapply NoDup_map_inv; eauto.
Qed.

Lemma dbs_idx d dbs i s : desc_ok d -> dbs_ok d dbs -> nth_error (d_keys d) i = Some s -> idx_ok d dbs i s.
Proof.
  intros OK DB NE. destruct dbs as [|l0 alts]; [destruct DB|]. destruct DB as [P F].
  assert (KD := prime_cons d (proj1 OK)).
  assert (KS : key_spec d i = s) by (unfold key_spec; apply nth_error_nth; auto).
  assert (SO : (k_off s + k_len s <= d_min d)%nat).
  { destruct OK as (_ & _ & FF & _). rewrite Forall_forall in FF. apply nth_error_In in NE. apply FF in NE. lia. }
  destruct i as [|j].
  - assert (E : s = prime d) by (unfold prime; congruence). subst s. rewrite E.
    assert (X : forall e, In e l0 -> e_key e = slice (prime d) (e_prim e)) by (intros e I; apply P; auto).
    split; cbn [nth views]; auto.
    + destruct OK as (_ & -> & _). apply P.
    + intros _. apply OK.
    + unfold erec. cbn [Nat.eqb]. intros e I. rewrite <- X by auto. split; auto. split; auto.
      apply rec_at_in; auto. apply P.
    + unfold erec. cbn [Nat.eqb]. eapply pinv_view_nodup; eauto.
    + intros e I. rewrite X by auto. destruct (pi_rec _ _ P e I) as [_ L]. apply slice_length.
      rewrite <- E. lia.
  - assert (NE' : nth_error (tl (d_keys d)) j = Some s) by (rewrite KD in NE; exact NE).
    assert (K := forall2_nth _ _ _ _ _ [] F NE'). cbn beta in K.
    assert (V : nth (S j) (views (l0 :: alts)) [] = deref l0 (nth j alts [])).
    { cbn [views nth]. change (@nil record) with (deref l0 []). now rewrite map_nth. }
    split; cbn [nth]; auto.
    + apply K.
    + discriminate.
    + intros e I. unfold erec. cbn [Nat.eqb]. destruct (ki_rec _ _ _ K e I) as (r & R & S). rewrite R.
      destruct (pinv_rec_at _ _ _ _ P R) as [-> _]. auto.
    + eapply Permutation_NoDup; [eapply view_perm; eauto|eapply pinv_view_nodup; eauto].
    + rewrite V. cbn [views nth]. eapply view_perm; eauto.
    + intros e I. destruct (ki_rec _ _ _ K e I) as (r & R & <-). destruct (pinv_rec_at _ _ _ _ P R) as [_ L].
      apply slice_length. lia.
Qed.

(** ** The saved position *)
Definition arr_ok (d : fdesc) (p : isam) : Prop :=
  length (p_lrk p) = length (d_keys d) /\ length (p_lrp p) = length (d_keys d) /\
  length (p_ldup p) = length (d_keys d) /\ (p_ki p < length (d_keys d))%nat.

Definition at_ent (d : fdesc) (p : isam) (e : ent) : Prop :=
  let i := p_ki p in
  In e (the_db p i) /\ nth i (p_lrk p) [] = e_key e /\
  (k_dup (key_spec d i) = true -> nth i (p_ldup p) 0 = e_dup e) /\
  (i <> 0%nat -> nth i (p_lrp p) [] = e_prim e).
Definition positioned (d : fdesc) (p : isam) (r : record) : Prop :=
  exists e, at_ent d p e /\ erec (the_db p 0) (p_ki p) e = r.

Lemma lset_length {A} i (v : A) l : length (lset i v l) = length l.
Proof. revert i; induction l as [|x l IH]; intros [|i]; cbn; auto. Qed.
Lemma nth_lset {A} i (v : A) l x : (i < length l)%nat -> nth i (lset i v l) x = v.
Proof. revert i; induction l as [|y l IH]; intros [|i] H; cbn in *; try lia; auto. apply IH. lia. Qed.

Lemma save_pos_ok d p e : arr_ok d p -> In e (the_db p (p_ki p)) -> k_dup (prime d) = false ->
  arr_ok d (save_pos d p e) /\ at_ent d (save_pos d p e) e /\
  p_dbs (save_pos d p e) = p_dbs p /\ p_ki (save_pos d p e) = p_ki p /\
  p_key (save_pos d p e) = p_key p /\ p_data (save_pos d p e) = p_data p /\ p_last (save_pos d p e) = p_last p.
Proof.
  intros (A1 & A2 & A3 & A4) I D. unfold save_pos. destruct (Nat.eqb_spec (p_ki p) 0) as [X0|X0].
  - split; [|split; [|auto 10]].
    + unfold arr_ok. cbn [p_lrk p_lrp p_ldup p_ki set_pos]. rewrite lset_length. auto.
    + unfold at_ent, the_db. cbn [p_lrk p_lrp p_ldup p_ki p_dbs set_pos]. rewrite X0 in *. split; auto. split; [apply nth_lset; lia|].
      split; [|congruence]. unfold prime in D. congruence.
  - split; [|split; [|auto 10]].
    + unfold arr_ok. cbn [p_lrk p_lrp p_ldup p_ki set_pos]. rewrite !lset_length. split; auto. split; auto. split; auto.
      destruct (k_dup (key_spec d (p_ki p))); rewrite ?lset_length; auto.
    + unfold at_ent, the_db. cbn [p_lrk p_lrp p_ldup p_ki p_dbs set_pos]. split; auto. split; [apply nth_lset; lia|]. split.
      * intro DD. rewrite DD. apply nth_lset. lia.
      * intros _. apply nth_lset. lia.
Qed.

(** Going to the record of an entry. *)
Lemma fetch_ok d p s c : desc_ok d -> dbs_ok d (p_dbs p) -> arr_ok d p ->
  nth_error (d_keys d) (p_ki p) = Some s -> In (c_ent c) (the_db p (p_ki p)) ->
  exists p1 p2, to_record (got p (Some c)) (c_ent c) = (Some p1, p2) /\
    let p' := save_pos d p1 (c_ent c) in
    let r := erec (the_db p 0) (p_ki p) (c_ent c) in
    arr_ok d p' /\ at_ent d p' (c_ent c) /\ positioned d p' r /\ p_dbs p' = p_dbs p /\ p_ki p' = p_ki p /\
    p_last p' = p_last p /\ p_key p' = slice (prime d) r /\
    (forall area, deliver p' area = (r ++ skipn (length r) area, length r)) /\ p_data p' <> None /\
    rec_at (the_db p 0) (slice (prime d) r) = Some r.
Proof.
  intros OK DB AR NE I.
  assert (IX := dbs_idx d _ _ s OK DB NE).
  destruct (io_ent _ _ _ _ IX _ I) as (K1 & K2 & K3).
  set (e := c_ent c) in *. unfold the_db in *. set (r := erec (nth 0 (p_dbs p) []) (p_ki p) e) in *.
  assert (FIN : forall p1, p_dbs p1 = p_dbs p -> p_ki p1 = p_ki p -> p_lrk p1 = p_lrk p -> p_lrp p1 = p_lrp p ->
     p_ldup p1 = p_ldup p -> p_last p1 = p_last p -> p_key p1 = slice (prime d) r -> (exists n, p_data p1 = Some (r, n)) ->
     let p' := save_pos d p1 e in
    arr_ok d p' /\ at_ent d p' e /\ positioned d p' r /\ p_dbs p' = p_dbs p /\ p_ki p' = p_ki p /\
    p_last p' = p_last p /\ p_key p' = slice (prime d) r /\
    (forall area, deliver p' area = (r ++ skipn (length r) area, length r)) /\ p_data p' <> None /\
    rec_at (nth 0 (p_dbs p) []) (slice (prime d) r) = Some r).
  { intros p1 D1 D2 D3 D4 D5 D6 D7 (n & D8) p'.
    destruct (save_pos_ok d p1 e) as (S1 & S2 & S3 & S4 & S5 & S6 & S7).
    - unfold arr_ok in *. rewrite D2, D3, D4, D5. auto.
    - unfold the_db. rewrite D1, D2. exact I.
    - apply OK.
    - subst p'. split; auto. split; auto. split.
      { exists e. split; auto. unfold the_db. rewrite S3, S4, D1, D2. reflexivity. }
      split; [congruence|]. split; [congruence|]. split; [congruence|]. split; [congruence|].
      split; [intro area; unfold deliver; rewrite S6, D8; reflexivity|]. split; [congruence|]. exact K2. }
  unfold to_record. change (p_ki (got p (Some c))) with (p_ki p).
  destruct (Nat.eqb_spec (p_ki p) 0) as [X0|X0].
  - eexists _, _. split; [reflexivity|]. apply FIN; auto.
    exists (e_dup e). unfold r, erec. rewrite X0. cbn [Nat.eqb].
    change (Some (snd e) = Some (e_prim e, e_dup e)). unfold e_prim, e_dup. destruct (snd e); reflexivity.
  - unfold the_db. cbn [p_dbs set_pkey got set_pdata].
    assert (E : rec_at (nth 0 (p_dbs p) []) (e_prim e) = Some r) by (rewrite K3; exact K2).
    unfold rec_at in E. destruct (db_set (e_prim e) (nth 0 (p_dbs p) [])) as [c0|] eqn:Q; [|discriminate].
    eexists _, _. split; [reflexivity|]. apply FIN; auto.
    exists (e_dup (c_ent c0)). cbn [p_data set_pdata]. injection E as <-. unfold e_prim, e_dup.
    destruct (snd (c_ent c0)); reflexivity.
Qed.

(** ** START *)
Lemma lookup_key ks i s j : NoDup (map k_off ks) -> nth_error ks i = Some s -> lookup ks (k_off s) j = Some (j + i)%nat.
Proof.
  revert i j; induction ks as [|x ks IH]; intros [|i] j N H; cbn in *; try discriminate.
  - injection H as ->. rewrite Nat.eqb_refl. f_equal. lia.
  - inversion N as [|? ? NI N']; subst. destruct (Nat.eqb_spec (k_off x) (k_off s)) as [E|E].
    + exfalso. apply NI. rewrite E. apply in_map. eapply nth_error_In; eauto.
    + rewrite IH with (i := i) by auto. f_equal. lia.
Qed.

Lemma find_map {A B} (g : A -> B) (q : B -> bool) l :
  find q (map g l) = match find (fun x => q (g x)) l with Some x => Some (g x) | None => None end.
Proof. induction l as [|x l IH]; cbn; auto. destruct (q (g x)); auto. Qed.
Lemma find_ext_in {A} (q q' : A -> bool) l : (forall x, In x l -> q x = q' x) -> find q l = find q' l.
Proof.
  induction l as [|x l IH]; intro H; cbn; auto. rewrite H by (left; auto). destruct (q' x); auto.
  apply IH. intros y Y. apply H. right; auto.
Qed.

Lemma view_pick d dbs i s c kv : idx_ok d dbs i s ->
  start_pick c s kv (nth i (views dbs) []) =
  match epick c kv (nth i dbs []) with Some e => Some (erec (nth 0 dbs []) i e) | None => None end.
Proof.
  intro IX. unfold start_pick, epick. rewrite (io_view _ _ _ _ IX).
  assert (H : forall l, (forall e, In e l -> In e (nth i dbs [])) ->
    find (fun r => start_rel c (slice s r) kv) (map (erec (nth 0 dbs []) i) l) =
    match find (fun e => start_rel c (e_key e) kv) l with Some e => Some (erec (nth 0 dbs []) i e) | None => None end).
  { intros l L. rewrite find_map. rewrite (find_ext_in _ (fun e => start_rel c (e_key e) kv)); auto.
    intros e I. destruct (io_ent _ _ _ _ IX e (L e I)) as (-> & _). reflexivity. }
  destruct c; try (apply H; auto).
  - rewrite <- map_rev. apply H. intros e I. now apply in_rev.
  - rewrite <- map_rev. apply H. intros e I. now apply in_rev.
Qed.

Lemma epick_in c kv l e : epick c kv l = Some e -> In e l.
Proof.
  unfold epick. intro H. apply find_some in H as [H _]. destruct c; auto; now apply in_rev.
Qed.

Lemma start_ok d p c i s kv : desc_ok d -> dbs_ok d (p_dbs p) -> arr_ok d p ->
  nth_error (d_keys d) i = Some s -> (length kv <= k_len s)%nat -> (c = LE -> length kv = k_len s) ->
  exists st p', start_internal d p c (k_off s) kv = Ok (st, p') /\
    arr_ok d p' /\ p_dbs p' = p_dbs p /\ p_ki p' = i /\ p_last p' = p_last p /\
    (p_data p <> None -> p_data p' <> None) /\
    match start_pick c s kv (nth i (views (p_dbs p)) []) with
    | Some r => st = 0 /\ positioned d p' r /\ p_key p' = slice (prime d) r /\ p_data p' <> None /\
        rec_at (nth 0 (p_dbs p) []) (slice (prime d) r) = Some r /\
        (forall area, deliver p' area = (r ++ skipn (length r) area, length r))
    | None => st = 23
    end.
Proof.
  intros OK DB AR NE L LE0. unfold start_internal.
  assert (LT : (i < length (d_keys d))%nat) by (apply nth_error_Some; congruence).
  rewrite (lookup_key _ i s 0) by (auto; apply OK). cbn [Nat.add].
  set (p0 := set_pkey kv (set_ki i p)).
  assert (IX := dbs_idx d _ _ s OK DB NE).
  assert (SC := start_cursor_spec (k_dup s) kv (nth i (p_dbs p) []) c (io_sorted _ _ _ _ IX)).
  destruct SC as [SC1 SC2].
  { apply Forall_forall. intros e I. rewrite (io_len _ _ _ _ IX e I). lia. }
  { intro E. apply Forall_forall. intros e I. rewrite (io_len _ _ _ _ IX e I). symmetry. auto. }
  change (the_db p0 i) with (nth i (p_dbs p) []). rewrite (io_spec _ _ _ _ IX).
  rewrite (view_pick d _ i s c kv IX), <- SC1.
  destruct (start_cursor (nth i (p_dbs p) []) (k_dup s) c kv) as [cur met]. cbn [fst snd] in *.
  destruct cur as [x|]; cbn [cent].
  - rewrite (SC2 x eq_refl).
    assert (I : In (c_ent x) (nth i (p_dbs p) [])) by (eapply epick_in; symmetry; exact SC1).
    destruct (fetch_ok d p0 s x) as (p1 & p2 & TR & S1 & S2 & S3 & S4 & S5 & S6 & S7 & S8 & S9 & S10); auto.
    { unfold arr_ok in *. cbn. tauto. }
    rewrite TR. eexists _, _. split; [reflexivity|]. split; auto. split; auto. split; auto. split; auto.
    auto 10.
  - assert (X : p_dbs (got p0 met) = p_dbs p /\ p_ki (got p0 met) = i /\ p_lrk (got p0 met) = p_lrk p /\
      p_lrp (got p0 met) = p_lrp p /\ p_ldup (got p0 met) = p_ldup p /\ p_last (got p0 met) = p_last p /\
      (p_data p <> None -> p_data (got p0 met) <> None)).
    { destruct met; cbn; repeat split; auto. discriminate. }
    destruct X as (X1 & X2 & X3 & X4 & X5 & X6 & X7).
    eexists _, _. split; [reflexivity|]. split; [unfold arr_ok in *; rewrite X2, X3, X4, X5; tauto|]. auto 10.
Qed.
