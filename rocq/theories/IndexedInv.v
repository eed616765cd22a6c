(** The invariant of the databases of an indexed file, and what WRITE, DELETE
    and REWRITE do to them. *)
From Coq Require Import Permutation Sorted.
From Verif Require Import Base FileIO Indexed SpecIndexed IndexedDb.
Local Open Scope Z_scope.

Definition rmap := list Z -> option record.

Record KInv (s : kspec) (m : rmap) (l : db) : Prop := mkKInv {
  ki_sorted : esorted (k_dup s) l;
  ki_rec : forall e, In e l -> exists r, m (e_prim e) = Some r /\ slice s r = e_key e;
  ki_all : forall pk r, m pk = Some r -> exists e, In e l /\ e_prim e = pk;
  ki_nodup : NoDup (map e_prim l);
  ki_pos : k_dup s = true -> forall e, In e l -> 0 < e_dup e }.

Record PInv (d : fdesc) (l : db) : Prop := mkPInv {
  pi_sorted : esorted false l;
  pi_rec : forall e, In e l -> e_key e = slice (prime d) (e_prim e) /\
             (d_min d <= length (e_prim e) <= d_max d)%nat;
  pi_dup : forall e, In e l -> e_dup e = 0 }.

Definition dbs_ok (d : fdesc) (dbs : list db) : Prop :=
  match dbs with
  | [] => False
  | l0 :: alts => PInv d l0 /\ Forall2 (fun s l => KInv s (rec_at l0) l) (tl (d_keys d)) alts
  end.

Definition vw (m : rmap) (l : db) : list record :=
  map (fun e => match m (e_prim e) with Some r => r | None => [] end) l.
Lemma deref_vw l0 l : deref l0 l = vw (rec_at l0) l.
Proof. reflexivity. Qed.

(** ** The primary index *)
Lemma rec_at_iff l k r : esorted false l ->
  rec_at l k = Some r <-> exists e, In e l /\ e_key e = k /\ e_prim e = r.
Proof.
  intro S; split; [apply rec_at_some|]. intros (e & I & <- & <-). now apply rec_at_in.
Qed.
Lemma opt_ext {A} (x y : option A) : (forall r, x = Some r <-> y = Some r) -> x = y.
Proof.
  intro H. destruct x as [a|].
  - symmetry. now apply H.
  - destruct y as [b|]; auto. now apply H.
Qed.

Lemma pinv_rec_at d l k r : PInv d l -> rec_at l k = Some r ->
  slice (prime d) r = k /\ (d_min d <= length r <= d_max d)%nat.
Proof.
  intros [S R RD] H. apply rec_at_some in H as (e & I & <- & <-). destruct (R e I) as [-> L]. auto.
Qed.
Lemma pinv_in d l r : PInv d l -> In r (map e_prim l) -> rec_at l (slice (prime d) r) = Some r.
Proof.
  intros [S R RD] H. apply in_map_iff in H as (e & <- & I). destruct (R e I) as [<- _]. now apply rec_at_in.
Qed.
Lemma rec_at_in_view d l k r : PInv d l -> rec_at l k = Some r -> In r (map e_prim l).
Proof. intros _ H. apply rec_at_some in H as (e & I & _ & <-). now apply in_map. Qed.

Lemma pinv_insert d l k r : PInv d l -> rec_at l k = None -> k = slice (prime d) r ->
  (d_min d <= length r <= d_max d)%nat ->
  PInv d (db_insert (k, (r, 0)) l) /\
  (forall k', rec_at (db_insert (k, (r, 0)) l) k' = if beq k' k then Some r else rec_at l k') /\
  map e_prim (db_insert (k, (r, 0)) l) = insert_behind (prime d) r (map e_prim l).
Proof.
  intros [S R RD] N K L. rewrite rec_at_none in N.
  assert (S' : esorted false (db_insert (k, (r, 0)) l)).
  { apply db_insert_sorted; auto. intros x I E. exfalso. eapply N; eauto. }
  split; [split; auto|split].
  - intros e I. apply db_insert_in in I as [->|I]; auto.
  - intros e I. apply db_insert_in in I as [->|I]; auto.
  - intro k'. apply opt_ext. intro x. rewrite rec_at_iff by auto.
    destruct (beq_spec k' k) as [->|NE]; split.
    + intros (e & I & E & <-). apply db_insert_in in I as [->|I]; auto. exfalso. eapply N; eauto.
    + intro X. injection X as <-. exists (k, (r, 0)). split; auto. apply db_insert_in. auto.
    + intros (e & I & E & <-). apply db_insert_in in I as [->|I]; [cbn in E; congruence|].
      rewrite <- E. now apply rec_at_in.
    + intro X. apply rec_at_some in X as (e & I & E & <-). exists e. split; auto. apply db_insert_in; auto.
  - clear S S' N. induction l as [|x l IH]; cbn [db_insert map insert_behind]; auto.
    change (e_key (k, (r, 0))) with k.
    assert (Hx : e_key x = slice (prime d) (e_prim x)) by (apply R; left; auto).
    rewrite <- Hx, <- K. destruct (blt k (e_key x)) eqn:B; cbn [map]; auto.
    f_equal. apply IH; intros e I; [apply R|apply RD]; right; auto.
Qed.

Lemma pinv_filter d l k : PInv d l ->
  PInv d (filter (fun e => negb (beq (e_key e) k)) l) /\
  (forall k', rec_at (filter (fun e => negb (beq (e_key e) k)) l) k' = if beq k' k then None else rec_at l k') /\
  map e_prim (filter (fun e => negb (beq (e_key e) k)) l) = without (prime d) k (map e_prim l).
Proof.
  intros [S R RD].
  assert (S' : esorted false (filter (fun e => negb (beq (e_key e) k)) l)) by (apply ss_filter; auto).
  split; [split; auto|split].
  - intros e I. apply filter_In in I as [I _]. auto.
  - intros e I. apply filter_In in I as [I _]. auto.
  - intro k'. apply opt_ext. intro x. rewrite rec_at_iff by auto. destruct (beq_spec k' k) as [->|NE].
    + split; [|easy]. intros (e & I & E & _). apply filter_In in I as [_ I]. rewrite E, beq_refl in I. easy.
    + rewrite rec_at_iff by auto. split.
      * intros (e & I & E & X). apply filter_In in I as [I _]. eauto.
      * intros (e & I & E & X). exists e. split; auto. apply filter_In. split; auto.
        apply negb_true_iff, beq_false. congruence.
  - clear S S'. unfold without. induction l as [|x l IH]; cbn [map filter]; auto.
    assert (Hx : e_key x = slice (prime d) (e_prim x)) by (apply R; left; auto).
    rewrite <- Hx. assert (IHl := IH ltac:(intros e I; apply R; right; auto) ltac:(intros e I; apply RD; right; auto)). clear IH.
    destruct (beq (e_key x) k); cbn [negb map]; rewrite IHl; auto.
Qed.

(** ** An alternate index *)
Lemma vw_key s m l : KInv s m l -> Forall2 (fun e r => e_key e = slice s r) l (vw m l).
Proof.
  intro K. assert (H := ki_rec _ _ _ K). clear K. unfold vw.
  induction l as [|e l IH]; cbn [map]; constructor.
  - destruct (H e) as (r & -> & <-); auto. left; auto.
  - apply IH. intros x I. apply H. right; auto.
Qed.

Lemma vw_ext m m' l : (forall e, In e l -> m (e_prim e) = m' (e_prim e)) -> vw m l = vw m' l.
Proof. intro H. apply map_ext_in. intros e I. now rewrite H. Qed.

Lemma kinv_insert s m m' l pk r n : KInv s m l -> m pk = None ->
  (k_dup s = false -> forall e, In e l -> e_key e <> slice s r) ->
  (k_dup s = true -> 0 < n /\ forall e, In e l -> e_key e = slice s r -> e_dup e < n) ->
  (forall k', m' k' = if beq k' pk then Some r else m k') ->
  KInv s m' (db_insert (slice s r, (pk, n)) l) /\
  vw m' (db_insert (slice s r, (pk, n)) l) = insert_behind s r (vw m l).
Proof.
  intros K N U D M.
  assert (NP : forall e, In e l -> e_prim e <> pk).
  { intros e I E. destruct (ki_rec _ _ _ K e I) as (x & X & _). rewrite E in X. congruence. }
  assert (MP : m' pk = Some r) by (rewrite M, beq_refl; auto).
  assert (ME : forall e, In e l -> m' (e_prim e) = m (e_prim e)).
  { intros e I. rewrite M. destruct (beq_spec (e_prim e) pk) as [E|E]; auto. exfalso; eapply NP; eauto. }
  split; [split|].
  - apply db_insert_sorted; [apply K|]. intros x I E. cbn [e_key fst] in E.
    destruct (k_dup s) eqn:DS; [|exfalso; eapply U; eauto]. split; auto.
    cbn [e_dup snd]. apply D; auto.
  - intros e I. apply db_insert_in in I as [->|I].
    + exists r. split; auto.
    + rewrite ME by auto. now apply K.
  - intros k x X. rewrite M in X. destruct (beq_spec k pk) as [->|NE].
    + exists (slice s r, (pk, n)). split; auto. apply db_insert_in; auto.
    + apply (ki_all _ _ _ K) in X as (e & I & E). exists e. split; auto. apply db_insert_in; auto.
  - eapply Permutation_NoDup.
    + apply Permutation_map. apply db_insert_perm.
    + cbn [map]. constructor; [|apply K]. intro I. apply in_map_iff in I as (e & E & I).
      apply (NP e I). exact E.
  - intros DS e I. apply db_insert_in in I as [->|I]; [cbn; apply D; auto|]. apply K; auto.
  - assert (V := vw_key s m l K). rewrite (vw_ext m m' l) in * by (intros; symmetry; auto).
    clear K U D NP ME N M. unfold vw in *. induction l as [|x l IH]; cbn [db_insert map insert_behind].
    + cbn [e_prim fst snd]. now rewrite MP.
    + inversion V as [|? ? ? ? Vx V']; subst. rewrite <- Vx. cbn [e_key fst] in *.
      change (e_key (slice s r, (pk, n))) with (slice s r).
      destruct (blt (slice s r) (e_key x)) eqn:B; cbn [map].
      * change (e_prim (slice s r, (pk, n))) with pk. now rewrite MP.
      * f_equal. apply IH. exact V'.
Qed.

Lemma kinv_filter s s0 m m' l pk : KInv s m l -> (forall k r, m k = Some r -> slice s0 r = k) ->
  (forall k', m' k' = if beq k' pk then None else m k') ->
  KInv s m' (filter (fun e => negb (beq (e_prim e) pk)) l) /\
  vw m' (filter (fun e => negb (beq (e_prim e) pk)) l) = without s0 pk (vw m l).
Proof.
  intros K C M. split; [split|].
  - apply ss_filter, K.
  - intros e I. apply filter_In in I as [I Q]. rewrite M. apply negb_true_iff in Q. rewrite Q. now apply K.
  - intros k r X. rewrite M in X. destruct (beq_spec k pk) as [->|NE]; [easy|].
    apply (ki_all _ _ _ K) in X as (e & I & E). exists e. split; auto. apply filter_In. split; auto.
    apply negb_true_iff, beq_false. congruence.
  - assert (ND := ki_nodup _ _ _ K). clear K. induction l as [|x l IH]; cbn; [constructor|].
    inversion ND; subst. destruct (negb (beq (e_prim x) pk)); auto. cbn [map]. constructor; auto.
    intro I. apply in_map_iff in I as (e & E & I). apply filter_In in I as [I _].
    match goal with H : ~ In _ _ |- _ => apply H end. rewrite <- E. now apply in_map.
  - intros D e I. apply filter_In in I as [I _]. apply K; auto.
  - assert (H := ki_rec _ _ _ K). clear K. unfold vw, without. induction l as [|x l IH]; cbn [map filter]; auto.
    assert (IHl := IH ltac:(intros e I; apply H; right; auto)). clear IH.
    destruct (H x) as (r & X & _); [left; auto|]. rewrite X, (C _ _ X).
    destruct (beq (e_prim x) pk) eqn:Q; cbn [negb map]; auto. rewrite M, Q, X, IHl. reflexivity.
Qed.

Lemma kinv_keep s s0 m m' l pk old r : KInv s m l -> (forall k r, m k = Some r -> slice s0 r = k) ->
  m pk = Some old -> slice s old = slice s r -> slice s0 r = pk ->
  (forall k', m' k' = if beq k' pk then Some r else m k') ->
  KInv s m' l /\ vw m' l = map (fun x => if beq (slice s0 x) pk then r else x) (vw m l).
Proof.
  intros K C O SL P M. split; [split|].
  - apply K.
  - intros e I. destruct (ki_rec _ _ _ K e I) as (x & X & E). rewrite M.
    destruct (beq_spec (e_prim e) pk) as [Q|Q]; [|eauto]. rewrite Q in X. rewrite X in O. injection O as ->.
    exists r. split; auto. congruence.
  - intros k x X. rewrite M in X. destruct (beq_spec k pk) as [->|NE]; eapply (ki_all _ _ _ K); eauto.
  - apply K.
  - apply K.
  - unfold vw. rewrite map_map. apply map_ext_in. intros e I.
    destruct (ki_rec _ _ _ K e I) as (x & X & E). rewrite M, X, (C _ _ X). destruct (beq (e_prim e) pk); auto.
Qed.

Lemma kinv_key_prim s m l pk old : KInv s m l -> m pk = Some old ->
  exists e, In e l /\ e_prim e = pk /\ e_key e = slice s old.
Proof.
  intros K O. destruct (ki_all _ _ _ K pk old O) as (e & I & E). exists e. repeat split; auto.
  destruct (ki_rec _ _ _ K e I) as (x & X & <-). rewrite E, O in X. congruence.
Qed.

(** What the deletion of the entries does. *)
Lemma del_entries s m l pk old : KInv s m l -> m pk = Some old ->
  (if k_dup s then del_dup (slice s old) pk l else db_del (slice s old) l)
  = filter (fun e => negb (beq (e_prim e) pk)) l.
Proof.
  intros K O. destruct (k_dup s) eqn:D.
  - rewrite (del_dup_filter (k_dup s)) by apply K. apply filter_ext_in. intros e I. f_equal.
    destruct (beq_spec (e_prim e) pk) as [E|E]; [|apply andb_false_r]. rewrite andb_true_r. apply beq_true.
    destruct (ki_rec _ _ _ K e I) as (x & X & <-). rewrite E, O in X. congruence.
  - unfold db_del. apply filter_ext_in. intros e I. f_equal.
    destruct (beq_spec (e_prim e) pk) as [E|E].
    + apply beq_true. destruct (ki_rec _ _ _ K e I) as (x & X & <-). rewrite E, O in X. congruence.
    + apply beq_false. intro Q. destruct (kinv_key_prim s m l pk old K O) as (e' & I' & P' & K').
      apply E. assert (S := ki_sorted _ _ _ K). rewrite D in S.
      rewrite (psorted_unique l e e' S I I') by congruence. exact P'.
Qed.

(** ** The order of a view *)
Lemma kinv_order s m l : KInv s m l -> in_order s (vw m l).
Proof.
  intro K. assert (V := vw_key s m l K). assert (S := ki_sorted _ _ _ K). clear K.
  revert V. generalize (vw m l). induction l as [|x l IH]; intros v V; inversion V as [|? r ? v' Vx V']; subst; cbn [in_order]; auto.
  inversion S as [|? ? S' F]; subst. split; [|auto].
  clear IH V S S'. induction V' as [|e y l v' Ve V' IH]; constructor.
  - inversion F as [|? ? F1 F2]; subst. rewrite <- Vx, <- Ve. destruct (k_dup s).
    + eapply elt_key; eauto.
    + now rewrite elt_nodup in F1.
  - apply IH. now inversion F.
Qed.
Lemma pinv_order d l : k_dup (prime d) = false -> PInv d l -> in_order (prime d) (map e_prim l).
Proof.
  intros D [S R RD]. induction l as [|x l IH]; cbn [map in_order]; auto.
  inversion S as [|? ? S' F]; subst. split; [|apply IH; auto; intros e I; [apply R|apply RD]; right; auto].
  rewrite D. apply Forall_forall. intros y Y. apply in_map_iff in Y as (e & <- & I).
  rewrite Forall_forall in F. specialize (F e I). rewrite elt_nodup in F.
  destruct (R x) as [<- _]; [left; auto|]. destruct (R e) as [<- _]; [right; auto|]. auto.
Qed.

Lemma pinv_nodup d l : PInv d l -> NoDup (map e_key l).
Proof.
  intros [S _ _]. clear d. induction l as [|x l IH]; cbn [map]; [constructor|].
  inversion S as [|? ? S' F]; subst. constructor; auto. intro I. apply in_map_iff in I as (e & E & I).
  rewrite Forall_forall in F. specialize (F e I). rewrite elt_nodup in F. apply blt_neq in F. congruence.
Qed.
Lemma view_perm d s l0 l : PInv d l0 -> KInv s (rec_at l0) l -> Permutation (map e_prim l0) (deref l0 l).
Proof.
  intros P K.
  assert (X : Permutation (map e_key l0) (map e_prim l)).
  { apply NoDup_Permutation; [eapply pinv_nodup; eauto|apply K|]. intro k. rewrite !in_map_iff. split.
    - intros (e & <- & I). destruct (ki_all _ _ _ K (e_key e) (e_prim e)) as (e' & I' & E').
      + apply rec_at_in; auto. apply P.
      + exists e'. auto.
    - intros (e & <- & I). destruct (ki_rec _ _ _ K e I) as (r & R & _).
      apply rec_at_some in R as (e' & I' & E' & _). exists e'. auto. }
  apply (Permutation_map (fun k => match rec_at l0 k with Some r => r | None => [] end)) in X.
  rewrite !map_map in X. unfold deref.
  assert (Y : map e_prim l0 = map (fun x => match rec_at l0 (e_key x) with Some r => r | None => [] end) l0).
  { apply map_ext_in. intros e I. rewrite rec_at_in; auto. apply P. }
  rewrite Y. exact X.
Qed.

(** ** Slices *)
Lemma slice_firstn s n a : (k_off s + k_len s <= n)%nat -> slice s (firstn n a) = slice s a.
Proof.
  intro L. unfold slice. rewrite skipn_firstn_comm, firstn_firstn. f_equal. lia.
Qed.
Lemma slice_length s a : (k_off s + k_len s <= length a)%nat -> length (slice s a) = k_len s.
Proof. intro L. unfold slice. rewrite firstn_length, skipn_length. lia. Qed.

Definition keys_ok (d : fdesc) : Prop :=
  Forall (fun s => (k_off s + k_len s <= d_min d)%nat) (d_keys d).
Lemma prime_cons d : d_keys d <> [] -> d_keys d = prime d :: tl (d_keys d).
Proof. unfold prime, key_spec. destruct (d_keys d); easy. Qed.
Lemma prime_ok d : desc_ok d -> (k_off (prime d) + k_len (prime d) <= d_min d)%nat.
Proof.
  intros (N & _ & F & _). rewrite (prime_cons d N) in F. inversion F; subst. lia.
Qed.
Lemma tl_ok d s : desc_ok d -> In s (tl (d_keys d)) -> (k_off s + k_len s <= d_min d)%nat.
Proof.
  intros (N & _ & F & _) I. rewrite (prime_cons d N) in F. inversion F; subst.
  match goal with H : Forall _ (tl _) |- _ => rewrite Forall_forall in H; apply H in I end. lia.
Qed.

(** ** WRITE *)

(** Some record of [v] has the same value of a key without duplicates. *)
Definition clash_in (ks : list kspec) (v : list record) (r : record) : Prop :=
  exists s x, In s ks /\ k_dup s = false /\ In x v /\ slice s x = slice s r.

Lemma kinv_key_rec s d l0 l k : PInv d l0 -> KInv s (rec_at l0) l ->
  (exists e, In e l /\ e_key e = k) <-> (exists x, In x (map e_prim l0) /\ slice s x = k).
Proof.
  intros P K; split.
  - intros (e & I & <-). destruct (ki_rec _ _ _ K e I) as (x & X & S). exists x. split; auto.
    eapply rec_at_in_view; eauto.
  - intros (x & I & <-). apply (pinv_in d) in I; auto.
    destruct (kinv_key_prim _ _ _ _ _ K I) as (e & I' & _ & E). exists e. auto.
Qed.

Lemma check_alt_dbs rw prim area ks dbs p : forall b p', check_alt rw prim area ks dbs p = (b, p') ->
  p_dbs p' = p_dbs p /\ p_ki p' = p_ki p /\ p_lrk p' = p_lrk p /\ p_lrp p' = p_lrp p /\ p_ldup p' = p_ldup p
  /\ p_last p' = p_last p.
Proof.
  revert dbs p; induction ks as [|s ks IH]; intros [|l dbs] p b p' H; cbn [check_alt] in H;
    try (injection H as <- <-; auto 10).
  destruct (k_dup s); [eauto|].
  destruct (db_set (slice s area) l) as [c|].
  - destruct rw.
    + destruct (negb (beq (e_prim (c_ent c)) prim)).
      * injection H as <- <-. auto 10.
      * apply IH in H. cbn in H. auto.
    + injection H as <- <-. auto 10.
  - apply IH in H. cbn in H. auto.
Qed.

Lemma check_alt_write d l0 prim area ks dbs p r : PInv d l0 ->
  Forall2 (fun s l => KInv s (rec_at l0) l) ks dbs ->
  (forall s, In s ks -> slice s r = slice s area) ->
  fst (check_alt false prim area ks dbs p) = true <-> clash_in ks (map e_prim l0) r.
Proof.
  intros P F. revert p. induction F as [|s l ks dbs K F IH]; intros p E.
  - cbn. split; [easy|]. intros (s & x & [] & _).
  - cbn [check_alt]. assert (Es := E s ltac:(left; auto)).
    assert (E' : forall s, In s ks -> slice s r = slice s area) by (intros; apply E; right; auto).
    destruct (k_dup s) eqn:D.
    + rewrite IH by auto. split; intros (s' & x & I & H).
      * exists s', x. split; [right|]; auto.
      * destruct I as [<-|I]; [destruct H; congruence|]. exists s', x. auto.
    + destruct (db_set (slice s area) l) as [c|] eqn:C.
      * cbn [fst]. split; [|auto]. intros _. apply db_set_some in C as (a & e & post & -> & -> & _ & Ke).
        destruct (proj1 (kinv_key_rec s d l0 _ (slice s area) P K)) as (x & I & X).
        { exists e. split; auto. apply in_or_app; right; left; auto. }
        exists s, x. rewrite Es. split; [left; auto|auto].
      * rewrite IH by auto. split; intros (s' & x & I & H).
        { exists s', x. split; [right|]; auto. }
        { destruct I as [<-|I]; [|exists s', x; auto]. exfalso.
          destruct H as (_ & I & X). rewrite db_set_none in C.
          destruct (proj2 (kinv_key_rec s d l0 _ (slice s area) P K)) as (e & I' & Ke).
          - exists x. split; auto. congruence.
          - eapply C; eauto. }
Qed.

Lemma write_secs_ok d l0 l0' pk area r ks dbs : PInv d l0 ->
  Forall2 (fun s l => KInv s (rec_at l0) l) ks dbs ->
  (forall s, In s ks -> slice s r = slice s area) ->
  rec_at l0 pk = None -> ~ clash_in ks (map e_prim l0) r ->
  (forall k', rec_at l0' k' = if beq k' pk then Some r else rec_at l0 k') ->
  exists secs, write_secs pk area ks dbs (map (fun _ => true) ks) = (true, secs) /\
    Forall2 (fun s l => KInv s (rec_at l0') l) ks secs /\
    map (deref l0') secs = map2 (fun s v => insert_behind s r v) ks (map (deref l0) dbs) /\
    Forall2 (fun l l' => incl l l') dbs secs.
Proof.
  intros P F E N C M. induction F as [|s l ks dbs K F IH].
  - exists []. auto.
  - destruct IH as (secs & W & FK & V & FR).
    { intros s' I. apply E. right; auto. }
    { intros (s' & x & I & H). apply C. exists s', x. split; [right|]; auto. }
    cbn [write_secs map negb]. rewrite W.
    assert (Es := E s ltac:(left; auto)). rewrite <- Es.
    assert (U : k_dup s = false -> forall e, In e l -> e_key e <> slice s r).
    { intros D e I Q. apply C.
      destruct (proj1 (kinv_key_rec s d l0 _ (slice s r) P K)) as (x & I' & X); [eauto|].
      exists s, x. split; [left; auto|auto]. }
    destruct (k_dup s) eqn:D.
    + destruct (get_dupno_gt (slice s r) l) as [G0 G].
      { assert (S := ki_sorted _ _ _ K). now rewrite D in S. }
      { intros e I. apply (ki_pos _ _ _ K); auto. }
      destruct (kinv_insert s (rec_at l0) (rec_at l0') l pk r (get_dupno (slice s r) l)) as [K' V']; auto.
      { rewrite D. discriminate. }
      eexists. split; [reflexivity|]. split; [constructor; auto|]. cbn [map map2]. rewrite <- V.
      split; [f_equal; exact V'|]. constructor; auto. intros x X. apply db_insert_in. auto.
    + destruct (db_set (slice s r) l) as [c|] eqn:Q.
      { exfalso. apply db_set_some in Q as (a & e & post & -> & -> & _ & Ke). eapply U; eauto.
        apply in_or_app; right; left; auto. }
      destruct (kinv_insert s (rec_at l0) (rec_at l0') l pk r 0) as [K' V']; auto.
      { rewrite D. discriminate. }
      eexists. split; [reflexivity|]. split; [constructor; auto|]. cbn [map map2]. rewrite <- V.
      split; [f_equal; exact V'|]. constructor; auto. intros x X. apply db_insert_in. auto.
Qed.
