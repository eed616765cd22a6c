(** * ALLOCATE/FREE (C39), exit and error handlers (C40)
    Model: Storage.v (libcob/common.c). *)
From Verif Require Import Base BaseFacts Storage.

(** ** C39 *)

(** One statement of the program with its effect: ALLOCATE n characters with the
    address returned (0: none), FREE through an address, and what happened. *)
Inductive event :=
| EAlloc (n ptr : Z) (exn : bool)
| EFree (p : Z) (exn : bool).

(** The ledger of a history: what ALLOCATE returned and FREE did not yet get. *)
Fixpoint held (h : list event) : list Z :=
  match h with
  | [] => []
  | EAlloc _ p _ :: r => if p =? 0 then held r else p :: held r
  | EFree p _ :: r => filter (fun q => negb (q =? p)) (held r)
  end.

(** [ran h0 h st]: state after the history [h] (latest event first) of a run
    that starts with foreign blocks [h0].  malloc returns no block in use. *)
Inductive ran (h0 : heap) : list event -> astate -> Prop :=
| ran_init : ran h0 [] (mkA h0 [])
| ran_alloc : forall h st n m st' p x, ran h0 h st ->
    (forall a, m = Some a -> a <> 0 /\ ~ live (a_heap st) a) ->
    allocate st n m = (st', p, x) -> ran h0 (EAlloc n p x :: h) st'
| ran_free1 : forall h st p p2 st' p' p2' x, ran h0 h st -> p <> 0 ->
    free_alloc st (Some p) p2 = Ok (st', p', p2', x) -> ran h0 (EFree p x :: h) st'
| ran_free2 : forall h st p1 p st' p1' p' x, ran h0 h st -> p <> 0 -> (p1 = None \/ p1 = Some 0) ->
    free_alloc st p1 (Some p) = Ok (st', p1', p', x) -> ran h0 (EFree p x :: h) st'.

Lemma clear_entry_none : forall c p, p <> 0 -> clear_entry c p = None <-> ~ In p (map fst c).
Proof.
  induction c as [|[q n] c IH]; intros p HP; cbn [clear_entry map fst In].
  - split; auto.
  - destruct (Z.eqb_spec p q) as [->|NE].
    + split; [discriminate|]. intros X. exfalso. apply X. now left.
    + destruct (clear_entry c p) eqn:E.
      * split; [discriminate|]. intros X. exfalso. assert (Y : clear_entry c p = None) by (apply IH; tauto). congruence.
      * split; auto. intros _ [X|X]; [congruence|]. apply (proj1 (IH p HP)) in E; auto.
Qed.
(** The non-null pointers of the cache. *)
Definition ptrs (c : list (Z * Z)) : list Z := filter (fun q => negb (q =? 0)) (map fst c).
Lemma in_ptrs : forall c p, p <> 0 -> In p (ptrs c) <-> In p (map fst c).
Proof.
  intros. unfold ptrs. rewrite filter_In. split; [tauto|]. intros I. split; auto. apply negb_true_iff. now apply Z.eqb_neq.
Qed.
Lemma filter_id : forall {A} (f : A -> bool) l, (forall x, In x l -> f x = true) -> filter f l = l.
Proof.
  induction l as [|a l IH]; intros H; [reflexivity|]. cbn [filter]. rewrite (H a) by now left.
  f_equal. apply IH. intros; apply H; now right.
Qed.
Lemma clear_entry_some : forall c p c', p <> 0 -> NoDup (ptrs c) -> clear_entry c p = Some c' ->
  In p (ptrs c) /\ ptrs c' = filter (fun q => negb (q =? p)) (ptrs c).
Proof.
  induction c as [|[q n] c IH]; intros p c' HP ND H; cbn [clear_entry] in H; [discriminate|].
  unfold ptrs in *. cbn [map fst filter] in *. destruct (Z.eqb_spec p q) as [->|NE].
  - injection H as <-. cbn [map fst filter]. rewrite (proj2 (Z.eqb_neq q 0) HP) in *. cbn [negb] in *.
    rewrite Z.eqb_refl. cbn [negb filter]. rewrite Z.eqb_refl. cbn [negb]. split; [now left|].
    inversion ND as [|? ? NI ND']; subst. symmetry. apply filter_id. intros x I. apply negb_true_iff, Z.eqb_neq. congruence.
  - destruct (clear_entry c p) as [r|] eqn:E; [|discriminate]. injection H as <-. cbn [map fst filter].
    destruct (negb (q =? 0)) eqn:Q.
    + inversion ND as [|? ? NI ND']; subst. destruct (IH p r HP ND' E) as [A B]. split; [now right|].
      cbn [filter]. rewrite (proj2 (Z.eqb_neq q p)) by congruence. cbn [negb]. now f_equal.
    + apply (IH p r HP ND E).
Qed.

Lemma c_free_live : forall h a, live h a -> c_free h a = Ok (filter (fun b => negb (fst b =? a)) h).
Proof.
  intros h a L. unfold c_free, live in *. assert (E : existsb (fun b : Z * list Z => fst b =? a) h = true).
  { apply existsb_exists. apply in_map_iff in L as (b & <- & I). exists b. split; auto. apply Z.eqb_refl. }
  now rewrite E.
Qed.

Lemma free_forms : forall st p p2, p <> 0 ->
  free_alloc st (Some p) p2 = (do r <- free_one st p; Ok (fst (fst r), Some (snd (fst r)), p2, snd r)).
Proof. intros st p p2 HP. unfold free_alloc. now rewrite (proj2 (Z.eqb_neq p 0) HP). Qed.
Lemma free_forms2 : forall st p1 p, p <> 0 -> p1 = None \/ p1 = Some 0 ->
  free_alloc st p1 (Some p) = (do r <- free_one st p; Ok (fst (fst r), p1, Some (snd (fst r)), snd r)).
Proof. intros st p1 p HP [-> | ->]; unfold free_alloc; cbn [Z.eqb]; now rewrite (proj2 (Z.eqb_neq p 0) HP). Qed.

Definition inv (h0 : heap) (hist : list event) (st : astate) : Prop :=
  ptrs (a_cache st) = held hist /\ NoDup (held hist) /\
  (forall p, In p (held hist) -> p <> 0 /\ live (a_heap st) p /\ ~ live h0 p) /\
  filter (fun b => negb (existsb (Z.eqb (fst b)) (held hist))) (a_heap st) = h0.

Lemma filter_filter : forall {A} (f g : A -> bool) l, filter f (filter g l) = filter (fun x => g x && f x) l.
Proof.
  induction l as [|a l IH]; [reflexivity|]. cbn [filter]. destruct (g a); cbn [filter andb]; [destruct (f a); now rewrite IH|exact IH].
Qed.

Lemma free_one_inv : forall h0 hist st p, inv h0 hist st -> p <> 0 ->
  (In p (held hist) -> exists c,
     free_one st p = Ok (mkA (filter (fun b => negb (fst b =? p)) (a_heap st)) c, 0, false) /\
     forall x, inv h0 (EFree p x :: hist) (mkA (filter (fun b => negb (fst b =? p)) (a_heap st)) c)) /\
  (~ In p (held hist) -> free_one st p = Ok (st, p, true) /\ forall x, inv h0 (EFree p x :: hist) st).
Proof.
  intros h0 hist st p (P & ND & L & F) HP. unfold free_one. split.
  - intros I. destruct (clear_entry (a_cache st) p) as [c|] eqn:E.
    2:{ exfalso. apply clear_entry_none in E; auto. apply E. apply in_ptrs; auto. now rewrite P. }
    destruct (L p I) as (_ & LV & NF). rewrite c_free_live by auto. cbn [obind]. exists c. split; [reflexivity|]. intros x.
    apply clear_entry_some in E as [_ E]; auto; [|now rewrite P]. unfold inv. cbn [a_heap a_cache held].
    rewrite E, P. split; [reflexivity|]. split; [now apply NoDup_filter|]. split.
    + intros q Q. apply filter_In in Q as [Q1 Q2]. destruct (L q Q1) as (A & B & C). split; auto. split; auto.
      unfold live in *. apply in_map_iff in B as (b & <- & B). apply in_map. apply filter_In. auto.
    + rewrite filter_filter. rewrite <- F. apply filter_ext_in. intros b B. cbn beta.
      destruct (Z.eqb_spec (fst b) p) as [EQ|NE].
      * cbn [negb andb]. symmetry. apply negb_false_iff. apply existsb_exists. exists p. split; auto. now apply Z.eqb_eq.
      * cbn [negb andb]. f_equal. apply eq_true_iff_eq. rewrite !existsb_exists. split.
        -- intros (q & Q1 & Q2). apply filter_In in Q1 as [Q1 _]. eauto.
        -- intros (q & Q1 & Q2). exists q. split; auto. apply filter_In. split; auto. apply Z.eqb_eq in Q2. subst q.
           apply negb_true_iff. now apply Z.eqb_neq.
  - intros I. rewrite (proj2 (clear_entry_none (a_cache st) p HP)).
    2:{ intros X. apply I. rewrite <- P. now apply in_ptrs. }
    split; [reflexivity|]. intros x. unfold inv. cbn [held]. rewrite (filter_id _ (held hist)).
    + repeat split; auto; apply L; auto.
    + intros q Q. apply negb_true_iff, Z.eqb_neq. congruence.
Qed.

Lemma ran_inv : forall h0 hist st, ran h0 hist st -> inv h0 hist st.
Proof.
  intros h0 hist st R. induction R as [|h st n m st' p x R IH FR E|h st p p2 st' p' p2' x R IH HP E|h st p1 p st' p1' p' x R IH HP HN E].
  - unfold inv. cbn. repeat split; auto; try constructor; try contradiction. apply filter_id. intros; reflexivity.
  - unfold allocate in E. destruct (0 <? n) eqn:N.
    + destruct m as [a|]; injection E as <- <- <-; [|exact IH].
      destruct (FR a eq_refl) as [A1 A2]. destruct IH as (P & ND & L & F).
      assert (NI : ~ In a (held h)) by (intros X; apply A2, L, X).
      assert (NF : ~ live h0 a). { intros X. apply A2. unfold live in *. rewrite <- F in X. apply in_map_iff in X as (b & <- & X).
        apply filter_In in X as [X _]. now apply in_map. }
      unfold inv. cbn [a_heap a_cache held]. rewrite (proj2 (Z.eqb_neq a 0) A1).
      split; [unfold ptrs; cbn [map fst filter]; rewrite (proj2 (Z.eqb_neq a 0) A1); cbn [negb]; f_equal; exact P|].
      split; [now constructor|]. split.
      * intros q [<-|Q]; [repeat split; auto; now left|]. destruct (L q Q) as (B1 & B2 & B3). repeat split; auto. now right.
      * cbn [filter fst existsb]. rewrite Z.eqb_refl. cbn [orb negb]. rewrite <- F. apply filter_ext_in. intros b B.
        cbn [existsb]. destruct (Z.eqb_spec (fst b) a) as [EQ|NE]; [|reflexivity].
        exfalso. apply A2. unfold live. rewrite <- EQ. now apply in_map.
    + injection E as <- <- <-. exact IH.
  - rewrite free_forms in E by auto. destruct (free_one_inv h0 h st p IH HP) as [A B].
    destruct (in_dec Z.eq_dec p (held h)) as [I|I].
    + destruct (A I) as (c & E1 & E2). rewrite E1 in E. cbn [obind fst snd] in E. injection E as <- <- <- <-. apply E2.
    + destruct (B I) as (E1 & E2). rewrite E1 in E. cbn [obind fst snd] in E. injection E as <- <- <- <-. apply E2.
  - rewrite free_forms2 in E by auto. destruct (free_one_inv h0 h st p IH HP) as [A B].
    destruct (in_dec Z.eq_dec p (held h)) as [I|I].
    + destruct (A I) as (c & E1 & E2). rewrite E1 in E. cbn [obind fst snd] in E. injection E as <- <- <- <-. apply E2.
    + destruct (B I) as (E1 & E2). rewrite E1 in E. cbn [obind fst snd] in E. injection E as <- <- <- <-. apply E2.
Qed.

(** After every history: FREE of a held address releases exactly that block
    and clears the pointer; FREE of any other address releases nothing and
    raises the exception; never an undefined free. *)
Theorem C39_free : forall h0 hist st p, ran h0 hist st -> p <> 0 ->
  (In p (held hist) -> exists st',
     (forall p2, free_alloc st (Some p) p2 = Ok (st', Some 0, p2, false)) /\
     (forall p1, p1 = None \/ p1 = Some 0 -> free_alloc st p1 (Some p) = Ok (st', p1, Some 0, false)) /\
     live (a_heap st) p /\
     (forall b, In b (a_heap st') <-> In b (a_heap st) /\ fst b <> p)) /\
  (~ In p (held hist) ->
     (forall p2, free_alloc st (Some p) p2 = Ok (st, Some p, p2, true)) /\
     (forall p1, p1 = None \/ p1 = Some 0 -> free_alloc st p1 (Some p) = Ok (st, p1, Some p, true))).
Proof.
  intros h0 hist st p R HP. pose proof (ran_inv _ _ _ R) as I. destruct (free_one_inv h0 hist st p I HP) as [A B]. split.
  - intros H. destruct (A H) as (c & E & _).
    exists (mkA (filter (fun b => negb (fst b =? p)) (a_heap st)) c). split; [|split; [|split]].
    + intros p2. rewrite free_forms, E by auto. reflexivity.
    + intros p1 H1. rewrite free_forms2, E by auto. reflexivity.
    + destruct I as (_ & _ & L & _). now apply L.
    + intros b. cbn [a_heap]. rewrite filter_In, negb_true_iff, Z.eqb_neq. tauto.
  - intros H. destruct (B H) as (E & _). split; intros.
    + rewrite free_forms, E by auto. reflexivity.
    + rewrite free_forms2, E by auto. reflexivity.
Qed.
Print Assumptions C39_free.

(** A null pointer is ignored. *)
Theorem C39_free_null : forall st p1 p2, p1 = None \/ p1 = Some 0 -> p2 = None \/ p2 = Some 0 ->
  free_alloc st p1 p2 = Ok (st, p1, p2, false).
Proof. intros st p1 p2 [-> | ->] [-> | ->]; reflexivity. Qed.
Print Assumptions C39_free_null.

(** After every history: the held blocks are live and distinct, and no block
    that does not come from ALLOCATE has been touched. *)
Theorem C39_ledger : forall h0 hist st, ran h0 hist st ->
  NoDup (held hist) /\ (forall p, In p (held hist) -> p <> 0 /\ live (a_heap st) p) /\
  (forall b, In b h0 -> In b (a_heap st)).
Proof.
  intros h0 hist st R. destruct (ran_inv _ _ _ R) as (_ & ND & L & F). split; [exact ND|]. split.
  - intros p I. destruct (L p I) as (A & B & _). auto.
  - intros b I. rewrite <- F in I. apply filter_In in I. tauto.
Qed.
Print Assumptions C39_ledger.

(** ALLOCATE: a new zero-filled block of the requested size, or a null pointer
    (with the exception if storage is exhausted, without for sizes <= 0). *)
Theorem C39_allocate : forall st n m,
  (0 < n -> forall a, m = Some a -> exists st', allocate st n m = (st', a, false) /\
     a_heap st' = (a, repeat 0 (Z.to_nat n)) :: a_heap st) /\
  (0 < n -> m = None -> allocate st n m = (st, 0, true)) /\
  (n <= 0 -> allocate st n m = (st, 0, false)).
Proof.
  intros st n m. unfold allocate. destruct (Z.ltb_spec 0 n) as [L|L].
  - split; [|split]; intros; try lia; subst; [eexists; split; reflexivity|reflexivity].
  - split; [|split]; intros; try lia. reflexivity.
Qed.
Print Assumptions C39_allocate.

(** Allocate 1000, free it, allocate 1000 again (reused), 2000: ledger 2000, 1000. *)
Example C39_ex : exists st, ran [(77, [1])] [EAlloc 2 2000 false; EAlloc 3 1000 false; EFree 1000 false; EAlloc 3 1000 false] st /\
  held [EAlloc 2 2000 false; EAlloc 3 1000 false; EFree 1000 false; EAlloc 3 1000 false] = [2000; 1000].
Proof.
  pose proof (ran_init [(77, [1])]) as R0.
  assert (R1 := ran_alloc _ _ _ 3 (Some 1000) _ _ _ R0
    ltac:(intros a [= <-]; split; [lia|]; cbn; intros X; repeat destruct X as [X|X]; try discriminate X; auto) eq_refl).
  assert (R2 := ran_free1 _ _ _ 1000 None _ _ _ _ R1 ltac:(lia) eq_refl).
  assert (R3 := ran_alloc _ _ _ 3 (Some 1000) _ _ _ R2
    ltac:(intros a [= <-]; split; [lia|]; cbn; intros X; repeat destruct X as [X|X]; try discriminate X; auto) eq_refl).
  assert (R4 := ran_alloc _ _ _ 2 (Some 2000) _ _ _ R3
    ltac:(intros a [= <-]; split; [lia|]; cbn; intros X; repeat destruct X as [X|X]; try discriminate X; auto) eq_refl).
  eexists. split; [exact R4|reflexivity].
Qed.

(** ** C40 *)
(** The procedures to be called at the end of the run, after an operation
    (install: put it in front; remove: take it out). *)
Definition handlers_after (install : bool) (proc : Z) (ps : list Z) : list Z :=
  (if install then [proc] else []) ++ filter (fun q => negb (q =? proc)) ps.

(** Histories in which a handler that is removed, or installed again, is the
    most recently installed one or not installed at all. *)
Inductive lifo : hstate -> list Z -> Prop :=
| lifo_init : lifo (mkH [] 0) []
| lifo_step : forall st ps install proc fresh rc st', lifo st ps ->
    proc <> 0 -> fresh <> 0 -> ~ In fresh (map fst (h_nodes st)) ->
    ~ In proc (tl ps) ->
    handler_proc st install proc fresh = Ok (rc, st') -> lifo st' (handlers_after install proc ps).

(** Linked list in the heap: addresses and procedures. *)
Inductive chain (ns : nheap) : Z -> list (Z * Z) -> Prop :=
| chain_nil : chain ns 0 []
| chain_cons : forall a p nx l, a <> 0 -> n_find ns a = Some (mkNode nx p) -> chain ns nx l -> chain ns a ((a, p) :: l).

Lemma n_find_in : forall ns a n, n_find ns a = Some n -> In a (map fst ns).
Proof.
  intros ns a n H. unfold n_find in H. destruct (find _ ns) as [b|] eqn:E; [|discriminate].
  apply find_some in E as [E1 E2]. apply Z.eqb_eq in E2. subst a. now apply in_map.
Qed.
Lemma n_find_add : forall ns a n b, a <> b -> n_find ((b, n) :: ns) a = n_find ns a.
Proof. intros. unfold n_find. cbn [find fst]. destruct (Z.eqb_spec b a); [congruence|reflexivity]. Qed.
Lemma chain_add : forall ns h l b n, chain ns h l -> ~ In b (map fst ns) -> chain ((b, n) :: ns) h l.
Proof.
  intros ns h l b n C NI. induction C as [|a p nx l A F C IH]; [constructor|]. eapply chain_cons; auto; [|exact IH].
  rewrite <- F.
  rewrite n_find_add; auto. intros ->. apply NI. eapply n_find_in; eauto.
Qed.
Lemma chain_addr : forall ns h l, chain ns h l -> forall a, In a (map fst l) -> In a (map fst ns).
Proof.
  intros ns h l C. induction C as [|a p nx l A F C IH]; intros x I; [contradiction|].
  destruct I as [<-|I]; [eapply n_find_in; eauto|auto].
Qed.
Lemma chain_run : forall ns h l, chain ns h l -> forall fuel, (length l < fuel)%nat -> run_handlers fuel ns h = Ok (map snd l).
Proof.
  intros ns h l C. induction C as [|a p nx l A F C IH]; intros fuel HF.
  - destruct fuel; [cbn in HF; lia|]. reflexivity.
  - destruct fuel; [cbn in HF; lia|]. cbn [run_handlers]. rewrite (proj2 (Z.eqb_neq a 0) A), F. cbn [n_next n_proc].
    rewrite IH by (cbn [length] in HF; lia). reflexivity.
Qed.
Lemma chain_length : forall (ns : nheap) (l : list (Z * Z)), NoDup (map fst l) -> (forall a, In a (map fst l) -> In a (map (@fst Z hnode) ns)) ->
  (length l <= length ns)%nat.
Proof.
  intros ns l ND S. rewrite <- (map_length (@fst Z Z) l), <- (map_length (@fst Z hnode) ns). apply NoDup_incl_length; auto.
Qed.

(** Removal of a procedure that is not in the list. *)
Lemma remove_absent : forall st proc h l, chain (h_nodes st) h l -> ~ In proc (map snd l) ->
  forall fuel hp, (length l < fuel)%nat -> remove_handler fuel st proc hp h = Ok st.
Proof.
  intros st proc h l C. remember (h_nodes st) as ns. induction C as [|a p nx l A F C IH]; intros NI fuel hp HF.
  - destruct fuel; [cbn in HF; lia|]. reflexivity.
  - destruct fuel; [cbn in HF; lia|]. cbn [remove_handler]. rewrite (proj2 (Z.eqb_neq a 0) A), <- Heqns, F. cbn [n_proc n_next].
    destruct (Z.eqb_spec p proc) as [->|NE]; [exfalso; apply NI; now left|].
    apply IH; auto; [|cbn [length] in HF; lia]. intros X. apply NI. now right.
Qed.

Definition hinv (st : hstate) (ps : list Z) : Prop :=
  exists l, chain (h_nodes st) (h_head st) l /\ map snd l = ps /\ NoDup (map fst l) /\ NoDup ps.

Lemma filter_none : forall ps p, ~ In p ps -> filter (fun q => negb (q =? p)) ps = ps.
Proof. intros. apply filter_id. intros x I. apply negb_true_iff, Z.eqb_neq. congruence. Qed.

Lemma hinv_step : forall st ps install proc fresh, hinv st ps -> proc <> 0 -> fresh <> 0 ->
  ~ In fresh (map fst (h_nodes st)) -> ~ In proc (tl ps) ->
  exists st', handler_proc st install proc fresh = Ok (0, st') /\ hinv st' (handlers_after install proc ps).
Proof.
  intros st ps install proc fresh (l & C & E & NDA & NDP) HP HF FR NT.
  assert (LN : (length l <= length (h_nodes st))%nat) by (eapply chain_length; eauto; eapply chain_addr; eauto).
  unfold handler_proc. rewrite (proj2 (Z.eqb_neq proc 0) HP).
  assert (S : exists st1, remove_handler (S (length (h_nodes st))) st proc 0 (h_head st) = Ok st1 /\
     h_nodes st1 = h_nodes st /\ exists l1, chain (h_nodes st) (h_head st1) l1 /\ NoDup (map fst l1) /\
     map snd l1 = filter (fun q => negb (q =? proc)) ps).
  { destruct l as [|[a p] l].
    - exists st. split; [|split; [reflexivity|]].
      + eapply remove_absent; eauto. cbn. lia.
      + exists []. subst ps. auto.
    - inversion C as [|a' p' nx l' A F C']; subst. cbn [map fst snd tl] in *.
      inversion NDA as [|? ? NI NDA']; subst. inversion NDP as [|? ? NIP NDP']; subst.
      destruct (Z.eq_dec p proc) as [->|NE].
      + exists (mkH (h_nodes st) nx). cbn [remove_handler]. rewrite (proj2 (Z.eqb_neq _ 0) A), F. cbn [n_proc n_next].
        rewrite Z.eqb_refl. cbn [Z.eqb]. split; [reflexivity|]. split; [reflexivity|]. exists l. repeat split; auto.
        cbn [filter]. rewrite Z.eqb_refl. cbn [negb]. now rewrite filter_none.
      + exists st. split; [|split; [reflexivity|]].
        * eapply remove_absent; eauto; [|lia]. intros [X|X]; auto.
        * exists ((h_head st, p) :: l). split; [exact C|]. split; [exact NDA|]. rewrite filter_none; [reflexivity|].
          intros [X|X]; auto. }
  destruct S as (st1 & R & HN & l1 & C1 & ND1 & E1). rewrite R. cbn [obind]. rewrite HN.
  assert (NDf : NoDup (filter (fun q => negb (q =? proc)) ps)) by now apply NoDup_filter.
  destruct install.
  - eexists. split; [reflexivity|]. exists ((fresh, proc) :: l1). cbn [h_nodes h_head map fst snd].
    split; [|split; [|split]].
    + eapply chain_cons; auto; [unfold n_find; cbn [find fst]; rewrite Z.eqb_refl; reflexivity|].
      apply chain_add; auto.
    + unfold handlers_after. cbn [app]. now rewrite E1.
    + constructor; auto. intros X. apply FR. eapply chain_addr; eauto.
    + unfold handlers_after. cbn [app]. constructor; auto. intros X. apply filter_In in X as [_ X].
      rewrite Z.eqb_refl in X. discriminate.
  - exists st1. split; [reflexivity|]. exists l1. rewrite HN. unfold handlers_after. cbn [app]. auto.
Qed.
Lemma hinv_called : forall st ps, hinv st ps -> called st = Ok ps.
Proof.
  intros st ps (l & C & <- & ND & _). unfold called. apply chain_run; auto.
  assert (length l <= length (h_nodes st))%nat; [|lia]. eapply chain_length; eauto. eapply chain_addr; eauto.
Qed.
Lemma lifo_inv : forall st ps, lifo st ps -> hinv st ps.
Proof.
  intros st ps H. induction H as [|st ps install proc fresh rc st' L IH HP HF FR NT E].
  - exists []. repeat split; constructor.
  - destruct (hinv_step st ps install proc fresh IH HP HF FR NT) as (st2 & E2 & I2). congruence.
Qed.

(** Partial: as long as only the most recently installed handler is removed or
    re-installed, every operation succeeds, and the handlers called at the end
    of the run are exactly the installed ones, the latest first.  (Missing: the
    removal of another handler, for which the claim is false, next theorem.) *)
Theorem C40_handlers_partial : forall st ps, lifo st ps ->
  called st = Ok ps /\
  forall install proc fresh, proc <> 0 -> fresh <> 0 -> ~ In fresh (map fst (h_nodes st)) -> ~ In proc (tl ps) ->
    exists st', handler_proc st install proc fresh = Ok (0, st') /\ called st' = Ok (handlers_after install proc ps).
Proof.
  intros st ps H. apply lifo_inv in H. split; [now apply hinv_called|]. intros.
  destruct (hinv_step st ps install proc fresh) as (st' & E & I); auto. exists st'. split; auto. now apply hinv_called.
Qed.
Print Assumptions C40_handlers_partial.

Lemma find_after_free : forall ns a n ns', n_free (n_set ns a n) a = Ok ns' -> n_find ns' a = None.
Proof.
  intros ns a n ns' H. unfold n_free in H. destruct (existsb _ _); [|discriminate]. injection H as <-. unfold n_find.
  destruct (find _ _) as [b|] eqn:E; [|reflexivity]. apply find_some in E as [E1 E2]. apply filter_In in E1 as [_ E1].
  rewrite E2 in E1. discriminate.
Qed.
Lemma find_other : forall ns a n ns' b, n_free (n_set ns a n) a = Ok ns' -> b <> a -> n_find ns' b = n_find ns b.
Proof.
  intros ns a n ns' b H NE. unfold n_free in H. destruct (existsb _ _); [|discriminate]. injection H as <-.
  clear -NE. induction ns as [|[c m] ns IH]; [reflexivity|]. unfold n_find, n_set in *. cbn [map fst filter find].
  destruct (Z.eqb_spec c a) as [->|NA].
  - cbn [fst filter]. rewrite Z.eqb_refl. cbn [negb]. destruct (Z.eqb_spec a b); [congruence|]. exact IH.
  - cbn [fst filter]. rewrite (proj2 (Z.eqb_neq c a) NA). cbn [negb find fst]. destruct (c =? b); [reflexivity|exact IH].
Qed.
(** Walking to a node that is gone. *)
Inductive chain_to (ns : nheap) : Z -> list (Z * Z) -> Z -> Prop :=
| ct_nil : forall a, chain_to ns a [] a
| ct_cons : forall a p nx l b, a <> 0 -> n_find ns a = Some (mkNode nx p) -> chain_to ns nx l b -> chain_to ns a ((a, p) :: l) b.
Lemma run_broken : forall ns h l a, chain_to ns h l a -> a <> 0 -> n_find ns a = None ->
  forall fuel, run_handlers fuel ns h = UB.
Proof.
  intros ns h l a C NZ N. induction C as [a|a p nx l b A F C IH]; intros [|fuel]; cbn [run_handlers]; auto.
  - now rewrite (proj2 (Z.eqb_neq a 0) NZ), N.
  - rewrite (proj2 (Z.eqb_neq a 0) A), F. cbn [n_next]. rewrite IH by auto. reflexivity.
Qed.
Lemma chain_to_free : forall ns h l a, chain_to ns h l a -> ~ In a (map fst l) -> forall n ns',
  n_free (n_set ns a n) a = Ok ns' -> chain_to ns' h l a.
Proof.
  intros ns h l a C NI n ns' F. induction C as [|a p nx l b A FD C IH]; econstructor; eauto.
  - rewrite (find_other _ _ _ _ a F); [exact FD|]. intros ->. apply NI. now left.
  - apply IH; auto. intros X. apply NI. now right.
Qed.

Lemma chain_to_snoc : forall ns h l a, chain_to ns h l a -> forall p b, a <> 0 -> n_find ns a = Some (mkNode b p) ->
  chain_to ns h (l ++ [(a, p)]) b.
Proof.
  intros ns h l a C. induction C as [a|a p nx l b A F C IH]; intros q c NZ N; cbn [app].
  - eapply ct_cons; eauto. constructor.
  - eapply ct_cons; eauto.
Qed.
Lemma chain_to_add : forall ns h l a b n, chain_to ns h l a -> ~ In b (map fst ns) -> chain_to ((b, n) :: ns) h l a.
Proof.
  intros ns h l a b n C NI. induction C as [a|a p nx l c A F C IH]; [constructor|]. eapply ct_cons; eauto.
  rewrite n_find_add; auto. intros ->. apply NI. eapply n_find_in; eauto.
Qed.

(** The walk finds the procedure behind a first node: the node before it is
    freed and stays linked. *)
Lemma remove_broken : forall st proc h l, chain (h_nodes st) h l -> In proc (map snd l) ->
  forall hp pre, hp <> 0 -> (exists pp, n_find (h_nodes st) hp = Some (mkNode h pp)) -> chain_to (h_nodes st) (h_head st) pre hp ->
  NoDup (map fst pre ++ [hp] ++ map fst l) ->
  forall fuel, (length l < fuel)%nat ->
  exists st' a l2, remove_handler fuel st proc hp h = Ok st' /\ h_head st' = h_head st /\
    chain_to (h_nodes st') (h_head st) l2 a /\ a <> 0 /\ n_find (h_nodes st') a = None /\
    incl (map fst (h_nodes st')) (map fst (h_nodes st)) /\ In a (map fst (h_nodes st)).
Proof.
  intros st proc h l C. remember (h_nodes st) as ns. induction C as [|a p nx l A F C IH]; intros I hp pre NZ NF CT ND fuel HF; [contradiction|].
  destruct fuel; [cbn in HF; lia|]. cbn [remove_handler]. rewrite (proj2 (Z.eqb_neq a 0) A), <- Heqns, F. cbn [n_proc n_next].
  destruct (Z.eqb_spec p proc) as [->|NE].
  - rewrite (proj2 (Z.eqb_neq hp 0) NZ). destruct NF as (pp & FP). rewrite FP. set (pn := mkNode a pp) in *.
    assert (X : exists ns', n_free (n_set ns hp (mkNode nx (n_proc pn))) hp = Ok ns').
    { unfold n_free. assert (EX : existsb (fun b : Z * hnode => fst b =? hp) (n_set ns hp (mkNode nx (n_proc pn))) = true).
      { apply existsb_exists. apply n_find_in in FP. apply in_map_iff in FP as (b & EB & IB).
        exists (hp, mkNode nx (n_proc pn)). split; [|apply Z.eqb_refl]. unfold n_set. apply in_map_iff. exists b. split; auto.
        rewrite EB, Z.eqb_refl. reflexivity. }
      rewrite EX. eauto. }
    destruct X as (ns' & X). rewrite X. cbn [obind].
    exists (mkH ns' (h_head st)), hp, pre. cbn [h_nodes h_head]. repeat split; auto.
    + eapply chain_to_free; eauto. intros Y. apply NoDup_remove_2 in ND. apply ND. apply in_or_app. now left.
    + eapply find_after_free; eauto.
    + unfold n_free in X. destruct (existsb _ _); [|discriminate]. injection X as <-. intros y Y.
      apply in_map_iff in Y as (b & <- & Y). apply filter_In in Y as [Y _]. unfold n_set in Y. apply in_map_iff in Y as (c & <- & Y).
      destruct (Z.eqb_spec (fst c) hp) as [E|]; [cbn [fst]; rewrite <- E|]; now apply in_map.
    + eapply n_find_in; eauto.
  - destruct I as [I|I]; [cbn in I; congruence|].
    destruct NF as (pp & FP).
    apply (IH I a (pre ++ [(hp, pp)])); auto.
    + exists p. exact F.
    + eapply chain_to_snoc; eauto.
    + rewrite map_app. cbn [map fst]. cbn [map fst] in ND. rewrite <- app_assoc. exact ND.
    + cbn [length] in HF. lia.
Qed.

(** The claim of C40 is false in general: after every such history, removing
    (or re-installing) any handler but the latest releases the list node in
    front of it, which stays in the list: the next walk over the list - the end
    of the run, or the next call - uses released memory. *)
Theorem C40_remove_refuted : forall st q ps proc install fresh, lifo st (q :: ps) -> In proc ps ->
  proc <> 0 -> fresh <> 0 -> ~ In fresh (map fst (h_nodes st)) ->
  exists st', handler_proc st install proc fresh = Ok (0, st') /\ called st' = UB.
Proof.
  intros st q ps proc install fresh L I HP HF FR. apply lifo_inv in L as (l & C & E & ND & NDP).
  assert (LN : (length l <= length (h_nodes st))%nat) by (eapply chain_length; eauto; eapply chain_addr; eauto).
  destruct l as [|[a p] l]; [discriminate|]. cbn [map fst snd] in E. injection E as -> E.
  inversion C as [|a' p' nx l' A F C']; subst. inversion NDP as [|? ? NIP _]; subst.
  destruct (remove_broken st proc nx l C' I (h_head st) []) with (fuel := length (h_nodes st)) as
    (st1 & b & l2 & R & HH & CT & NZ & NF & INC & IB); auto.
  - exists q. exact F.
  - constructor.
  - unfold handler_proc. rewrite (proj2 (Z.eqb_neq proc 0) HP). cbn [remove_handler].
    rewrite (proj2 (Z.eqb_neq _ 0) A), F. cbn [n_proc n_next].
    destruct (Z.eqb_spec q proc) as [->|NE]; [contradiction|]. rewrite R. cbn [obind].
    destruct install; eexists; (split; [reflexivity|]); unfold called.
    + cbn [h_nodes h_head]. apply (run_broken _ _ ((fresh, proc) :: l2) b).
      * eapply ct_cons; [exact HF|unfold n_find; cbn [find fst]; rewrite Z.eqb_refl; reflexivity|].
        apply chain_to_add; [rewrite HH; exact CT|]. intros X. apply FR. now apply INC.
      * exact NZ.
      * rewrite n_find_add; [exact NF|]. intros ->. contradiction.
    + rewrite HH. eapply run_broken; eauto.
Qed.
Print Assumptions C40_remove_refuted.
(** Three handlers 7, 8, 9 installed; 9 (the latest) can be removed, 8 cannot. *)
Example C40_ex : exists st, lifo st [9; 8; 7].
Proof.
  assert (L1 := lifo_step _ _ true 7 100 _ _ lifo_init ltac:(lia) ltac:(lia) ltac:(cbn; tauto) ltac:(cbn; tauto) eq_refl).
  assert (L2 := lifo_step _ _ true 8 200 _ _ L1 ltac:(lia) ltac:(lia) ltac:(cbn; lia) ltac:(cbn; lia) eq_refl).
  assert (L3 := lifo_step _ _ true 9 300 _ _ L2 ltac:(lia) ltac:(lia) ltac:(cbn; lia) ltac:(cbn; lia) eq_refl).
  eexists. exact L3.
Qed.
