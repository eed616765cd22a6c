(** The run unit of Call.v follows the abstract one of SpecCall.v. *)
From Verif Require Import Base Call SpecCall CallThm.
Local Open Scope Z_scope.

Section Sim.
Variable sys : list (list Z).
Variable env : list prog.
Hypothesis G : good_env sys env.

Notation N := (length env).
Notation id := (fun p => g_id (gprog env p)).

Record R (s : st) (a : abs) : Prop := mkR {
  R_tab : tab_ok (s_tab s);
  R_len : length (s_progs s) = N;
  R_run : s_run s = a_run a;
  R_lt : forall p, In p (a_run a) -> (p < N)%nat;
  R_exc : s_exc s = a_exc a;
  R_p : forall p, (p < N)%nat ->
        p_inited (gpst s p) = a_used a p /\ p_ws (gpst s p) = a_ws a p;
  R_ent : forall n e, In e (entries n (s_tab s)) ->
        (In n sys /\ h_func e = TSys n /\ h_cancel e = None) \/
        (exists p, (p < N)%nat /\ id p = n /\ h_func e = TProg p /\
           (h_cancel e = None \/ (h_cancel e = Some p /\ g_main (gprog env p) = false)));
  R_sys : forall n, In n sys -> entries n (s_tab s) <> [];
  R_can : forall p, (p < N)%nat -> a_used a p = true -> g_main (gprog env p) = false ->
        exists e, In e (entries (id p) (s_tab s)) /\ h_cancel e = Some p;
  R_cache : forall q e f, In (q, e, f) (s_cache s) ->
        exists p, (p < N)%nat /\ f = TProg p /\ e = encode (id p) }.

Lemma id_inj : forall p q, (p < N)%nat -> (q < N)%nat -> id p = id q -> p = q.
Proof. destruct G as [_ H]. exact H. Qed.
Lemma id_good : forall p, (p < N)%nat -> good_name (id p).
Proof. intros p H. apply (proj1 G p H). Qed.
Lemma id_sys : forall p, (p < N)%nat -> ~ In (id p) sys.
Proof. intros p H. apply (proj1 G p H). Qed.

(** *** CANCEL *)
Definition cleared (x : pst) : pst :=
  if p_inited x then mkPst false (p_ws x) false false (p_next x) else x.
Lemma cleared_idem : forall x, cleared (cleared x) = cleared x.
Proof.
  intros x. unfold cleared at 2 3. destruct (p_inited x) eqn:E; [reflexivity|].
  unfold cleared. rewrite E. reflexivity.
Qed.

Definition hits (p : nat) (e : entry) : bool :=
  match h_cancel e with Some q => Nat.eqb q p | None => false end.

Lemma gpst_set : forall s p x q, (p < length (s_progs s))%nat ->
  gpst (set_pst p x s) q = if Nat.eqb q p then x else gpst s q.
Proof.
  intros s p x q H. unfold gpst, set_pst. cbn [s_progs].
  destruct (Nat.eqb_spec q p) as [->|E]; [apply lupd_same; auto|apply lupd_other; auto].
Qed.

Lemma cancel_prog_frame : forall p s,
  s_tab (cancel_prog p s) = s_tab s /\ s_cache (cancel_prog p s) = s_cache s /\
  s_run (cancel_prog p s) = s_run s /\ s_mod (cancel_prog p s) = s_mod s /\
  s_tree (cancel_prog p s) = s_tree s /\ s_exc (cancel_prog p s) = s_exc s /\
  length (s_progs (cancel_prog p s)) = length (s_progs s).
Proof.
  intros p s. unfold cancel_prog. destruct (p_inited (gpst s p)); unfold set_pst;
    cbn [s_tab s_cache s_run s_mod s_tree s_exc s_progs]; repeat (split; [reflexivity|]);
    rewrite ?lupd_len; reflexivity.
Qed.
Lemma cancel_prog_p : forall p s q, (p < length (s_progs s))%nat ->
  gpst (cancel_prog p s) q = if Nat.eqb p q then cleared (gpst s q) else gpst s q.
Proof.
  intros p s q H. unfold cancel_prog, cleared.
  destruct (Nat.eqb_spec p q) as [<-|E].
  - destruct (p_inited (gpst s p)); [|reflexivity].
    rewrite gpst_set by auto. rewrite Nat.eqb_refl. reflexivity.
  - destruct (p_inited (gpst s p)); [|reflexivity].
    rewrite gpst_set by auto. destruct (Nat.eqb_spec q p); [congruence|reflexivity].
Qed.

Lemma cancel_entries_spec : forall n l s,
  (forall e, In e l -> n = h_name e) ->
  (forall e p, In e l -> h_cancel e = Some p -> (p < length (s_progs s))%nat) ->
  let s' := cancel_entries n l s in
  s_tab s' = s_tab s /\ s_cache s' = s_cache s /\ s_run s' = s_run s /\ s_mod s' = s_mod s /\
  s_tree s' = s_tree s /\ s_exc s' = s_exc s /\ length (s_progs s') = length (s_progs s) /\
  forall q, gpst s' q = if existsb (hits q) l then cleared (gpst s q) else gpst s q.
Proof.
  induction l as [|e l IH]; intros s Hn Hc; cbn [cancel_entries existsb];
    [repeat (split; [reflexivity|]); reflexivity|].
  rewrite <- (Hn e (or_introl eq_refl)), beq_refl. cbv zeta.
  set (s1 := match h_cancel e with Some p => cancel_prog p s | None => s end).
  assert (F : s_tab s1 = s_tab s /\ s_cache s1 = s_cache s /\ s_run s1 = s_run s /\
    s_mod s1 = s_mod s /\ s_tree s1 = s_tree s /\ s_exc s1 = s_exc s /\
    length (s_progs s1) = length (s_progs s) /\
    forall q, gpst s1 q = if hits q e then cleared (gpst s q) else gpst s q).
  { unfold s1, hits. destruct (h_cancel e) as [p|] eqn:E.
    - destruct (cancel_prog_frame p s) as (A & B & C & D & T & X & L).
      repeat (split; [assumption|]). intros q. apply cancel_prog_p.
      apply (Hc e p); [left; reflexivity|exact E].
    - repeat (split; [reflexivity|]). reflexivity. }
  destruct F as (A & B & C & D & T & X & L & P).
  assert (IH' := IH s1). cbv zeta in IH'.
  destruct IH' as (A' & B' & C' & D' & T' & X' & L' & P').
  - intros x I. apply Hn; right; exact I.
  - intros x p I E. rewrite L. apply (Hc x p); [right; exact I|exact E].
  - split; [congruence|]. split; [congruence|]. split; [congruence|]. split; [congruence|].
    split; [congruence|]. split; [congruence|]. split; [congruence|].
    intros q. rewrite P', P. destruct (hits q e), (existsb (hits q) l); cbn [orb];
      rewrite ?cleared_idem; reflexivity.
Qed.

(** CANCEL of one name. *)
Lemma cancel_R : forall s a n, R s a ->
  let s' := cob_cancel n s in
  R s' (a_cancel env (fun p => beq (id p) n) a) /\
  s_tree s' = s_tree s /\ s_mod s' = s_mod s /\
  forall p, (p < N)%nat ->
    gpst s' p = if beq (id p) n && negb (g_main (gprog env p))
                then cleared (gpst s p) else gpst s p.
Proof.
  intros s a n H. cbv zeta. unfold cob_cancel. rewrite cancel_entries_filter.
  fold (entries n (s_tab s)).
  assert (Hn : forall e, In e (entries n (s_tab s)) -> n = h_name e).
  { intros e I. unfold entries in I. apply filter_In in I. destruct I as [_ E].
    apply beq_eq in E; exact E. }
  assert (Hc : forall e p, In e (entries n (s_tab s)) -> h_cancel e = Some p ->
            (p < N)%nat /\ id p = n /\ g_main (gprog env p) = false).
  { intros e p I E. destruct (R_ent s a H n e I) as [(_ & _ & E') | (p' & L & I' & _ & [E'|[E' M]])];
      try congruence. rewrite E in E'. inversion E'; subst p'. auto. }
  destruct (cancel_entries_spec n (entries n (s_tab s)) s Hn) as (A & B & C & D & T & X & L & P).
  { intros e p I E. rewrite (R_len s a H). apply (Hc e p I E). }
  set (s' := cancel_entries n (entries n (s_tab s)) s) in *.
  assert (Q : forall p, (p < N)%nat ->
    gpst s' p = if beq (id p) n && negb (g_main (gprog env p))
                then cleared (gpst s p) else gpst s p).
  { intros p Hp. rewrite P. destruct (existsb (hits p) (entries n (s_tab s))) eqn:E.
    - apply existsb_exists in E. destruct E as (e & I & E). unfold hits in E.
      destruct (h_cancel e) as [q|] eqn:Ec; [|discriminate]. apply Nat.eqb_eq in E; subst q.
      destruct (Hc e p I Ec) as (_ & I2 & M). rewrite I2, beq_refl, M. reflexivity.
    - destruct (beq (id p) n) eqn:Eb; [|reflexivity].
      destruct (g_main (gprog env p)) eqn:M; [reflexivity|]. cbn [negb andb].
      unfold cleared. destruct (p_inited (gpst s p)) eqn:Ei; [|reflexivity]. exfalso.
      rewrite (proj1 (R_p s a H p Hp)) in Ei. apply beq_eq in Eb. 
      destruct (R_can s a H p Hp Ei M) as (e & I & Ec). cbv beta in I, Eb. rewrite Eb in I.
      assert (X0 : existsb (hits p) (entries n (s_tab s)) = true).
      { apply existsb_exists. exists e; split; auto. unfold hits. rewrite Ec. apply Nat.eqb_refl. }
      congruence. }
  split; [|auto].
  destruct H as [H1 H2 H3 H4 H5 H6 H7 H8 H9 H10].
  constructor; unfold a_cancel; cbn [a_run a_ws a_used a_open a_exc a_hist];
    rewrite ?A, ?B, ?C, ?X; auto.
  - congruence.
  - intros p Hp. destruct (H6 p Hp) as [U1 U2]. rewrite (Q p Hp).
    destruct (beq (id p) n && negb (g_main (gprog env p))) eqn:E; [|auto].
    unfold cleared. destruct (p_inited (gpst s p)) eqn:Ei; cbn [p_inited p_ws]; auto.
  - intros p Hp U M. destruct (beq (id p) n && negb (g_main (gprog env p))); [discriminate|].
    apply H9; auto.
Qed.

(** CANCEL of a list of names. *)
Lemma a_cancel_id : forall a s, R s a -> R s (a_cancel env (fun _ => false) a).
Proof.
  intros a s [H1 H2 H3 H4 H5 H6 H7 H8 H9 H10].
  constructor; unfold a_cancel; cbn [a_run a_ws a_used a_open a_exc a_hist andb]; auto.
Qed.
Lemma R_ext : forall s a b, R s a ->
  a_run a = a_run b -> a_exc a = a_exc b ->
  (forall p, (p < N)%nat -> a_used a p = a_used b p /\ a_ws a p = a_ws b p) -> R s b.
Proof.
  intros s a b [H1 H2 H3 H4 H5 H6 H7 H8 H9 H10] E1 E2 E3.
  constructor; rewrite <- ?E1, <- ?E2; auto.
  - intros p Hp. destruct (E3 p Hp) as [<- <-]. auto.
  - intros p Hp. destruct (E3 p Hp) as [<- _]. auto.
Qed.

Lemma cancels_R : forall l s a, R s a ->
  let s' := fold_left (fun s n => cob_cancel (field_name n) s) l s in
  R s' (a_cancel env (fun p => in_names (id p) (map field_name l)) a) /\
  s_tree s' = s_tree s /\ s_mod s' = s_mod s /\
  forall p, (p < N)%nat ->
    gpst s' p = if in_names (id p) (map field_name l) && negb (g_main (gprog env p))
                then cleared (gpst s p) else gpst s p.
Proof.
  induction l as [|n l IH]; intros s a H; cbn [fold_left map].
  - cbv zeta. split; [apply a_cancel_id; auto|]. split; [reflexivity|]. split; [reflexivity|].
    intros p Hp. reflexivity.
  - destruct (cancel_R s a (field_name n) H) as (A & B & C & D). cbv zeta in *.
    destruct (IH _ _ A) as (A' & B' & C' & D').
    split; [|split; [congruence|split; [congruence|]]].
    + eapply R_ext; [exact A'| | |]; try reflexivity.
      intros p Hp. unfold a_cancel; cbn [a_used a_ws]. split; [|reflexivity].
      unfold in_names at 2. cbn [existsb]. fold (in_names (id p) (map field_name l)).
      destruct (in_names (id p) (map field_name l)), (beq (id p) (field_name n)),
        (g_main (gprog env p)); reflexivity.
    + intros p Hp. rewrite (D' p Hp), (D p Hp). unfold in_names at 2. cbn [existsb].
      fold (in_names (id p) (map field_name l)).
      destruct (in_names (id p) (map field_name l)), (beq (id p) (field_name n)),
        (g_main (gprog env p)); cbn [andb orb negb]; rewrite ?cleared_idem; reflexivity.
Qed.

(** *** Names to programs *)
Lemma sym_from_find : forall r pre e,
  sym_from (length pre) r e =
  find (fun p => beq (encode (g_id (nth p (pre ++ r) prog0))) e) (seq (length pre) (length r)).
Proof.
  induction r as [|g r IH]; intros pre e; [reflexivity|].
  cbn [sym_from length seq find].
  rewrite app_nth2 by lia. rewrite Nat.sub_diag. cbn [nth].
  destruct (beq (encode (g_id g)) e); [reflexivity|].
  specialize (IH (pre ++ [g]) e). rewrite app_length in IH. cbn [length] in IH.
  rewrite Nat.add_1_r in IH. rewrite <- app_assoc in IH. exact IH.
Qed.
Lemma find_ext_in : forall A (f g : A -> bool) l, (forall x, In x l -> f x = g x) -> find f l = find g l.
Proof.
  induction l as [|x l IH]; intros H; [reflexivity|]. cbn [find].
  rewrite (H x (or_introl eq_refl)). destruct (g x); [reflexivity|].
  apply IH. intros y I; apply H; right; exact I.
Qed.
Lemma sym_callee : forall n, good_name n -> sym env (encode n) = callee env n.
Proof.
  intros n [Hn _]. unfold sym, callee. change 0%nat with (length (@nil prog)) at 1.
  rewrite sym_from_find. cbn [app length]. apply find_ext_in. intros p I.
  apply in_seq in I. destruct (id_good p ltac:(lia)) as [Hp _].
  unfold gprog in *. destruct (beq (g_id (nth p env prog0)) n) eqn:E.
  - apply beq_eq in E. rewrite E. apply beq_refl.
  - apply beq_neq in E. apply beq_neq. intros X. apply E. apply encode_inj; auto.
Qed.
Lemma callee_some : forall n p, callee env n = Some p -> (p < N)%nat /\ id p = n.
Proof.
  intros n p H. apply find_some in H. destruct H as [I E]. apply in_seq in I.
  apply beq_eq in E. split; [lia|exact E].
Qed.
Lemma callee_id : forall p, (p < N)%nat -> callee env (id p) = Some p.
Proof.
  intros p Hp. destruct (callee env (id p)) as [q|] eqn:E.
  - destruct (callee_some _ _ E) as [L X]. f_equal. apply id_inj; auto.
  - exfalso. assert (F := find_none _ _ E p). cbv beta in F. rewrite beq_refl in F.
    assert (X : In p (seq 0 N)) by (apply in_seq; lia). specialize (F X). discriminate.
Qed.

(** *** Entering a program *)
Lemma enter_R : forall s a p s', R s a -> (p < N)%nat -> enter env p s = Ok s' ->
  R s' (a_enter env p a) /\ s_mod s' = Some p /\
  push_tree (encode (id p)) (s_tree s) = Ok (s_tree s') /\
  forall q, (q < N)%nat -> gpst s' q =
    if Nat.eqb q p then
      mkPst true (p_ws (gpst s' p)) (p_decok (gpst s p) || negb (p_inited (gpst s p)))
            (p_open (gpst s p)) (s_mod s)
    else gpst s q.
Proof.
  intros s a p s' H Hp E. unfold enter in E. cbv zeta in E.
  destruct (push_tree (encode (g_id (gprog env p))) (s_tree s)) as [t| |] eqn:Et; try discriminate.
  cbn [obind] in E. inversion E as [E']; clear E. subst s'.
  cbn [s_mod s_tree s_progs s_tab].
  set (fresh := negb (p_inited (gpst s p))).
  set (x' := mkPst true _ _ _ _).
  assert (Hg : forall q, (q < N)%nat -> nth q (lupd p x' (s_progs s)) pst0 =
      if Nat.eqb q p then x' else gpst s q).
  { intros q Hq. unfold gpst. destruct (Nat.eqb_spec q p) as [->|Eq].
    - apply lupd_same. rewrite (R_len s a H); auto.
    - apply lupd_other; auto. }
  set (tab := if fresh && negb (g_main (gprog env p)) then _ else _).
  assert (T : tab_ok tab).
  { unfold tab. destruct (fresh && negb (g_main (gprog env p))); [apply set_cancel_ok|]; apply (R_tab s a H). }
  destruct (entries_set_cancel (g_id (gprog env p)) (TProg p) p (s_tab s) (R_tab s a H)) as [So Ss].
  assert (Hent : forall n e, In e (entries n tab) ->
        (In n sys /\ h_func e = TSys n /\ h_cancel e = None) \/
        (exists p, (p < N)%nat /\ id p = n /\ h_func e = TProg p /\
           (h_cancel e = None \/ (h_cancel e = Some p /\ g_main (gprog env p) = false)))).
  { intros n e. unfold tab. destruct (fresh && negb (g_main (gprog env p))) eqn:Ef; [|apply (R_ent s a H)].
    apply andb_true_iff in Ef. destruct Ef as [_ Ef]. apply negb_true_iff in Ef.
    destruct (beq n (g_id (gprog env p))) eqn:Eb.
    - apply beq_eq in Eb. subst n. rewrite Ss.
      assert (Old := R_ent s a H (g_id (gprog env p))).
      destruct (entries (g_id (gprog env p)) (s_tab s)) as [|e0 r].
      + intros [<-|[]]. right. exists p. cbn [h_func h_cancel]. auto 8.
      + intros [<-|I]; [|apply Old; right; exact I].
        right. exists p. cbn [h_func h_cancel].
        destruct (Old e0 (or_introl eq_refl)) as [(X & _)|(q & Lq & Iq & Fq & _)].
        * exfalso. exact (id_sys p Hp X).
        * assert (q = p) by (apply id_inj; auto). subst q. auto 8.
    - apply beq_neq in Eb. rewrite So by auto. apply (R_ent s a H). }
  assert (Hsys : forall n, In n sys -> entries n tab <> []).
  { intros n I. unfold tab. destruct (fresh && negb (g_main (gprog env p))); [|apply (R_sys s a H n I)].
    rewrite So; [apply (R_sys s a H n I)|]. intros ->. exact (id_sys p Hp I). }
  assert (Hcan : forall q, (q < N)%nat -> fupd p true (a_used a) q = true ->
      g_main (gprog env q) = false -> exists e, In e (entries (id q) tab) /\ h_cancel e = Some q).
  { intros q Hq U M. unfold fupd in U. unfold tab.
    destruct (Nat.eqb_spec q p) as [->|Eq].
    - destruct (p_inited (gpst s p)) eqn:Ei.
      + unfold fresh; cbn [negb andb].
        rewrite (proj1 (R_p s a H p Hp)) in Ei. exact (R_can s a H p Hp Ei M).
      + unfold fresh. rewrite M. cbn [negb andb]. cbv beta. rewrite Ss.
        destruct (entries (g_id (gprog env p)) (s_tab s)) as [|e0 r];
          eexists; (split; [left; reflexivity|reflexivity]).
    - destruct (R_can s a H q Hq U M) as (e & I & Ec). exists e; split; auto.
      destruct (fresh && negb (g_main (gprog env p))); auto.
      rewrite So; auto. intros X. apply Eq. apply id_inj; auto. }
  split; [|split; [reflexivity|split; [reflexivity|]]].
  - destruct (R_p s a H p Hp) as [U1 U2].
    constructor; unfold a_enter; cbn [s_tab s_progs s_cache s_run s_mod s_tree s_exc
      a_run a_ws a_used a_open a_exc a_hist]; auto.
    + rewrite lupd_len. apply (R_len s a H).
    + rewrite (R_run s a H). reflexivity.
    + intros q [<-|I]; [auto|apply (R_lt s a H q I)].
    + intros q Hq. unfold gpst; cbn [s_progs]. rewrite (Hg q Hq). unfold fupd.
      destruct (Nat.eqb q p) eqn:Eq; [|apply (R_p s a H q Hq)].
      unfold x'; cbn [p_inited p_ws]. split; [reflexivity|].
      unfold fresh. rewrite U1, U2.
      destruct (a_used a p), (g_initial (gprog env p)); reflexivity.
    + apply (R_cache s a H).
  - intros q Hq. unfold gpst at 1 2; cbn [s_progs]. rewrite (Hg q Hq).
    destruct (Nat.eqb q p); [|reflexivity]. rewrite (Hg p Hp), Nat.eqb_refl. reflexivity.
Qed.

(** *** CALL *)
Lemma R_tabchange : forall s a n p, R s a -> (p < N)%nat -> id p = n ->
  R (mkSt (insert n (TProg p) None (s_tab s)) (s_progs s) (s_cache s) (s_run s)
               (s_mod s) (s_tree s) (s_exc s)) a.
Proof.
  intros s a n p [H1 H2 H3 H4 H5 H6 H7 H8 H9 H10] Hp E.
  constructor; cbn [s_tab s_progs s_cache s_run s_mod s_tree s_exc]; auto.
  - apply insert_ok; auto.
  - intros m e. rewrite entries_insert by auto. destruct (beq m n) eqn:Eb; [|apply H7].
    apply beq_eq in Eb; subst m. intros [<-|I]; [|apply H7; exact I].
    right. exists p. cbn [h_func h_cancel]. auto 8.
  - intros m I. rewrite entries_insert by auto. destruct (beq m n); [discriminate|apply H8; auto].
  - intros q Hq U M. destruct (H9 q Hq U M) as (e & I & Ec). exists e; split; auto.
    rewrite entries_insert by auto. destruct (beq (id q) n); [right|]; exact I.
Qed.

Definition frame (s s' : st) : Prop :=
  s_progs s' = s_progs s /\ s_run s' = s_run s /\ s_mod s' = s_mod s /\ s_tree s' = s_tree s.

Lemma resolve_R : forall s a n, R s a -> In n sys \/ good_name n ->
  exists r s', resolve env n s = Ok (r, s') /\ R s' a /\ frame s s' /\
    r = (if in_names n sys then Some (TSys n)
         else match callee env n with Some p => Some (TProg p) | None => None end).
Proof.
  intros s a n H K. unfold resolve. rewrite lookup_entries.
  assert (Old := R_ent s a H n). assert (Sy := R_sys s a H n).
  destruct (entries n (s_tab s)) as [|e l].
  - destruct (in_names n sys) eqn:Ei.
    { apply in_names_In in Ei. exfalso. apply (Sy Ei). reflexivity. }
    assert (Gn : good_name n).
    { destruct K as [K|K]; auto. apply in_names_In in K. congruence. }
    rewrite (sym_callee n Gn).
    replace (1024 <=? Z.of_nat (length (encode n))) with false.
    2:{ symmetry. apply Z.leb_gt. destruct Gn as [_ L]. pose proof (encode_len n). lia. }
    destruct (callee env n) as [p|] eqn:Ec.
    + destruct (callee_some n p Ec) as [Lp Ip]. eexists; eexists. split; [reflexivity|].
      split; [apply R_tabchange; auto|]. split; [|reflexivity].
      unfold frame; cbn [s_progs s_run s_mod s_tree]; auto.
    + exists None, s. split; [reflexivity|]. split; [auto|]. split; [|reflexivity].
      unfold frame; auto.
  - exists (Some (h_func e)), s. split; [reflexivity|]. split; [auto|].
    split; [unfold frame; auto|].
    destruct (Old e (or_introl eq_refl)) as [(I & F & _)|(p & Lp & Ip & F & _)].
    + apply in_names_In in I. rewrite I, F. reflexivity.
    + replace (in_names n sys) with false.
      2:{ symmetry. destruct (in_names n sys) eqn:Ei; auto. apply in_names_In in Ei.
          rewrite <- Ip in Ei. exfalso. exact (id_sys p Lp Ei). }
      rewrite <- Ip, (callee_id p Lp), F. reflexivity.
Qed.

Lemma R_setexc : forall s a b, R s a -> R (set_exc b s) (a_setexc b a).
Proof.
  intros s a b [H1 H2 H3 H4 H5 H6 H7 H8 H9 H10].
  constructor; unfold set_exc, a_setexc;
    cbn [s_tab s_progs s_cache s_run s_mod s_tree s_exc a_run a_ws a_used a_open a_exc a_hist]; auto.
Qed.

(** A CALL leads to [invoke] in a state that differs in the table and the
    cache only. *)
Lemma call_invoke : forall s a e n, R s a -> s_run s <> [] ->
  (e = ECallLit n \/ (exists f, e = ECallId f /\ n = field_name f)) ->
  In n sys \/ good_name n ->
  exists s1, R s1 a /\ frame s s1 /\
    step sys env e s = invoke env
      (if in_names n sys then Some (TSys n)
       else match callee env n with Some p => Some (TProg p) | None => None end) s1.
Proof.
  intros s a e n H Rn K1 K2. unfold step.
  destruct (s_run s) as [|q r] eqn:Er; [congruence|].
  destruct K1 as [-> | (f & -> & ->)].
  - destruct (in_names n sys) eqn:Ei.
    { exists s. split; [auto|]. split; [unfold frame; auto|]. reflexivity. }
    assert (Gn : good_name n).
    { destruct K2 as [K|K]; auto. apply in_names_In in K. congruence. }
    destruct (cached q (encode n) (s_cache s)) as [f|] eqn:Ec.
    + assert (I : In (q, encode n, f) (s_cache s)).
      { revert Ec. generalize (s_cache s). induction l as [|[[q' e'] f'] l IH]; cbn [cached]; [discriminate|].
        destruct (Nat.eqb q q' && beq (encode n) e') eqn:E.
        - apply andb_true_iff in E. destruct E as [E1 E2]. apply Nat.eqb_eq in E1. apply beq_eq in E2.
          intros X; inversion X; subst. left; reflexivity.
        - intros X; right; apply IH; exact X. }
      destruct (R_cache s a H _ _ _ I) as (p & Lp & -> & Ee).
      assert (En : n = id p).
      { apply encode_inj; auto; [apply Gn|]. apply (id_good p Lp). }
      exists s. split; [auto|]. split; [unfold frame; auto|].
      rewrite En, (callee_id p Lp). reflexivity.
    + destruct (resolve_R s a n H K2) as (r0 & s' & E & R' & (F1 & F2 & F3 & F4) & Er0).
      rewrite E. cbn [obind fst snd]. rewrite Ei in Er0.
      exists (mkSt (s_tab s') (s_progs s')
          (match r0 with Some f => (q, encode n, f) :: s_cache s' | None => s_cache s' end)
          (s_run s') (s_mod s') (s_tree s') (s_exc s')).
      split; [|split; [unfold frame; cbn [s_progs s_run s_mod s_tree]; rewrite Er in F2; rewrite Er; auto|
        rewrite <- Er0; reflexivity]].
      destruct R' as [H1 H2 H3 H4 H5 H6 H7 H8 H9 H10].
      constructor; cbn [s_tab s_progs s_cache s_run s_mod s_tree s_exc]; auto.
      intros q0 e0 f0. rewrite Er0. destruct (callee env n) as [p|] eqn:Ep; [|apply H10].
      intros [X|I]; [|apply (H10 _ _ _ I)]. inversion X; subst q0 e0 f0.
      destruct (callee_some n p Ep) as [Lp Ip]. exists p. cbv beta. cbv beta in Ip.
      rewrite Ip. auto.
  - destruct (resolve_R s a (field_name f) H K2) as (r0 & s' & E & R' & F & Er0).
    rewrite E. cbn [obind fst snd]. exists s'. rewrite <- Er0.
    split; [auto|]. split; [auto|]. reflexivity.
Qed.

(** *** One statement *)
Lemma step_R : forall s a e s', R s a -> good_ev sys e -> step sys env e s = Ok s' ->
  (e <> ECancelAll -> R s' (a_step sys env e a)) /\
  (e = ECancelAll -> a_run a <> [] -> exists l, all_names (s_tree s) = Ok l /\
     R s' (a_cancel env (fun p => in_names (id p) (map field_name l)) a)).
Proof.
  intros s a e s' H K E.
  destruct (a_run a) as [|q r] eqn:Er.
  { unfold step in E. rewrite (R_run s a H), Er in E. inversion E; subst s'.
    split; [|congruence]. intros _. unfold a_step. rewrite Er. exact H. }
  assert (Es : s_run s = q :: r) by (rewrite (R_run s a H); exact Er).
  assert (Hq : (q < N)%nat) by (apply (R_lt s a H); rewrite Er; left; reflexivity).
  assert (Call : forall n, (e = ECallLit n \/ (exists f, e = ECallId f /\ n = field_name f)) ->
     In n sys \/ good_name n -> R s' (a_call sys env n a)).
  { intros n K1 K2. destruct (call_invoke s a e n H ltac:(rewrite Es; discriminate) K1 K2)
      as (s1 & R1 & F & E1). rewrite E1 in E. unfold a_call.
    destruct (in_names n sys).
    - cbn [invoke] in E. inversion E; subst s'. apply R_setexc; auto.
    - destruct (callee env n) as [p|] eqn:Ep; cbn [invoke] in E.
      + apply callee_some in Ep. apply (enter_R s1 a p s' R1 (proj1 Ep) E).
      + inversion E; subst s'. apply R_setexc; auto. }
  destruct e as [n|f|f| |v| | | ].
  1-2: split; [intros _|discriminate]; unfold a_step; rewrite Er; apply Call; auto; right; eauto.
  - split; [|discriminate]. intros _. unfold step in E. rewrite Es in E. inversion E; subst s'.
    unfold a_step; rewrite Er. apply (cancel_R s a _ H).
  - split; [congruence|]. intros _ _. unfold step in E. rewrite Es in E.
    destruct (all_names (s_tree s)) as [l| |]; try discriminate. cbn [obind] in E.
    inversion E; subst s'. exists l; split; [reflexivity|]. apply (cancels_R l s a H).
  - split; [|discriminate]. intros _. unfold step in E. rewrite Es in E. cbv zeta in E.
    inversion E; subst s'. unfold a_step; rewrite Er.
    destruct H as [H1 H2 H3 H4 H5 H6 H7 H8 H9 H10]. 
    constructor; cbn [a_run a_ws a_used a_open a_exc a_hist]; auto; try congruence.
    + unfold set_pst; cbn [s_progs]. rewrite lupd_len; auto.
    + intros p I; apply H4; rewrite Er; exact I.
    + intros p Hp. rewrite gpst_set by (rewrite H2; auto). unfold fupd.
      destruct (Nat.eqb_spec p q) as [->|]; [|auto]. cbn [p_inited p_ws].
      destruct (H6 q Hq); auto.
  - split; [|discriminate]. intros _. unfold step in E. rewrite Es in E.
    destruct (g_dec (gprog env q) && negb (p_decok (gpst s q))); [discriminate|].
    inversion E; subst s'. unfold a_step; rewrite Er. exact H.
  - split; [|discriminate]. intros _. unfold step in E. rewrite Es in E. cbv zeta in E.
    inversion E; subst s'. unfold a_step; rewrite Er.
    destruct H as [H1 H2 H3 H4 H5 H6 H7 H8 H9 H10].
    constructor; cbn [a_run a_ws a_used a_open a_exc a_hist]; auto; try congruence.
    + unfold set_pst; cbn [s_progs]. rewrite lupd_len; auto.
    + intros p I; apply H4; rewrite Er; exact I.
    + intros p Hp. rewrite gpst_set by (rewrite H2; auto).
      destruct (Nat.eqb_spec p q) as [->|]; [|auto]. cbn [p_inited p_ws]. apply H6; auto.
  - split; [|discriminate]. intros _. unfold step in E. rewrite Es in E.
    destruct (pop_tree (s_tree s)) as [t| |]; try discriminate. cbn [obind] in E.
    destruct (s_mod s) as [m|]; try discriminate. inversion E; subst s'.
    unfold a_step; rewrite Er.
    destruct H as [H1 H2 H3 H4 H5 H6 H7 H8 H9 H10].
    constructor; cbn [s_tab s_progs s_cache s_run s_mod s_tree s_exc a_run a_ws a_used a_open a_exc a_hist]; auto.
    intros p I. apply H4. rewrite Er. right; exact I.
Qed.

(** *** The start *)
Lemma table0_spec : tab_ok (table0 sys) /\
  (forall n e, In e (entries n (table0 sys)) -> In n sys /\ h_func e = TSys n /\ h_cancel e = None) /\
  (forall n, In n sys -> entries n (table0 sys) <> []).
Proof.
  unfold table0.
  assert (Gen : forall l t, tab_ok t ->
     (forall n e, In e (entries n t) -> In n sys /\ h_func e = TSys n /\ h_cancel e = None) ->
     (forall n, In n l -> In n sys) ->
     let t' := fold_left (fun t n => insert n (TSys n) None t) l t in
     tab_ok t' /\
     (forall n e, In e (entries n t') -> In n sys /\ h_func e = TSys n /\ h_cancel e = None) /\
     (forall n, In n l \/ entries n t <> [] -> entries n t' <> [])).
  { induction l as [|m l IH]; intros t T He Hl; cbn [fold_left].
    - cbv zeta. split; [auto|]. split; [auto|]. intros n [[]|X]; auto.
    - destruct (IH (insert m (TSys m) None t)) as (A & B & C).
      + apply insert_ok; auto.
      + intros n e. rewrite entries_insert by auto. destruct (beq n m) eqn:Eb; [|apply He].
        apply beq_eq in Eb; subst n. intros [<-|I]; [|apply He; auto].
        cbn [h_func h_cancel]. split; [apply Hl; left; reflexivity|auto].
      + intros n I; apply Hl; right; exact I.
      + cbv zeta in *. split; [auto|]. split; [auto|].
        intros n [[<-|I]|X]; apply C; auto; right; rewrite entries_insert by auto.
        * rewrite beq_refl. discriminate.
        * destruct (beq n m); [discriminate|auto]. }
  assert (E0 : forall n, bucket (repeat [] 131) n = []).
  { intros n. unfold bucket. generalize (hash n) 131%nat. 
    induction n0 as [|i IH]; intros [|k]; cbn [repeat nth]; auto. }
  destruct (Gen sys (repeat [] 131)) as (A & B & C).
  - split; [reflexivity|]. intros i e I. exfalso. revert i I. generalize 131%nat.
    induction n as [|k IH]; intros [|i]; cbn [repeat nth In]; auto. apply IH.
  - intros n e I. unfold entries in I. rewrite E0 in I. destruct I.
  - auto.
  - split; [auto|]. split; [auto|]. intros n I. apply C; auto.
Qed.

Lemma start_R : forall m s, (m < N)%nat -> start sys env m = Ok s ->
  R s (a_start env m) /\ s_mod s = Some m /\
  push_tree (encode (id m)) tree0 = Ok (s_tree s) /\
  forall q, (q < N)%nat ->
    p_open (gpst s q) = false /\ p_next (gpst s q) = None /\
    (p_inited (gpst s q) = true -> p_decok (gpst s q) = true).
Proof.
  intros m s Hm E. unfold start in E. destruct table0_spec as (A & B & C).
  set (s0 := mkSt (table0 sys) (repeat pst0 N) [] [] None tree0 false) in *.
  assert (P0 : forall p, gpst s0 p = pst0).
  { intros p. unfold gpst, s0; cbn [s_progs]. apply nth_repeat. }
  assert (R0 : R s0 (mkAbs [] (fun _ => []) (fun _ => false) (fun _ => false) false [])).
  { constructor; cbn [a_run a_ws a_used a_open a_exc a_hist]; auto.
    - unfold s0; cbn [s_progs]. apply repeat_length.
    - intros p [].
    - intros p _. rewrite P0. auto.
    - intros p _ X. discriminate.
    - unfold s0; cbn [s_cache]. intros q e f []. }
  destruct (enter_R _ _ m s R0 Hm E) as (R1 & M1 & T1 & Q1).
  split; [exact R1|]. split; [exact M1|]. split; [exact T1|].
  intros q Hq. rewrite (Q1 q Hq), !P0. destruct (Nat.eqb q m); cbn; auto.
Qed.

End Sim.
