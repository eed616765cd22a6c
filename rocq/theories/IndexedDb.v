(** Facts on the byte order and the databases of Indexed.v. *)
From Coq Require Import Permutation Sorted.
From Verif Require Import Base FileIO Indexed SpecIndexed.
Local Open Scope Z_scope.

(** ** Byte order *)
Lemma bcmp_refl a : bcmp a a = Eq.
Proof. induction a as [|x a IH]; cbn; [easy|]. now rewrite Z.compare_refl. Qed.
Lemma bcmp_eq a b : bcmp a b = Eq -> a = b.
Proof.
  revert b; induction a as [|x a IH]; intros [|y b]; cbn; try easy.
  destruct (Z.compare_spec x y); try easy. intro X. f_equal; auto.
Qed.
Lemma bcmp_opp a b : bcmp b a = CompOpp (bcmp a b).
Proof.
  revert b; induction a as [|x a IH]; intros [|y b]; cbn; try easy.
  rewrite (Z.compare_antisym x y). destruct (x ?= y); cbn; auto.
Qed.
Lemma bcmp_trans a b c : bcmp a b = Lt -> bcmp b c = Lt -> bcmp a c = Lt.
Proof.
  revert b c; induction a as [|x a IH]; intros [|y b] [|z c]; cbn; try easy.
  destruct (Z.compare_spec x y) as [E1|E1|E1], (Z.compare_spec y z) as [E2|E2|E2]; try easy; intros A B.
  - assert (X : (x ?= z) = Eq) by (apply Z.compare_eq_iff; lia). rewrite X. eauto.
  - assert (X : (x ?= z) = Lt) by (apply Z.compare_lt_iff; lia). now rewrite X.
  - assert (X : (x ?= z) = Lt) by (apply Z.compare_lt_iff; lia). now rewrite X.
  - assert (X : (x ?= z) = Lt) by (apply Z.compare_lt_iff; lia). now rewrite X.
Qed.

Lemma beq_spec a b : reflect (a = b) (beq a b).
Proof.
  unfold beq. destruct (bcmp a b) eqn:E; constructor.
  - now apply bcmp_eq.
  - intros ->. rewrite bcmp_refl in E. easy.
  - intros ->. rewrite bcmp_refl in E. easy.
Qed.
Lemma beq_refl a : beq a a = true.
Proof. destruct (beq_spec a a); congruence. Qed.
Lemma beq_true a b : beq a b = true <-> a = b.
Proof. destruct (beq_spec a b); split; congruence. Qed.
Lemma beq_false a b : beq a b = false <-> a <> b.
Proof. destruct (beq_spec a b); split; congruence. Qed.
Lemma beq_sym a b : beq a b = beq b a.
Proof. destruct (beq_spec a b), (beq_spec b a); congruence. Qed.

Lemma blt_irrefl a : blt a a = false.
Proof. unfold blt. now rewrite bcmp_refl. Qed.
Lemma blt_trans a b c : blt a b = true -> blt b c = true -> blt a c = true.
Proof.
  unfold blt. destruct (bcmp a b) eqn:A; try easy. destruct (bcmp b c) eqn:B; try easy.
  now rewrite (bcmp_trans _ _ _ A B).
Qed.
Lemma blt_asym a b : blt a b = true -> blt b a = false.
Proof. unfold blt. rewrite (bcmp_opp a b). now destruct (bcmp a b). Qed.
Lemma blt_total a b : blt a b = true \/ a = b \/ blt b a = true.
Proof.
  unfold blt. rewrite (bcmp_opp a b). destruct (bcmp a b) eqn:E; cbn; auto.
  right; left. now apply bcmp_eq.
Qed.
Lemma blt_neq a b : blt a b = true -> a <> b.
Proof. intros A ->. rewrite blt_irrefl in A. easy. Qed.
Lemma blt_false_trans a b c : blt b a = false -> blt c b = false -> blt c a = false.
Proof.
  intros A B. destruct (blt c a) eqn:E; [|easy]. exfalso.
  destruct (blt_total a b) as [X|[X|X]].
  - rewrite (blt_trans _ _ _ E X) in B. easy.
  - subst. congruence.
  - congruence.
Qed.
Lemma blt_le_trans a b c : blt a b = true -> blt c b = false -> blt a c = true.
Proof.
  intros A B. destruct (blt_total b c) as [X|[X|X]].
  - eapply blt_trans; eauto.
  - now subst.
  - congruence.
Qed.
Lemma ble_lt_trans a b c : blt b a = false -> blt b c = true -> blt a c = true.
Proof.
  intros A B. destruct (blt_total a b) as [X|[X|X]].
  - eapply blt_trans; eauto.
  - now subst.
  - congruence.
Qed.

(** A leading part. *)
Lemma bcmp_prefix x kv : (length kv <= length x)%nat ->
  blt x kv = blt (firstn (length kv) x) kv.
Proof.
  revert x; induction kv as [|k kv IH]; intros [|y x] L; cbn [length] in L; try lia; auto.
  cbn [firstn length]. unfold blt in *. cbn [bcmp].
  destruct (y ?= k) eqn:E; auto. apply IH. lia.
Qed.
Lemma firstn_mono n x y : blt y x = false -> blt (firstn n y) (firstn n x) = false.
Proof.
  revert x y; induction n as [|n IH]; intros [|a x] [|b y]; auto.
  cbn [firstn]. unfold blt in *. cbn [bcmp].
  destruct (b ?= a) eqn:E; auto.
Qed.

(** ** Order of the entries of an index *)
Definition elt (dup : bool) (e1 e2 : ent) : bool :=
  blt (e_key e1) (e_key e2) || (beq (e_key e1) (e_key e2) && (dup && (e_dup e1 <? e_dup e2))).
Definition esorted (dup : bool) (l : db) : Prop := StronglySorted (fun a b => elt dup a b = true) l.

Lemma elt_irrefl d e : elt d e e = false.
Proof. unfold elt. rewrite blt_irrefl, beq_refl, Z.ltb_irrefl. now destruct d. Qed.
Lemma elt_trans d a b c : elt d a b = true -> elt d b c = true -> elt d a c = true.
Proof.
  unfold elt. intros A B. apply orb_true_iff in A, B. apply orb_true_iff.
  destruct A as [A|A], B as [B|B].
  - left. eapply blt_trans; eauto.
  - apply andb_true_iff in B as [B _]. apply beq_true in B. left. now rewrite <- B.
  - apply andb_true_iff in A as [A _]. apply beq_true in A. left. now rewrite A.
  - right. apply andb_true_iff in A as [A A2]. apply andb_true_iff in B as [B B2].
    apply beq_true in A, B. apply andb_true_iff in A2 as [D A2]. apply andb_true_iff in B2 as [_ B2].
    rewrite A, B, beq_refl, D. cbn [andb]. apply Z.ltb_lt in A2, B2. apply Z.ltb_lt. lia.
Qed.
Lemma elt_key d a b : elt d a b = true -> blt (e_key b) (e_key a) = false.
Proof.
  unfold elt. intro A. apply orb_true_iff in A as [A|A]; [now apply blt_asym|].
  apply andb_true_iff in A as [A _]. apply beq_true in A. rewrite A. apply blt_irrefl.
Qed.
Lemma elt_nodup a b : elt false a b = blt (e_key a) (e_key b).
Proof. unfold elt. cbn [andb]. now rewrite andb_false_r, orb_false_r. Qed.

Lemma ss_app {A} (R : A -> A -> Prop) l1 l2 :
  StronglySorted R (l1 ++ l2) <->
  StronglySorted R l1 /\ StronglySorted R l2 /\ Forall (fun a => Forall (R a) l2) l1.
Proof.
  induction l1 as [|x l1 IH]; cbn [app].
  - split; [intro; split; [constructor|split; auto]|tauto].
  - split.
    + intro S. inversion S as [|? ? S1 F]; subst. apply IH in S1 as (S1 & S2 & F2).
      apply Forall_app in F as [Fa Fb]. split; [constructor; auto|]. split; auto.
    + intros (S1 & S2 & F). inversion S1 as [|? ? S1' F1]; subst. inversion F as [|? ? Fx F']; subst.
      constructor; [apply IH; auto|apply Forall_app; auto].
Qed.
Lemma ss_filter {A} (R : A -> A -> Prop) q l : StronglySorted R l -> StronglySorted R (filter q l).
Proof.
  induction 1 as [|x l S IH F]; cbn; [constructor|].
  destruct (q x); auto. constructor; auto.
  apply Forall_forall. intros y Y. apply filter_In in Y as [Y _]. rewrite Forall_forall in F. auto.
Qed.

Lemma filter_same {A} (q : A -> bool) l : forallb q l = true -> filter q l = l.
Proof.
  induction l as [|x l IH]; cbn; auto. intro H. apply andb_true_iff in H as [-> H]. now rewrite IH.
Qed.

(** ** Cursors *)
Definition whole (c : cursor) : list ent := let '(pre, e, post) := c in rev pre ++ e :: post.

Lemma db_find_some q pre l c : db_find q pre l = Some c ->
  exists a e post, l = a ++ e :: post /\ c = (rev a ++ pre, e, post) /\
    Forall (fun x => q (e_key x) = false) a /\ q (e_key e) = true.
Proof.
  revert pre; induction l as [|x l IH]; intros pre H; cbn [db_find] in H; [easy|].
  destruct (q (e_key x)) eqn:Q.
  - injection H as <-. exists [], x, l. auto.
  - apply IH in H as (a & e & post & -> & -> & F & Qe).
    exists (x :: a), e, post. cbn [rev app]. rewrite <- app_assoc. auto.
Qed.
Lemma db_find_none q pre l : db_find q pre l = None -> Forall (fun x => q (e_key x) = false) l.
Proof.
  revert pre; induction l as [|x l IH]; intros pre H; cbn [db_find] in H; [constructor|].
  destruct (q (e_key x)) eqn:Q; [easy|]. constructor; eauto.
Qed.
Lemma db_find_split q pre a e post :
  Forall (fun x => q (e_key x) = false) a -> q (e_key e) = true ->
  db_find q pre (a ++ e :: post) = Some (rev a ++ pre, e, post).
Proof.
  revert pre; induction a as [|x a IH]; intros pre F Q; cbn [app db_find rev].
  - now rewrite Q.
  - inversion F as [|? ? Fx F']; subst. rewrite Fx, IH; auto. now rewrite <- app_assoc.
Qed.
Lemma db_find_all_none q pre l : Forall (fun x => q (e_key x) = false) l -> db_find q pre l = None.
Proof.
  revert pre; induction l as [|x l IH]; intros pre F; cbn [db_find]; auto.
  inversion F as [|? ? Fx F']; subst. rewrite Fx. auto.
Qed.

Lemma find_split {A} (q : A -> bool) a e post :
  Forall (fun x => q x = false) a -> q e = true -> find q (a ++ e :: post) = Some e.
Proof.
  induction a as [|x a IH]; intros F Q; cbn; [now rewrite Q|].
  inversion F as [|? ? Fx F']; subst. rewrite Fx. auto.
Qed.
Lemma find_none_all {A} (q : A -> bool) l : Forall (fun x => q x = false) l -> find q l = None.
Proof. induction 1 as [|x l Q F IH]; cbn; auto. now rewrite Q. Qed.

(** DB->get and DB_SET. *)
Lemma db_set_in k l e : In e l -> e_key e = k -> exists c, db_set k l = Some c /\ e_key (c_ent c) = k /\ In (c_ent c) l.
Proof.
  intros I E. unfold db_set. destruct (db_find (fun x => beq x k) [] l) as [c|] eqn:F.
  - apply db_find_some in F as (a & x & post & -> & -> & _ & Q). cbn [c_ent fst snd].
    eexists; split; [reflexivity|]. cbn [c_ent fst snd]. apply beq_true in Q. split; auto.
    apply in_or_app; right; left; auto.
  - apply db_find_none in F. rewrite Forall_forall in F. apply F in I. rewrite E, beq_refl in I. easy.
Qed.
Lemma db_set_none k l : db_set k l = None <-> (forall e, In e l -> e_key e <> k).
Proof.
  unfold db_set; split; intro H.
  - apply db_find_none in H. rewrite Forall_forall in H. intros e I E. apply H in I. rewrite E, beq_refl in I. easy.
  - apply db_find_all_none. apply Forall_forall. intros e I. apply beq_false. auto.
Qed.
Lemma db_set_some k l c : db_set k l = Some c ->
  exists a e post, l = a ++ e :: post /\ c = (rev a, e, post) /\
    Forall (fun x => e_key x <> k) a /\ e_key e = k.
Proof.
  intro H. unfold db_set in H. apply db_find_some in H as (a & e & post & -> & -> & F & Q).
  exists a, e, post. rewrite app_nil_r. apply beq_true in Q. repeat split; auto.
  eapply Forall_impl; [|exact F]. cbn. intros x X. now apply beq_false.
Qed.
Lemma db_set_split k a e post : Forall (fun x => e_key x <> k) a -> e_key e = k ->
  db_set k (a ++ e :: post) = Some (rev a, e, post).
Proof.
  intros F E. unfold db_set. rewrite db_find_split.
  - now rewrite app_nil_r.
  - eapply Forall_impl; [|exact F]. cbn. intros x X. now apply beq_false.
  - now apply beq_true.
Qed.

(** Strictly sorted primary index. *)
Lemma psorted_split a e post : esorted false (a ++ e :: post) ->
  Forall (fun x => blt (e_key x) (e_key e) = true) a /\ Forall (fun x => blt (e_key e) (e_key x) = true) post.
Proof.
  intro S. apply ss_app in S as (_ & S2 & F). inversion S2 as [|? ? S2' F2]; subst. split.
  - eapply Forall_impl; [|exact F]. intros x X. inversion X; subst. rewrite <- elt_nodup. auto.
  - eapply Forall_impl; [|exact F2]. intros x X. now rewrite <- elt_nodup.
Qed.
Lemma psorted_unique l e1 e2 : esorted false l -> In e1 l -> In e2 l -> e_key e1 = e_key e2 -> e1 = e2.
Proof.
  intros S I1 I2 E. apply in_split in I1 as (a & post & ->). apply psorted_split in S as [Fa Fp].
  apply in_app_or in I2 as [I2|[I2|I2]]; auto.
  - rewrite Forall_forall in Fa. apply Fa in I2. apply blt_neq in I2. congruence.
  - rewrite Forall_forall in Fp. apply Fp in I2. apply blt_neq in I2. congruence.
Qed.
Lemma rec_at_in l e : esorted false l -> In e l -> rec_at l (e_key e) = Some (e_prim e).
Proof.
  intros S I. unfold rec_at. destruct (db_set_in (e_key e) l e I eq_refl) as (c & -> & K & I2).
  rewrite (psorted_unique l (c_ent c) e S I2 I K). reflexivity.
Qed.
Lemma rec_at_some l k r : rec_at l k = Some r -> exists e, In e l /\ e_key e = k /\ e_prim e = r.
Proof.
  unfold rec_at. destruct (db_set k l) as [c|] eqn:E; [|easy]. intro X. injection X as <-.
  apply db_set_some in E as (a & e & post & -> & -> & _ & K). exists e. cbn [c_ent fst snd]. repeat split; auto.
  apply in_or_app; right; left; auto.
Qed.
Lemma rec_at_none l k : rec_at l k = None <-> (forall e, In e l -> e_key e <> k).
Proof.
  rewrite <- db_set_none. unfold rec_at. destruct (db_set k l); split; easy.
Qed.

(** ** Insertion *)
Lemma db_insert_split e l :
  exists a b, l = a ++ b /\ db_insert e l = a ++ e :: b /\
    Forall (fun x => blt (e_key e) (e_key x) = false) a /\
    match b with [] => True | x :: _ => blt (e_key e) (e_key x) = true end.
Proof.
  induction l as [|x l IH]; cbn [db_insert].
  - exists [], []. auto.
  - destruct (blt (e_key e) (e_key x)) eqn:B.
    + exists [], (x :: l). auto.
    + destruct IH as (a & b & -> & E & F & H). exists (x :: a), b. cbn [app]. rewrite E. auto.
Qed.
Lemma db_insert_in e l x : In x (db_insert e l) <-> x = e \/ In x l.
Proof.
  destruct (db_insert_split e l) as (a & b & -> & -> & _). rewrite !in_app_iff. cbn [In]. intuition.
Qed.
Lemma db_insert_perm e l : Permutation (e :: l) (db_insert e l).
Proof.
  destruct (db_insert_split e l) as (a & b & -> & -> & _). apply Permutation_middle.
Qed.
Lemma db_insert_sorted dup e l : esorted dup l ->
  (forall x, In x l -> e_key x = e_key e -> dup = true /\ e_dup x < e_dup e) ->
  esorted dup (db_insert e l).
Proof.
  intros S H. destruct (db_insert_split e l) as (a & b & -> & -> & Fa & Hb).
  unfold esorted in *. apply ss_app in S as (Sa & Sb & Fab). apply ss_app. split; [auto|]. split.
  - constructor; auto. destruct b as [|y b]; [constructor|].
    assert (Y : elt dup e y = true) by (unfold elt; now rewrite Hb).
    constructor; auto. inversion Sb as [|? ? _ Fy]; subst. eapply Forall_impl; [|exact Fy].
    intros z Z. eapply elt_trans; eauto.
  - apply Forall_forall. intros x X. rewrite Forall_forall in Fab, Fa. constructor; [|auto].
    specialize (Fa x X). unfold elt.
    destruct (blt_total (e_key x) (e_key e)) as [L|[L|L]]; [now rewrite L| |congruence].
    destruct (H x) as [-> D]; auto. { apply in_or_app; auto. }
    rewrite L, beq_refl, blt_irrefl. cbn [orb andb]. now apply Z.ltb_lt.
Qed.

(** get_dupno is above the numbers of the duplicates. *)
Lemma last_dup_ge k n l : esorted true l -> (forall e, In e l -> e_key e = k -> n < e_dup e) ->
  n <= last_dup k n l /\
  (forall e a b, l = a ++ e :: b -> Forall (fun x => e_key x = k) a -> e_key e = k -> e_dup e <= last_dup k n l).
Proof.
  revert n; induction l as [|x l IH]; intros n S H; cbn [last_dup].
  - split; [lia|]. intros e [|? a] b X; discriminate.
  - inversion S as [|? ? S' F]; subst.
    destruct (beq_spec (e_key x) k) as [E|E].
    + assert (Hx : n < e_dup x) by (apply H; [left|]; auto).
      assert (Hl : forall e, In e l -> e_key e = k -> e_dup x < e_dup e).
      { intros e I K. rewrite Forall_forall in F. specialize (F e I). unfold elt in F.
        rewrite E, K, blt_irrefl, beq_refl in F. cbn [orb andb] in F. now apply Z.ltb_lt. }
      destruct (IH (e_dup x) S' Hl) as [G1 G2]. split; [lia|].
      intros e a b X Fa Ke. destruct a as [|y a]; cbn [app] in X; injection X as -> ->; [lia|].
      inversion Fa; subst. eapply G2; eauto.
    + split; [lia|]. intros e a b X Fa Ke. destruct a as [|y a]; cbn [app] in X; injection X as -> ->; [congruence|].
      inversion Fa; subst. congruence.
Qed.

Lemma esorted_keys dup l a b : esorted dup (a ++ b) -> l = a ++ b ->
  forall x y, In x a -> In y b -> blt (e_key y) (e_key x) = false.
Proof.
  intros S -> x y X Y. apply ss_app in S as (_ & _ & F). rewrite Forall_forall in F.
  specialize (F x X). rewrite Forall_forall in F. eapply elt_key; eauto.
Qed.

Lemma set_range_some k l c : db_set_range k l = Some c ->
  exists a e post, l = a ++ e :: post /\ c = (rev a, e, post) /\
    Forall (fun x => blt (e_key x) k = true) a /\ blt (e_key e) k = false.
Proof.
  intro H. unfold db_set_range in H. apply db_find_some in H as (a & e & post & -> & -> & F & Q).
  exists a, e, post. rewrite app_nil_r. repeat split; auto.
  - eapply Forall_impl; [|exact F]. cbn. intros x X. now apply negb_false_iff.
  - now apply negb_true_iff.
Qed.
Lemma set_range_none k l : db_set_range k l = None -> Forall (fun x => blt (e_key x) k = true) l.
Proof.
  intro H. unfold db_set_range in H. apply db_find_none in H.
  eapply Forall_impl; [|exact H]. cbn. intros x X. now apply negb_false_iff.
Qed.

Lemma sorted_eq_run dup k e post : esorted dup (e :: post) -> blt (e_key e) k = false ->
  forall x a b, e :: post = a ++ x :: b -> e_key x = k -> Forall (fun y => e_key y = k) a.
Proof.
  intros S L x a b X K. apply Forall_forall. intros y Y.
  assert (A1 : blt (e_key x) (e_key y) = false).
  { rewrite X in S. eapply esorted_keys with (a := a) (b := x :: b); eauto. left; auto. }
  assert (A2 : blt (e_key y) k = false).
  { destruct a as [|z a]; [destruct Y|]. cbn [app] in X. injection X as -> X.
    destruct Y as [->|Y]; auto. rewrite X in S. clear X.
    change (z :: a ++ x :: b) with ((z :: a) ++ x :: b) in S.
    assert (A3 : blt (e_key y) (e_key z) = false).
    { change ((z :: a) ++ x :: b) with ([z] ++ (a ++ x :: b)) in S.
      eapply esorted_keys with (a := [z]) (b := a ++ x :: b); eauto; [left; auto|apply in_or_app; auto]. }
    eapply blt_false_trans; eauto. }
  rewrite K in A1. destruct (blt_total (e_key y) k) as [Z|[Z|Z]]; congruence.
Qed.

Lemma get_dupno_gt k l : esorted true l -> (forall e, In e l -> 0 < e_dup e) ->
  0 < get_dupno k l /\ (forall e, In e l -> e_key e = k -> e_dup e < get_dupno k l).
Proof.
  intros S P. unfold get_dupno. destruct (db_set_range k l) as [c|] eqn:E.
  - apply set_range_some in E as (a & e & post & -> & -> & Fa & Le).
    apply ss_app in S as (Sa & Sb & Fab).
    destruct (last_dup_ge k 0 (e :: post)) as [G1 G2]; auto.
    { intros x I _. apply P. apply in_or_app; auto. }
    split; [lia|]. intros x I K. apply in_app_or in I as [I|I].
    + rewrite Forall_forall in Fa. specialize (Fa x I). rewrite K, blt_irrefl in Fa. easy.
    + apply in_split in I as (a1 & b1 & X).
      assert (F1 : Forall (fun y => e_key y = k) a1) by (eapply sorted_eq_run; eauto).
      specialize (G2 x a1 b1 X F1 K). lia.
  - apply set_range_none in E. split; [lia|]. intros x I K.
    rewrite Forall_forall in E. specialize (E x I). rewrite K, blt_irrefl in E. easy.
Qed.

(** ** Deletion *)
Lemma sweep_filter dup k prim l : esorted dup l -> Forall (fun x => blt (e_key x) k = false) l ->
  sweep k prim l = filter (fun e => negb (beq (e_key e) k && beq (e_prim e) prim)) l.
Proof.
  induction l as [|x l IH]; intros S F; cbn [sweep filter]; auto.
  inversion S as [|? ? S' Fx]; subst. inversion F as [|? ? F1 F']; subst.
  destruct (beq_spec (e_key x) k) as [E|E]; cbn [andb].
  - rewrite IH by auto. destruct (beq (e_prim x) prim); reflexivity.
  - cbn [negb]. f_equal. symmetry. apply filter_same. apply forallb_forall.
    intros y Y. apply negb_true_iff. destruct (beq_spec (e_key y) k) as [E2|E2]; auto.
    exfalso. rewrite Forall_forall in Fx. specialize (Fx y Y). apply elt_key in Fx. rewrite E2 in Fx.
    destruct (blt_total (e_key x) k) as [Z|[Z|Z]]; congruence.
Qed.
Lemma del_dup_filter dup k prim l : esorted dup l ->
  del_dup k prim l = filter (fun e => negb (beq (e_key e) k && beq (e_prim e) prim)) l.
Proof.
  intro S. unfold del_dup. destruct (db_set_range k l) as [c|] eqn:E.
  - apply set_range_some in E as (a & e & post & -> & -> & Fa & Le).
    rewrite rev_involutive, filter_app. f_equal.
    + symmetry. apply filter_same. apply forallb_forall. intros y Y. apply negb_true_iff.
      rewrite Forall_forall in Fa. specialize (Fa y Y). destruct (beq_spec (e_key y) k) as [E2|E2]; auto.
      rewrite E2, blt_irrefl in Fa. easy.
    + apply ss_app in S as (_ & S & _). apply sweep_filter with (dup := dup); auto.
      constructor; auto. inversion S as [|? ? _ F]; subst. eapply Forall_impl; [|exact F].
      intros y Y. apply elt_key in Y. eapply blt_false_trans; eauto.
  - apply set_range_none in E. symmetry. apply filter_same. apply forallb_forall. intros y Y. apply negb_true_iff.
    rewrite Forall_forall in E. specialize (E y Y). destruct (beq_spec (e_key y) k) as [E2|E2]; auto.
    rewrite E2, blt_irrefl in E. easy.
Qed.
Lemma c_del_filter k l c : esorted false l -> db_set k l = Some c ->
  c_del c = filter (fun e => negb (beq (e_key e) k)) l.
Proof.
  intros S H. apply db_set_some in H as (a & e & post & -> & -> & F & K).
  cbn [c_del]. rewrite rev_involutive, filter_app. cbn [filter]. rewrite K, beq_refl. cbn [negb].
  apply psorted_split in S as [Sa Sp]. rewrite K in *. f_equal; symmetry; apply filter_same; apply forallb_forall; intros y Y; apply negb_true_iff, beq_false.
  - rewrite Forall_forall in F. auto.
  - rewrite Forall_forall in Sp. specialize (Sp y Y). apply blt_neq in Sp. congruence.
Qed.
