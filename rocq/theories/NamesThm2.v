(** Every entry keeps the tree what the level numbers say. *)
From Verif Require Import Base Names SpecNames NamesThm.
Local Open Scope Z_scope.

Lemma filter_snoc : forall (A : Type) (f : A -> bool) l x,
  filter f (l ++ [x]) = filter f l ++ (if f x then [x] else []).
Proof. intros. rewrite filter_app. cbn [filter]. now destruct (f x). Qed.
Lemma filter_same : forall (A : Type) (f g : A -> bool) l, (forall x, In x l -> f x = g x) -> filter f l = filter g l.
Proof.
  induction l as [|a l IH]; intros H; [reflexivity|]. cbn [filter].
  rewrite (H a) by (left; reflexivity). rewrite IH; [reflexivity|]. intros; apply H; now right.
Qed.

Definition kid_of (nd : node) (p : nat) : bool :=
  ordb (n_level nd) && match n_parent nd with Some q => Nat.eqb q p | None => false end.
Definition keeps (ns ns' : list node) : Prop :=
  forall i, (i < length ns)%nat -> n_level (get ns' i) = n_level (get ns i) /\
    n_name (get ns' i) = n_name (get ns i) /\ n_parent (get ns' i) = n_parent (get ns i).

Lemma kids_snoc : forall ns ns' p, length ns' = S (length ns) -> keeps ns ns' ->
  kids ns' p = kids ns p ++ (if kid_of (get ns' (length ns)) p then [length ns] else []).
Proof.
  intros ns ns' p L K. unfold kids at 1. rewrite L, seq_S, filter_snoc. cbn [plus]. f_equal.
  unfold kids. apply filter_same. intros x Hx. apply in_seq in Hx.
  destruct (K x) as (A & B & C); [lia|]. now rewrite A, C.
Qed.
Lemma tops_snoc : forall ns ns', length ns' = S (length ns) -> keeps ns ns' ->
  tops ns' = tops ns ++ (if top (n_level (get ns' (length ns))) then [length ns] else []).
Proof.
  intros ns ns' L K. unfold tops at 1. rewrite L, seq_S, filter_snoc. cbn [plus]. f_equal.
  unfold tops. apply filter_same. intros x Hx. apply in_seq in Hx.
  destruct (K x) as (A & B & C); [lia|]. now rewrite A.
Qed.

Lemma kids_in : forall es ns, inv es ns -> forall p i,
  In i (kids ns p) <-> parent_of es i p /\ ~ is_cond (level es i).
Proof.
  intros es ns I p i. unfold kids. rewrite filter_In, in_seq, (iv_len _ _ I). cbn [plus]. split.
  - intros ((_ & L) & H). pose proof (iv_par _ _ I i L) as P. rewrite (iv_lev _ _ I i L) in H.
    apply andb_prop in H. destruct H as [H1 H2]. destruct (n_parent (get ns i)) as [q|]; [|discriminate].
    apply Nat.eqb_eq in H2. subst q. split; [exact P|]. unfold ordb, is_cond in *. lia.
  - intros (P & C). pose proof (parent_lt _ _ _ P) as L. split; [lia|].
    assert (i < length es)%nat as Li by lia.
    pose proof (iv_par _ _ I i Li) as Q. rewrite (iv_lev _ _ I i Li).
    destruct (n_parent (get ns i)) as [q|].
    + rewrite (parent_unique _ _ _ _ P Q), Nat.eqb_refl, andb_true_r. unfold ordb, is_cond in *. lia.
    + elim (proj1 (proj2 P)). exact Q.
Qed.
Lemma tops_in : forall es ns, inv es ns -> forall i,
  In i (tops ns) <-> (i < length es)%nat /\ is_top (level es i).
Proof.
  intros es ns I i. unfold tops. rewrite filter_In, in_seq, (iv_len _ _ I). cbn [plus].
  split; intros (L & H).
  - rewrite (iv_lev _ _ I i) in H by lia. apply top_ok in H. split; [lia|exact H].
  - rewrite (iv_lev _ _ I i) by lia. split; [lia|]. now apply top_ok.
Qed.

Lemma filter_seq_sorted : forall f n s, Sorted lt (filter f (seq s n)).
Proof.
  intros f n. induction n as [|n IH]; intros s; cbn [seq filter]; [constructor|].
  destruct (f s); [|apply IH]. constructor; [apply IH|].
  assert (forall x, In x (filter f (seq (S s) n)) -> (s < x)%nat) as H.
  { intros x Hx. apply filter_In in Hx. destruct Hx as [Hx _]. apply in_seq in Hx. lia. }
  destruct (filter f (seq (S s) n)); constructor. apply H. now left.
Qed.
Lemma filter_seq_nodup : forall f n s, NoDup (filter f (seq s n)).
Proof. intros. apply NoDup_filter, seq_NoDup. Qed.
(** The greatest element of a sorted list is its last. *)
Lemma sorted_last : forall l x, Sorted lt l -> In x l -> (forall y, In y l -> (y <= x)%nat) ->
  exists l', l = l' ++ [x].
Proof.
  induction l as [|a l IH]; intros x S H M; [inversion H|].
  destruct l as [|b l].
  - destruct H as [-> | []]. now exists [].
  - destruct H as [-> | H].
    + exfalso. inversion S; subst. inversion H2; subst. specialize (M b (or_intror (or_introl eq_refl))). lia.
    + destruct (IH x) as [l' E]; [now inversion S|exact H|intros; apply M; now right|].
      exists (a :: l'). now rewrite E.
Qed.

Lemma valid_snoc : forall es lv nm, let e : entry := (lv, nm) in
  valid es -> (es = [] -> is_top lv) -> (1 <= lv <= 49 \/ lv = 77 \/ lv = 88) ->
  (forall p, parent_of (es ++ [e]) (length es) p -> lv <> 88 ->
     level es p <> 77 /\
     (forall j, parent_of es j p -> ~ is_cond (level es j) -> level es j = lv)) ->
  valid (es ++ [e]).
Proof.
  intros es lv nm e [V1 V2 V3 V4] Ht Hl Hp.
  assert (forall i p, parent_of (es ++ [e]) i p -> i = length es \/ parent_of es i p) as PI.
  { intros i p H. pose proof (parent_lt _ _ _ H) as L. rewrite app_length in L. cbn [length] in L.
    destruct (Nat.eq_dec i (length es)) as [E | E]; [now left|right]. apply (parent_app1 es e i p); [lia|exact H]. }
  split.
  - intros _. destruct es as [|x r]; [now apply Ht|].
    rewrite (level_app1 (x :: r)) by (cbn; lia). apply V1. discriminate.
  - intros i L. rewrite app_length in L. cbn [length] in L.
    destruct (Nat.eq_dec i (length es)) as [-> | E]; [rewrite level_app2; exact Hl|].
    rewrite level_app1 by lia. apply V2. lia.
  - intros i p H C. pose proof (parent_lt _ _ _ H) as L. rewrite app_length in L. cbn [length] in L.
    rewrite (level_app1 es e p) by lia. destruct (PI _ _ H) as [-> | H'].
    + rewrite level_app2 in C. now apply (Hp p H).
    + pose proof (parent_lt _ _ _ H'). rewrite level_app1 in C by lia. now apply (V3 i p).
  - intros i j p Hi Hj Ci Cj.
    destruct (PI _ _ Hi) as [-> | Hi']; destruct (PI _ _ Hj) as [-> | Hj']; auto.
    + pose proof (parent_lt _ _ _ Hj'). rewrite level_app2 in *. rewrite (level_app1 es e j) in * by lia.
      destruct (Hp p Hi Ci) as [_ H2]. symmetry. now apply H2.
    + pose proof (parent_lt _ _ _ Hi'). rewrite level_app2 in *. rewrite (level_app1 es e i) in * by lia.
      destruct (Hp p Hj Cj) as [_ H2]. now apply H2.
    + pose proof (parent_lt _ _ _ Hi'). pose proof (parent_lt _ _ _ Hj').
      rewrite (level_app1 es e i), (level_app1 es e j) in * by lia. now apply (V4 i j p).
Qed.

(** The invariant after appending a node [new po] to an updated [ns1]. *)
Lemma inv_snoc : forall es ns lv nm po ns1, let e : entry := (lv, nm) in
  inv es ns -> length ns1 = length ns -> keeps ns ns1 ->
  (match po with Some p => parent_of (es ++ [e]) (length es) p | None => is_top lv end) ->
  valid (es ++ [e]) ->
  let ns' := ns1 ++ [mkNode lv nm po None None] in
  (forall p, (p < length ns)%nat -> chain ns' (n_child (get ns1 p)) (kids ns' p)) ->
  chain ns' (Some 0%nat) (tops ns') ->
  inv (es ++ [e]) ns'.
Proof.
  intros es ns lv nm po ns1 e I L K P V ns' HK HT.
  pose proof (iv_len _ _ I) as Ln.
  assert (get ns' (length es) = mkNode lv nm po None None) as Gf.
  { rewrite <- Ln, <- L. apply get_app2. }
  assert (forall i, (i < length es)%nat -> get ns' i = get ns1 i) as Gi.
  { intros i Hi. apply get_app1. lia. }
  assert (forall i, (i < length (es ++ [e]))%nat -> i = length es \/ (i < length es)%nat) as Cs.
  { intros i Hi. rewrite app_length in Hi. cbn [length] in Hi. lia. }
  assert (forall i, (i < length (es ++ [e]))%nat ->
     match n_parent (get ns' i) with Some p => parent_of (es ++ [e]) i p | None => is_top (level (es ++ [e]) i) end) as HP.
  { intros i Hi. destruct (Cs i Hi) as [-> | H].
    - rewrite Gf. cbn [n_parent]. destruct po; [exact P|]. now rewrite level_app2.
    - rewrite Gi by assumption. destruct (K i) as (_ & _ & Q); [lia|]. rewrite Q.
      pose proof (iv_par _ _ I i H) as R. destruct (n_parent (get ns i)).
      + now apply parent_app1.
      + now rewrite level_app1. }
  split; auto.
  - unfold ns'. rewrite !app_length. cbn [length]. lia.
  - intros i Hi. destruct (Cs i Hi) as [-> | H].
    + now rewrite Gf, level_app2.
    + rewrite Gi, level_app1 by assumption. destruct (K i) as (Q & _ & _); [lia|]. rewrite Q. now apply (iv_lev _ _ I).
  - intros i Hi. destruct (Cs i Hi) as [-> | H].
    + now rewrite Gf, named_app2.
    + rewrite Gi, named_app1 by assumption. destruct (K i) as (_ & Q & _); [lia|]. rewrite Q. now apply (iv_name _ _ I).
  - intros p Hp. destruct (Cs p Hp) as [-> | H].
    + rewrite Gf. cbn [n_child].
      replace (kids ns' (length es)) with (@nil nat); [constructor|]. symmetry.
      unfold kids. destruct (filter _ _) as [|x r] eqn:E; [reflexivity|exfalso].
      assert (In x (x :: r)) as H by now left. rewrite <- E in H. apply filter_In in H.
      destruct H as [H1 H2]. apply in_seq in H1.
      assert (length ns' = S (length es)) as L' by (unfold ns'; rewrite app_length; cbn; lia).
      assert (x < length (es ++ [e]))%nat as Hx by (rewrite app_length; cbn [length]; lia).
      specialize (HP x Hx). destruct (n_parent (get ns' x)) as [q|].
      * apply andb_prop in H2. destruct H2 as [_ H2]. apply Nat.eqb_eq in H2. subst q.
        apply parent_lt in HP. lia.
      * apply andb_prop in H2. destruct H2. discriminate.
    + rewrite Gi by assumption. apply HK. lia.
Qed.

(** Nodes keep everything but a child or a sister. *)
Lemma set_sister_len : forall ns i c, length (set_sister ns i c) = length ns.
Proof. intros. apply put_length. Qed.
Lemma set_child_len : forall ns i c, length (set_child ns i c) = length ns.
Proof. intros. apply put_length. Qed.
Lemma keeps_sister : forall ns i c, keeps ns (set_sister ns i c).
Proof.
  intros ns i c j L. unfold set_sister. destruct (Nat.eq_dec i j) as [-> | H].
  - rewrite put_same by assumption. auto.
  - rewrite put_other by assumption. auto.
Qed.
Lemma keeps_child : forall ns i c, keeps ns (set_child ns i c).
Proof.
  intros ns i c j L. unfold set_child. destruct (Nat.eq_dec i j) as [-> | H].
  - rewrite put_same by assumption. auto.
  - rewrite put_other by assumption. auto.
Qed.
Lemma keeps_refl : forall ns, keeps ns ns.
Proof. intros ns i _. auto. Qed.
