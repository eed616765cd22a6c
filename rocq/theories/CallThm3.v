(** The call tree of Call.v. *)
From Verif Require Import Base Call SpecCall CallThm CallThm2.
Local Open Scope Z_scope.

Section Tree.
Variable sys : list (list Z).
Variable env : list prog.
Hypothesis G : good_env sys env.
Notation N := (length env).
Notation id := (fun p => g_id (gprog env p)).
Notation nn t := (length (t_nodes t)).
Notation la lab i := (nth i lab (@nil nat)).

(** Edges go to younger nodes; each node but the head has an older parent and
    is labelled with the chain of its ancestors. *)
Record TI (t : tree) (lab : list (list nat)) : Prop := mkTI {
  T_len : length lab = nn t;
  T_0 : la lab 0 = [];
  T_cur : (t_cur t < nn t)%nat;
  T_par : forall i, (0 < i < nn t)%nat -> exists p j,
      n_parent (tnode t i) = Some j /\ (j < i)%nat /\ (p < N)%nat /\
      la lab i = p :: la lab j /\ n_name (tnode t i) = encode (id p);
  T_child : forall i j, (i < nn t)%nat -> n_child (tnode t i) = Some j ->
      (i < j < nn t)%nat /\ length (la lab j) = S (length (la lab i));
  T_sis : forall i j, (i < nn t)%nat -> n_sister (tnode t i) = Some j ->
      (i < j < nn t)%nat /\ (length (la lab i) <= length (la lab j))%nat }.

(** The tree is exactly the set of chains of calls. *)
Record NI (t : tree) (lab : list (list nat)) (rn : list nat) (hist : list (list nat)) : Prop := mkNI {
  NI_cur : la lab (t_cur t) = rn;
  NI_inj : forall i j, (i < nn t)%nat -> (j < nn t)%nat -> la lab i = la lab j -> i = j;
  NI_child : forall i j, (i < nn t)%nat -> n_child (tnode t i) = Some j ->
      exists p, la lab j = p :: la lab i;
  NI_sis : forall i j, (i < nn t)%nat -> n_sister (tnode t i) = Some j ->
      exists p q c, la lab i = p :: c /\ la lab j = q :: c;
  NI_comp : forall i, (0 < i < nn t)%nat -> exists p j, (j < nn t)%nat /\ la lab i = p :: la lab j /\
      (n_child (tnode t j) = Some i \/
       exists k, n_child (tnode t j) = Some k /\ n_sister (tnode t k) = Some i);
  NI_old : forall i, (0 < i < nn t)%nat -> In (la lab i) hist;
  NI_hist : forall c, In c hist -> exists i, (0 < i < nn t)%nat /\ la lab i = c }.

(** *** Looking for a sister *)
Inductive chain (t : tree) : nat -> nat -> Prop :=
| chain_refl : forall x, chain t x x
| chain_step : forall x y z, n_sister (tnode t x) = Some y -> chain t y z -> chain t x z.

Lemma find_sister_spec : forall t lab n, TI t lab -> forall fuel q,
  (q < nn t)%nat -> (nn t - q <= fuel)%nat ->
  exists r, find_sister fuel t n q = Ok r /\
    match r with
    | Some x => (q <= x < nn t)%nat /\ (length (la lab q) <= length (la lab x))%nat /\ n_name (tnode t x) = n /\ chain t q x
    | None => forall x, chain t q x -> n_name (tnode t x) <> n
    end.
Proof.
  intros t lab n H. induction fuel as [|k IH]; intros q Hq Hf; [lia|].
  cbn [find_sister]. destruct (beq (n_name (tnode t q)) n) eqn:E.
  - apply beq_eq in E. exists (Some q). split; [reflexivity|].
    split; [lia|]. split; [lia|]. split; [exact E|constructor].
  - apply beq_neq in E. destruct (n_sister (tnode t q)) as [y|] eqn:Es.
    + pose proof (proj1 (T_sis t lab H q y Hq Es)) as L.
      destruct (IH y ltac:(lia) ltac:(lia)) as (r & E1 & E2). exists r. split; [exact E1|].
      destruct r as [x|].
      * destruct E2 as (A & B0 & B & C). split; [lia|].
        pose proof (proj2 (T_sis t lab H q y Hq Es)). split; [lia|]. split; [exact B|].
        eapply chain_step; eauto.
      * intros x C. inversion C; subst; [exact E|]. rewrite Es in H0. inversion H0; subst.
        apply E2; auto.
    + exists None. split; [reflexivity|]. intros x C. inversion C; subst; [exact E|]. congruence.
Qed.

Lemma chain_lt : forall t lab x y, TI t lab -> chain t x y -> (x < nn t)%nat -> (y < nn t)%nat.
Proof.
  intros t lab x y H C. induction C as [|x y z E C IH]; intros L; auto.
  apply IH. pose proof (proj1 (T_sis t lab H x y L E)). lia.
Qed.

(** *** A new node *)
Lemma nodes_app : forall t n i, (i < nn t)%nat ->
  nth i (t_nodes t ++ [n]) null_node = tnode t i.
Proof. intros. apply app_nth1; auto. Qed.

Lemma new_child : forall t n, (t_cur t < nn t)%nat ->
  let t' := mkTree (set_child (t_cur t) (nn t) (t_nodes t ++ [mkNode n (Some (t_cur t)) None None])) (nn t) in
  nn t' = S (nn t) /\ tnode t' (nn t) = mkNode n (Some (t_cur t)) None None /\
  (forall i, (i < nn t)%nat -> i <> t_cur t -> tnode t' i = tnode t i) /\
  tnode t' (t_cur t) = mkNode (n_name (tnode t (t_cur t))) (n_parent (tnode t (t_cur t)))
     (Some (nn t)) (n_sister (tnode t (t_cur t))).
Proof.
  intros t n H. cbv zeta. unfold set_child, tnode at 1 2 4; cbn [t_nodes].
  rewrite lupd_len, app_length. cbn [length]. split; [lia|]. split; [|split].
  - rewrite lupd_other by lia. rewrite app_nth2 by lia. rewrite Nat.sub_diag. reflexivity.
  - intros i Hi E. rewrite lupd_other by auto. apply nodes_app; auto.
  - rewrite lupd_same by (rewrite app_length; cbn [length]; lia).
    rewrite nodes_app by auto. reflexivity.
Qed.
Lemma new_sister : forall t n k, (k < nn t)%nat ->
  let t' := mkTree (set_sister k (nn t) (t_nodes t ++ [mkNode n (Some (t_cur t)) None None])) (nn t) in
  nn t' = S (nn t) /\ tnode t' (nn t) = mkNode n (Some (t_cur t)) None None /\
  (forall i, (i < nn t)%nat -> i <> k -> tnode t' i = tnode t i) /\
  tnode t' k = mkNode (n_name (tnode t k)) (n_parent (tnode t k))
     (n_child (tnode t k)) (Some (nn t)).
Proof.
  intros t n k H. cbv zeta. unfold set_sister, tnode at 1 2 4; cbn [t_nodes].
  rewrite lupd_len, app_length. cbn [length]. split; [lia|]. split; [|split].
  - rewrite lupd_other by lia. rewrite app_nth2 by lia. rewrite Nat.sub_diag. reflexivity.
  - intros i Hi E. rewrite lupd_other by auto. apply nodes_app; auto.
  - rewrite lupd_same by (rewrite app_length; cbn [length]; lia).
    rewrite nodes_app by auto. reflexivity.
Qed.

Lemma la_app : forall (lab : list (list nat)) x i, (i < length lab)%nat -> la (lab ++ [x]) i = la lab i.
Proof. intros; apply app_nth1; auto. Qed.
Lemma la_new : forall (lab : list (list nat)) x, la (lab ++ [x]) (length lab) = x.
Proof. intros; rewrite app_nth2 by lia; rewrite Nat.sub_diag; reflexivity. Qed.

(** What both kinds of new node have in common. *)
Lemma grow_TI : forall t t' lab p, TI t lab -> (p < N)%nat ->
  nn t' = S (nn t) -> t_cur t' = nn t ->
  tnode t' (nn t) = mkNode (encode (id p)) (Some (t_cur t)) None None ->
  (forall i, (i < nn t)%nat -> n_name (tnode t' i) = n_name (tnode t i) /\
     n_parent (tnode t' i) = n_parent (tnode t i)) ->
  (forall i j, (i < nn t)%nat -> n_child (tnode t' i) = Some j ->
     n_child (tnode t i) = Some j \/ (j = nn t /\ i = t_cur t)) ->
  (forall i j, (i < nn t)%nat -> n_sister (tnode t' i) = Some j ->
     n_sister (tnode t i) = Some j \/
     (j = nn t /\ (length (la lab i) <= S (length (la lab (t_cur t))))%nat)) ->
  TI t' (lab ++ [p :: la lab (t_cur t)]).
Proof.
  intros t t' lab p [H1 H2 H3 H4 H5 H6] Hp E1 E2 E3 E4 E5 E6.
  constructor.
  - rewrite app_length, H1, E1. cbn [length]. lia.
  - rewrite la_app by lia. exact H2.
  - lia.
  - intros i Hi. rewrite E1 in Hi. destruct (Nat.eq_dec i (nn t)) as [->|X].
    + exists p, (t_cur t). rewrite E3. cbn [n_parent n_name].
      rewrite <- H1 at 2. rewrite la_new. rewrite la_app by lia.
      split; [reflexivity|]. split; [lia|]. split; [auto|]. split; reflexivity.
    + destruct (H4 i ltac:(lia)) as (q & j & A & B & C & D & F). exists q, j.
      destruct (E4 i ltac:(lia)) as [-> ->]. rewrite !la_app by lia. auto 8.
  - intros i j Hi Ec. rewrite E1 in *. destruct (Nat.eq_dec i (nn t)) as [->|X].
    + rewrite E3 in Ec; discriminate.
    + destruct (E5 i j ltac:(lia) Ec) as [Y|[-> ->]].
      * destruct (H5 i j ltac:(lia) Y) as [Z1 Z2]. rewrite !la_app by lia. split; [lia|exact Z2].
      * split; [lia|]. rewrite (la_app lab _ (t_cur t)) by lia. rewrite <- H1 at 1. rewrite la_new. reflexivity.
  - intros i j Hi Ec. rewrite E1 in *. destruct (Nat.eq_dec i (nn t)) as [->|X].
    + rewrite E3 in Ec; discriminate.
    + destruct (E6 i j ltac:(lia) Ec) as [Y|[-> Y]].
      * destruct (H6 i j ltac:(lia) Y) as [Z1 Z2]. rewrite !la_app by lia. split; [lia|exact Z2].
      * split; [lia|]. rewrite (la_app lab _ i) by lia. rewrite <- H1 at 1. rewrite la_new. exact Y.
Qed.

Lemma grow_NI : forall t t' lab p rn hist, TI t lab -> NI t lab rn hist ->
  nn t' = S (nn t) -> t_cur t' = nn t ->
  tnode t' (nn t) = mkNode (encode (id p)) (Some (t_cur t)) None None ->
  (forall i j, (i < nn t)%nat -> n_child (tnode t' i) = Some j ->
     n_child (tnode t i) = Some j \/ (j = nn t /\ i = t_cur t)) ->
  (forall i j, (i < nn t)%nat -> n_sister (tnode t' i) = Some j ->
     n_sister (tnode t i) = Some j \/ (j = nn t /\ n_child (tnode t (t_cur t)) = Some i)) ->
  (forall i j, (i < nn t)%nat -> n_child (tnode t i) = Some j -> n_child (tnode t' i) = Some j) ->
  (forall i j, (i < nn t)%nat -> n_sister (tnode t i) = Some j -> n_sister (tnode t' i) = Some j) ->
  (n_child (tnode t' (t_cur t)) = Some (nn t) \/
   exists k, n_child (tnode t' (t_cur t)) = Some k /\ n_sister (tnode t' k) = Some (nn t)) ->
  (forall i, (i < nn t)%nat -> la lab i <> p :: rn) ->
  NI t' (lab ++ [p :: rn]) (p :: rn) ((p :: rn) :: hist).
Proof.
  intros t t' lab p rn hist T H E1 E2 E3 E4 E5 E6 E7 E8 E9.
  pose proof (T_len t lab T) as Ln. pose proof (T_cur t lab T) as Lc.
  assert (New : la (lab ++ [p :: rn]) (nn t) = p :: rn) by (rewrite <- Ln; apply la_new).
  assert (Old : forall i, (i < nn t)%nat -> la (lab ++ [p :: rn]) i = la lab i).
  { intros i Hi. apply la_app. lia. }
  constructor.
  - rewrite E2. exact New.
  - intros i j Hi Hj E. rewrite E1 in *.
    destruct (Nat.eq_dec i (nn t)) as [->|X], (Nat.eq_dec j (nn t)) as [->|Y]; auto.
    + rewrite New, (Old j ltac:(lia)) in E. exfalso. apply (E9 j ltac:(lia)); auto.
    + rewrite New, (Old i ltac:(lia)) in E. exfalso. apply (E9 i ltac:(lia)); auto.
    + rewrite (Old i ltac:(lia)), (Old j ltac:(lia)) in E.
      apply (NI_inj t lab rn hist H); auto; lia.
  - intros i j Hi E. rewrite E1 in *. destruct (Nat.eq_dec i (nn t)) as [->|X].
    + rewrite E3 in E; discriminate.
    + destruct (E4 i j ltac:(lia) E) as [Y|[-> ->]].
      * pose proof (proj1 (T_child t lab T i j ltac:(lia) Y)).
        rewrite (Old i ltac:(lia)), (Old j ltac:(lia)). apply (NI_child t lab rn hist H); auto; lia.
      * exists p. rewrite New, (Old _ Lc), (NI_cur t lab rn hist H). reflexivity.
  - intros i j Hi E. rewrite E1 in *. destruct (Nat.eq_dec i (nn t)) as [->|X].
    + rewrite E3 in E; discriminate.
    + destruct (E5 i j ltac:(lia) E) as [Y|[-> Y]].
      * pose proof (proj1 (T_sis t lab T i j ltac:(lia) Y)).
        rewrite (Old i ltac:(lia)), (Old j ltac:(lia)). apply (NI_sis t lab rn hist H); auto; lia.
      * destruct (NI_child t lab rn hist H _ _ Lc Y) as (q & Eq).
        rewrite (NI_cur t lab rn hist H) in Eq.
        exists q, p, rn. rewrite New, (Old i ltac:(lia)). auto.
  - intros i Hi. rewrite E1 in *. destruct (Nat.eq_dec i (nn t)) as [->|X].
    + exists p, (t_cur t). rewrite New, (Old _ Lc), (NI_cur t lab rn hist H).
      split; [lia|]. split; [reflexivity|]. exact E8.
    + destruct (NI_comp t lab rn hist H i ltac:(lia)) as (q & j & A & B & C).
      exists q, j. rewrite (Old i ltac:(lia)), (Old j ltac:(lia)).
      split; [lia|]. split; [auto|]. destruct C as [C|(k & C & D)].
      * left. apply E6; auto.
      * right. exists k. split; [apply E6; auto|]. apply E7; auto.
        pose proof (proj1 (T_child t lab T j k A C)). lia.
  - intros i Hi. rewrite E1 in *. destruct (Nat.eq_dec i (nn t)) as [->|X].
    + rewrite New. left; reflexivity.
    + rewrite (Old i ltac:(lia)). right. apply (NI_old t lab rn hist H). lia.
  - intros c [<-|I].
    + exists (nn t). rewrite E1. pose proof Lc. split; [lia|exact New].
    + destruct (NI_hist t lab rn hist H c I) as (i & A & B). exists i. rewrite E1.
      split; [lia|]. rewrite (Old i ltac:(lia)). exact B.
Qed.

Lemma enc_id_inj : forall p q, (p < N)%nat -> (q < N)%nat -> encode (id p) = encode (id q) -> p = q.
Proof.
  intros p q Hp Hq E. destruct (id_good sys env G p Hp) as [A _]. destruct (id_good sys env G q Hq) as [B _].
  apply (id_inj sys env G); auto. apply encode_inj; auto.
Qed.

(** *** Entering a program *)
Lemma push_ok : forall t lab p, TI t lab -> (p < N)%nat ->
  exists t' lab', push_tree (encode (id p)) t = Ok t' /\ TI t' lab' /\
    (length (la lab' (t_cur t')) >= S (length (la lab (t_cur t))))%nat /\
    (forall rn hist, NI t lab rn hist -> narrow ((p :: rn) :: hist) ->
       NI t' lab' (p :: rn) ((p :: rn) :: hist)).
Proof.
  intros t lab p T Hp. pose proof (T_cur t lab T) as Lc. pose proof (T_len t lab T) as Ln.
  unfold push_tree, create. cbn [fst snd]. cbv zeta.
  assert (NewLen : forall t', t_cur t' = nn t ->
    (length (la (lab ++ [p :: la lab (t_cur t)]) (t_cur t')) >= S (length (la lab (t_cur t))))%nat).
  { intros t' E. rewrite E, <- Ln, la_new. cbn [length]. lia. }
  assert (NoKid : forall rn hist, NI t lab rn hist -> n_child (tnode t (t_cur t)) = None ->
     forall i, (i < nn t)%nat -> la lab i <> p :: rn).
  { intros rn hist H E i Hi X. destruct (Nat.eq_dec i 0) as [->|Y].
    { rewrite (T_0 t lab T) in X; discriminate. }
    destruct (NI_comp t lab rn hist H i ltac:(lia)) as (q & j & A & B & C).
    rewrite X in B. inversion B as [[B1 B2]].
    assert (j = t_cur t).
    { apply (NI_inj t lab rn hist H); auto. rewrite (NI_cur t lab rn hist H). auto. }
    subst j. destruct C as [C|(k & C & _)]; congruence. }
  destruct (n_child (tnode t (t_cur t))) as [c|] eqn:Ec.
  2:{ destruct (new_child t (encode (id p)) Lc) as (A & B & C & D).
      set (t' := mkTree _ _) in *. cbv zeta in A, B, C, D.
      exists t', (lab ++ [p :: la lab (t_cur t)]). split; [reflexivity|]. split; [|split].
      - apply (grow_TI t t'); auto.
        + intros i Hi. destruct (Nat.eq_dec i (t_cur t)) as [->|X]; [rewrite D|rewrite C by auto]; auto.
        + intros i j Hi E. destruct (Nat.eq_dec i (t_cur t)) as [->|X];
            [rewrite D in E|rewrite C in E by auto]; auto. cbn [n_child] in E. right; split; congruence.
        + intros i j Hi E. destruct (Nat.eq_dec i (t_cur t)) as [->|X];
            [rewrite D in E|rewrite C in E by auto]; auto.
      - apply NewLen; reflexivity.
      - intros rn hist H Nw. rewrite (NI_cur t lab rn hist H).
        apply (grow_NI t t'); auto.
        + intros i j Hi E. destruct (Nat.eq_dec i (t_cur t)) as [->|X];
            [rewrite D in E|rewrite C in E by auto]; auto. cbn [n_child] in E. right; split; congruence.
        + intros i j Hi E. destruct (Nat.eq_dec i (t_cur t)) as [->|X];
            [rewrite D in E|rewrite C in E by auto]; auto.
        + intros i j Hi E. destruct (Nat.eq_dec i (t_cur t)) as [->|X];
            [congruence|rewrite C by auto; auto].
        + intros i j Hi E. destruct (Nat.eq_dec i (t_cur t)) as [->|X];
            [rewrite D|rewrite C by auto]; auto.
        + left. rewrite D. reflexivity.
        + apply (NoKid rn hist H eq_refl). }
  destruct (T_child t lab T _ _ Lc Ec) as [Hc Hcl].
  destruct (T_par t lab T c ltac:(lia)) as (pc & jc & Pc & Pl & Pn & Lbc & Nmc).
  (* the name of a child of the current node decides its label *)
  assert (Kid : forall rn hist x, NI t lab rn hist -> (0 < x < nn t)%nat ->
     (exists q, la lab x = q :: rn) -> n_name (tnode t x) = encode (id p) -> la lab x = p :: rn).
  { intros rn hist x H Hx [q Eq] En.
    destruct (T_par t lab T x Hx) as (px & jx & _ & _ & Px & Lx & Nx).
    rewrite En in Nx. apply enc_id_inj in Nx; auto. subst px. rewrite Eq in Lx. inversion Lx.
    rewrite Eq. f_equal; auto. }
  assert (Kid' : forall rn hist x, NI t lab rn hist -> (0 < x < nn t)%nat ->
     la lab x = p :: rn -> n_name (tnode t x) = encode (id p)).
  { intros rn hist x H Hx Eq.
    destruct (T_par t lab T x Hx) as (px & jx & _ & _ & Px & Lx & Nx).
    rewrite Eq in Lx. inversion Lx; subst px. exact Nx. }
  assert (Cc : forall rn hist, NI t lab rn hist -> la lab c = pc :: rn).
  { intros rn hist H. destruct (NI_child t lab rn hist H _ _ Lc Ec) as (q & Eq).
    rewrite (NI_cur t lab rn hist H) in Eq. rewrite Eq in Lbc. inversion Lbc. subst. exact Eq. }
  (* moving to a node that is there *)
  assert (Move : forall x, (0 < x < nn t)%nat ->
     (length (la lab x) >= S (length (la lab (t_cur t))))%nat ->
     (forall rn hist, NI t lab rn hist -> la lab x = p :: rn) ->
     exists t' lab', Ok (mkTree (t_nodes t) x) = Ok t' /\ TI t' lab' /\
      (length (la lab' (t_cur t')) >= S (length (la lab (t_cur t))))%nat /\
      (forall rn hist, NI t lab rn hist -> narrow ((p :: rn) :: hist) ->
         NI t' lab' (p :: rn) ((p :: rn) :: hist))).
  { intros x Hx Hl Hn. exists (mkTree (t_nodes t) x), lab. split; [reflexivity|]. split; [|split].
    - destruct T as [H1 H2 H3 H4 H5 H6]. constructor; cbn [t_nodes t_cur]; auto. lia.
    - exact Hl.
    - intros rn hist H _. specialize (Hn rn hist H). destruct H as [H1 H2 H3 H4 H5 H6 H7].
      constructor; cbn [t_nodes t_cur]; auto.
      + intros i Hi. right. apply H6; auto.
      + intros d [<-|I]; [exists x; auto|apply H7; auto]. }
  destruct (beq (n_name (tnode t c)) (encode (id p))) eqn:Eb.
  { apply beq_eq in Eb. apply Move; [lia| |].
    - lia.
    - intros rn hist H. apply (Kid rn hist c H ltac:(lia)); auto. eauto using Cc. }
  apply beq_neq in Eb.
  destruct (n_sister (tnode t c)) as [q|] eqn:Eq.
  2:{ (* the second callee *)
      destruct (new_sister t (encode (id p)) c ltac:(lia)) as (A & B & C & D).
      set (t' := mkTree _ _) in *. cbv zeta in A, B, C, D.
      assert (Ncur : t_cur t <> c) by lia.
      exists t', (lab ++ [p :: la lab (t_cur t)]). split; [reflexivity|]. split; [|split].
      - apply (grow_TI t t'); auto.
        + intros i Hi. destruct (Nat.eq_dec i c) as [->|X]; [rewrite D|rewrite C by auto]; auto.
        + intros i j Hi E. destruct (Nat.eq_dec i c) as [->|X];
            [rewrite D in E|rewrite C in E by auto]; auto.
        + intros i j Hi E. destruct (Nat.eq_dec i c) as [->|X];
            [rewrite D in E|rewrite C in E by auto]; auto. cbn [n_sister] in E.
          right; split; [congruence|lia].
      - apply NewLen; reflexivity.
      - intros rn hist H Nw. rewrite (NI_cur t lab rn hist H).
        apply (grow_NI t t'); auto.
        + intros i j Hi E. destruct (Nat.eq_dec i c) as [->|X];
            [rewrite D in E|rewrite C in E by auto]; auto.
        + intros i j Hi E. destruct (Nat.eq_dec i c) as [->|X];
            [rewrite D in E|rewrite C in E by auto]; auto. cbn [n_sister] in E.
          right; split; [congruence|exact Ec].
        + intros i j Hi E. destruct (Nat.eq_dec i c) as [->|X];
            [rewrite D|rewrite C by auto]; auto.
        + intros i j Hi E. destruct (Nat.eq_dec i c) as [->|X];
            [congruence|rewrite C by auto; auto].
        + right. exists c. rewrite (C _ Lc Ncur). split; [exact Ec|]. rewrite D. reflexivity.
        + intros i Hi X. destruct (Nat.eq_dec i 0) as [->|Y].
          { rewrite (T_0 t lab T) in X; discriminate. }
          destruct (NI_comp t lab rn hist H i ltac:(lia)) as (q & j & A1 & B1 & C1).
          rewrite X in B1. inversion B1 as [[B2 B3]].
          assert (j = t_cur t).
          { apply (NI_inj t lab rn hist H); auto. rewrite (NI_cur t lab rn hist H). auto. }
          subst j. apply Eb. destruct C1 as [C1|(k & C1 & D1)]; [|congruence].
          assert (i = c) by congruence. subst i. apply (Kid' rn hist c H ltac:(lia) X). }
  destruct (T_sis t lab T c q ltac:(lia) Eq) as [Hq Hql].
  destruct (find_sister_spec t lab (encode (id p)) T (nn t) q ltac:(lia) ltac:(lia)) as (r & Er & Es).
  rewrite Er. cbn [obind].
  (* the sister of the first child has no sister of its own *)
  assert (Cq : forall rn hist, NI t lab rn hist -> narrow hist ->
     exists pq, la lab q = pq :: rn /\ pq <> pc /\ n_sister (tnode t q) = None).
  { intros rn hist H Nw. pose proof (Cc rn hist H) as Lc'.
    destruct (NI_sis t lab rn hist H c q ltac:(lia) Eq) as (x & pq & d & X1 & X2).
    rewrite Lc' in X1. inversion X1; subst x d. exists pq. split; [exact X2|].
    assert (D1 : pq <> pc).
    { intros ->. rewrite <- Lc' in X2. apply (NI_inj t lab rn hist H) in X2; lia. }
    split; [exact D1|].
    destruct (n_sister (tnode t q)) as [z|] eqn:Ez; [|reflexivity]. exfalso.
    destruct (NI_sis t lab rn hist H q z ltac:(lia) Ez) as (y1 & pz & d & Y1 & Y2).
    rewrite X2 in Y1. inversion Y1; subst y1 d.
    destruct (T_sis t lab T q z ltac:(lia) Ez) as [Hz _].
    assert (I1 := NI_old t lab rn hist H c ltac:(lia)).
    assert (I2 := NI_old t lab rn hist H q ltac:(lia)).
    assert (I3 := NI_old t lab rn hist H z ltac:(lia)).
    rewrite Lc' in I1. rewrite X2 in I2. rewrite Y2 in I3.
    destruct (Nw rn pc pq pz I1 I2 I3) as [W|[W|W]].
    - congruence.
    - subst pz. rewrite <- Lc' in Y2. apply (NI_inj t lab rn hist H) in Y2; lia.
    - subst pz. rewrite <- X2 in Y2. apply (NI_inj t lab rn hist H) in Y2; lia. }
  assert (Nar : forall rn hist, narrow ((p :: rn) :: hist) -> narrow hist).
  { intros rn hist Nw d x y z I1 I2 I3. apply (Nw d); right; auto. }
  destruct r as [x|].
  - destruct Es as (E1 & E2 & E3 & E4).
    exists (mkTree (t_nodes t) x), lab. split; [reflexivity|]. split; [|split].
    + destruct T as [H1 H2 H3 H4 H5 H6]. constructor; cbn [t_nodes t_cur]; auto. lia.
    + cbn [t_cur]. lia.
    + intros rn hist H Nw. destruct (Cq rn hist H (Nar rn hist Nw)) as (pq & Lq & _ & Sq).
      assert (x = q). { inversion E4; subst; [reflexivity|congruence]. } subst x.
      assert (La : la lab q = p :: rn) by (apply (Kid rn hist q H ltac:(lia)); eauto).
      destruct H as [H1 H2 H3 H4 H5 H6 H7].
      constructor; cbn [t_nodes t_cur]; auto.
      * intros i Hi. right. apply H6; auto.
      * intros d [<-|I]; [exists q; split; [lia|auto]|apply H7; auto].
  - (* the third callee *)
    destruct (new_sister t (encode (id p)) (t_cur t) Lc) as (A & B & C & D).
    set (t' := mkTree _ _) in *. cbv zeta in A, B, C, D.
    exists t', (lab ++ [p :: la lab (t_cur t)]). split; [reflexivity|]. split; [|split].
    + apply (grow_TI t t'); auto.
      * intros i Hi. destruct (Nat.eq_dec i (t_cur t)) as [->|X]; [rewrite D|rewrite C by auto]; auto.
      * intros i j Hi E. destruct (Nat.eq_dec i (t_cur t)) as [->|X];
            [rewrite D in E|rewrite C in E by auto]; auto.
      * intros i j Hi E. destruct (Nat.eq_dec i (t_cur t)) as [->|X];
            [rewrite D in E|rewrite C in E by auto]; auto. cbn [n_sister] in E.
          right; split; [congruence|lia].
    + apply NewLen; reflexivity.
    + intros rn hist H Nw. exfalso.
      destruct (Cq rn hist H (Nar rn hist Nw)) as (pq & Lq & Dq & _).
      pose proof (Cc rn hist H) as Lc'.
      assert (I1 := NI_old t lab rn hist H c ltac:(lia)).
      assert (I2 := NI_old t lab rn hist H q ltac:(lia)).
      rewrite Lc' in I1. rewrite Lq in I2.
      destruct (Nw rn p pc pq (or_introl eq_refl) (or_intror I1) (or_intror I2)) as [W|[W|W]].
      * subst pc. apply Eb. exact Nmc.
      * subst pq. apply (Es q (chain_refl t q)). apply (Kid' rn hist q H ltac:(lia) Lq).
      * congruence.
Qed.

(** *** Leaving it *)
Lemma pop_ok : forall t lab, TI t lab -> la lab (t_cur t) <> [] ->
  exists t', pop_tree t = Ok t' /\ TI t' lab /\
    (S (length (la lab (t_cur t'))) = length (la lab (t_cur t)))%nat /\
    (forall p rn hist, NI t lab (p :: rn) hist -> NI t' lab rn hist).
Proof.
  intros t lab T H. pose proof (T_cur t lab T) as Lc.
  assert (Hc : (0 < t_cur t)%nat).
  { destruct (t_cur t); [|lia]. rewrite (T_0 t lab T) in H. congruence. }
  destruct (T_par t lab T (t_cur t) ltac:(lia)) as (p & j & A & B & C & D & E).
  unfold pop_tree. rewrite A. exists (mkTree (t_nodes t) j). split; [reflexivity|]. split; [|split].
  - destruct T as [H1 H2 H3 H4 H5 H6]. constructor; cbn [t_nodes t_cur]; auto. lia.
  - cbn [t_cur]. rewrite D. reflexivity.
  - intros q rn hist [H1 H2 H3 H4 H5 H6 H7]. rewrite D in H1. inversion H1.
    constructor; cbn [t_nodes t_cur]; auto.
Qed.

Lemma tree0_ok : TI tree0 [[]] /\ NI tree0 [[]] [] [].
Proof.
  assert (X : forall i, (0 < i < nn tree0)%nat -> False) by (cbn; intros; lia).
  split; constructor; cbn [t_nodes t_cur tree0]; auto;
    try (intros i Hi; destruct (X i Hi); fail);
    try (intros [|i] j Hi E; [discriminate|cbn in Hi; lia]).
  - intros [|i] [|j] Hi Hj E; cbn in Hi, Hj; try lia.
  - intros c [].
Qed.

(** *** CANCEL ALL *)
Inductive reach (t : tree) : nat -> nat -> Prop :=
| reach_refl : forall x, reach t x x
| reach_child : forall x y z, n_child (tnode t x) = Some y -> reach t y z -> reach t x z
| reach_sis : forall x y z, n_sister (tnode t x) = Some y -> reach t y z -> reach t x z.

Lemma reach_lt : forall t lab x y, TI t lab -> reach t x y -> (x < nn t)%nat -> (x <= y < nn t)%nat.
Proof.
  intros t lab x y H C. induction C as [x|x y z E C IH|x y z E C IH]; intros L; [lia| |].
  - pose proof (proj1 (T_child t lab H x y L E)). specialize (IH ltac:(lia)). lia.
  - pose proof (proj1 (T_sis t lab H x y L E)). specialize (IH ltac:(lia)). lia.
Qed.

Lemma names_from_spec : forall t lab, TI t lab -> forall k p, (p < nn t)%nat -> (nn t - p <= k)%nat ->
  exists l, names_from k t p = Ok l /\
    forall n, In n l <-> exists r, reach t p r /\ n_name (tnode t r) = n.
Proof.
  intros t lab H. induction k as [|k IH]; intros p Hp Hk; [lia|].
  cbn [names_from].
  assert (K : exists lc, (match n_child (tnode t p) with None => Ok [] | Some q => names_from k t q end) = Ok lc /\
     forall n, In n lc <-> exists c r, n_child (tnode t p) = Some c /\ reach t c r /\ n_name (tnode t r) = n).
  { destruct (n_child (tnode t p)) as [c|] eqn:Ec.
    - pose proof (proj1 (T_child t lab H p c Hp Ec)).
      destruct (IH c ltac:(lia) ltac:(lia)) as (l & E1 & E2). exists l. split; [exact E1|].
      intros n. rewrite E2. split.
      + intros (r & A & B). exists c, r. auto.
      + intros (c' & r & A & B & C). inversion A; subst c'. exists r. auto.
    - exists []. split; [reflexivity|]. intros n; split; [intros []|].
      intros (c & r & A & _). discriminate. }
  destruct K as (lc & -> & Kc). cbn [obind].
  set (loop := fix sisters (m : nat) (s : option nat) : outcome (list (list Z)) :=
               match s with
               | None => Ok []
               | Some x =>
                 match m with
                 | O => UB
                 | S m' =>
                   do a <- names_from k t x;
                   do b <- sisters m' (n_sister (tnode t x));
                   Ok (a ++ b)
                 end
               end).
  assert (L : forall m x, (p < x < nn t)%nat -> (nn t - x <= m)%nat ->
     exists l, loop m (Some x) = Ok l /\
       forall n, In n l <-> exists r, reach t x r /\ n_name (tnode t r) = n).
  { induction m as [|m IHm]; intros x Hx Hm; [lia|].
    destruct (IH x ltac:(lia) ltac:(lia)) as (l1 & E1 & E2).
    destruct (n_sister (tnode t x)) as [y|] eqn:Ey.
    - pose proof (proj1 (T_sis t lab H x y ltac:(lia) Ey)).
      destruct (IHm y ltac:(lia) ltac:(lia)) as (l2 & F1 & F2).
      exists (l1 ++ l2). split.
      + change (loop (S m) (Some x)) with (do a <- names_from k t x;
                   do b <- loop m (n_sister (tnode t x)); Ok (a ++ b)).
        rewrite E1, Ey. cbn [obind]. rewrite F1. reflexivity.
      + intros n. rewrite in_app_iff, E2, F2. split.
        * intros [(r & A & B)|(r & A & B)]; exists r; split; auto. eapply reach_sis; eauto.
        * intros (r & A & B). left. exists r; auto.
    - exists (l1 ++ []). split.
      + change (loop (S m) (Some x)) with (do a <- names_from k t x;
                   do b <- loop m (n_sister (tnode t x)); Ok (a ++ b)).
        rewrite E1, Ey. destruct m; reflexivity.
      + intros n. rewrite app_nil_r. apply E2. }
  assert (S0 : exists ls, loop k (n_sister (tnode t p)) = Ok ls /\
     forall n, In n ls <-> exists c r, n_sister (tnode t p) = Some c /\ reach t c r /\ n_name (tnode t r) = n).
  { destruct (n_sister (tnode t p)) as [c|] eqn:Ec.
    - pose proof (proj1 (T_sis t lab H p c Hp Ec)).
      destruct (L k c ltac:(lia) ltac:(lia)) as (l & E1 & E2). exists l. split; [exact E1|].
      intros n. rewrite E2. split.
      + intros (r & A & B). exists c, r. auto.
      + intros (c' & r & A & B & C). inversion A; subst c'. exists r. auto.
    - exists []. split; [destruct k; reflexivity|]. intros n; split; [intros []|].
      intros (c & r & A & _). discriminate. }
  destruct S0 as (ls & -> & Ks). cbn [obind].
  exists (n_name (tnode t p) :: lc ++ ls). split; [reflexivity|].
  intros n. cbn [In]. rewrite in_app_iff, Kc, Ks. split.
  - intros [A|[(c & r & A & B & C)|(c & r & A & B & C)]].
    + exists p. split; [constructor|exact A].
    + exists r. split; [eapply reach_child; eauto|exact C].
    + exists r. split; [eapply reach_sis; eauto|exact C].
  - intros (r & A & B). inversion A; subst; [left; reflexivity|right; left; eauto 6|right; right; eauto 6].
Qed.

(** CANCEL ALL names exactly the programs called by the running one. *)
Lemma all_names_ok : forall t lab, TI t lab -> exists l, all_names t = Ok l /\
  forall rn hist, NI t lab rn hist -> forall n,
    In n l <-> exists q d, In (q :: d ++ rn) hist /\ n = encode (id q) /\ (q < N)%nat.
Proof.
  intros t lab T. pose proof (T_cur t lab T) as Lc. unfold all_names.
  assert (Lab : forall rn hist, NI t lab rn hist -> forall i, (0 < i < nn t)%nat -> forall q d,
     la lab i = q :: d -> n_name (tnode t i) = encode (id q) /\ (q < N)%nat).
  { intros rn hist H i Hi q d E. destruct (T_par t lab T i Hi) as (p & j & _ & _ & A & B & C).
    rewrite E in B. inversion B; subst q. auto. }
  destruct (n_child (tnode t (t_cur t))) as [c|] eqn:Ec.
  - pose proof (proj1 (T_child t lab T _ _ Lc Ec)) as Hc.
    destruct (names_from_spec t lab T (S (nn t)) c ltac:(lia) ltac:(lia)) as (l & E1 & E2).
    exists l. split; [exact E1|]. intros rn hist H n. rewrite E2. split.
    + intros (r & A & B).
      assert (W : forall x, reach t x r -> (x < nn t)%nat ->
                (exists q d, la lab x = q :: d ++ rn) -> exists q d, la lab r = q :: d ++ rn).
      { clear - H T. intros x C. induction C as [x|x y z E C IH|x y z E C IH]; intros L (q & d & X); [eauto| |].
        - destruct (NI_child t lab rn hist H x y L E) as (p & Y).
          pose proof (proj1 (T_child t lab T x y L E)). apply IH; [lia|].
          exists p, (q :: d). rewrite Y, X. reflexivity.
        - destruct (NI_sis t lab rn hist H x y L E) as (p & p' & e & Y1 & Y2).
          pose proof (proj1 (T_sis t lab T x y L E)). apply IH; [lia|].
          exists p', d. rewrite Y2. f_equal. rewrite X in Y1. inversion Y1; reflexivity. }
      destruct (W c A ltac:(lia)) as (q & d & X).
      { destruct (NI_child t lab rn hist H _ _ Lc Ec) as (p & Y). exists p, [].
        rewrite Y, (NI_cur t lab rn hist H). reflexivity. }
      pose proof (reach_lt t lab c r T A ltac:(lia)) as Hr.
      exists q, d. rewrite <- X. split; [apply (NI_old t lab rn hist H); lia|].
      destruct (Lab rn hist H r ltac:(lia) q _ X) as [Y1 Y2]. rewrite <- B. auto.
    + intros (q & d & I & -> & Hq). destruct (NI_hist t lab rn hist H _ I) as (r & Hr & X).
      exists r. split; [|apply (proj1 (Lab rn hist H r Hr q _ X))].
      assert (Trans : forall x y z, reach t x y -> reach t y z -> reach t x z).
      { clear. intros x y z A B. induction A; auto; [eapply reach_child|eapply reach_sis]; eauto. }
      clear I Hq. revert q r Hr X. induction d as [|e d IH]; intros q r Hr X; cbn [app] in X.
      * destruct (NI_comp t lab rn hist H r Hr) as (p & j & A & B & C).
        rewrite X in B. inversion B as [[B1 B2]].
        assert (j = t_cur t).
        { apply (NI_inj t lab rn hist H); auto. rewrite (NI_cur t lab rn hist H). auto. }
        subst j. destruct C as [C|(k & C & D)].
        -- rewrite Ec in C. inversion C; subst. constructor.
        -- rewrite Ec in C. inversion C; subst. eapply reach_sis; [exact D|constructor].
      * destruct (NI_comp t lab rn hist H r Hr) as (p & j & A & B & C).
        rewrite X in B. inversion B as [[B1 B2]].
        assert (Hj : (0 < j < nn t)%nat).
        { split; [|exact A]. destruct j; [|lia]. rewrite (T_0 t lab T) in B2. discriminate. }
        apply (Trans c j r); [apply (IH e j Hj); auto|].
        destruct C as [C|(k & C & D)].
        -- eapply reach_child; [exact C|constructor].
        -- eapply reach_child; [exact C|]. eapply reach_sis; [exact D|constructor].
  - exists []. split; [reflexivity|]. intros rn hist H n. split; [intros []|].
    intros (q & d & I & _ & _). exfalso.
    destruct (NI_hist t lab rn hist H _ I) as (r & Hr & X).
    clear I. revert q r Hr X. induction d as [|e d IH]; intros q r Hr X; cbn [app] in X.
    + destruct (NI_comp t lab rn hist H r Hr) as (p & j & A & B & C).
      rewrite X in B. inversion B as [[B1 B2]].
      assert (j = t_cur t).
      { apply (NI_inj t lab rn hist H); auto. rewrite (NI_cur t lab rn hist H). auto. }
      subst j. destruct C as [C|(k & C & D)]; congruence.
    + destruct (NI_comp t lab rn hist H r Hr) as (p & j & A & B & C).
      rewrite X in B. inversion B as [[B1 B2]].
      assert (Hj : (0 < j < nn t)%nat).
      { split; [|exact A]. destruct j; [|lia]. rewrite (T_0 t lab T) in B2. discriminate. }
      apply (IH e j Hj). auto.
Qed.

End Tree.
