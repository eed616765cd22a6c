(** Lemmas on the data hierarchy. *)
From Verif Require Import Base Names SpecNames.
Local Open Scope Z_scope.

Lemma put_length : forall ns i x, length (put ns i x) = length ns.
Proof. induction ns as [|a r IH]; intros [|i] x; cbn [put length]; auto. Qed.
Lemma put_same : forall ns i x, (i < length ns)%nat -> get (put ns i x) i = x.
Proof.
  induction ns as [|a r IH]; intros [|i] x H; cbn [length] in H; try lia; cbn [put]; [reflexivity|].
  unfold get in *. cbn [nth]. apply IH. lia.
Qed.
Lemma put_other : forall ns i j x, i <> j -> get (put ns i x) j = get ns j.
Proof.
  induction ns as [|a r IH]; intros [|i] [|j] x H; cbn [put]; try reflexivity; try congruence.
  unfold get in *. cbn [nth]. apply IH. congruence.
Qed.
Lemma get_app1 : forall ns x i, (i < length ns)%nat -> get (ns ++ [x]) i = get ns i.
Proof. intros. unfold get. now rewrite app_nth1. Qed.
Lemma get_app2 : forall ns x, get (ns ++ [x]) (length ns) = x.
Proof. intros. unfold get. rewrite app_nth2, Nat.sub_diag by lia. reflexivity. Qed.

Lemma level_app1 : forall es e i, (i < length es)%nat -> level (es ++ [e]) i = level es i.
Proof. intros. unfold level. now rewrite app_nth1. Qed.
Lemma level_app2 : forall es e, level (es ++ [e]) (length es) = fst e.
Proof. intros. unfold level. rewrite app_nth2, Nat.sub_diag by lia. reflexivity. Qed.
Lemma named_app1 : forall es e i, (i < length es)%nat -> named (es ++ [e]) i = named es i.
Proof. intros. unfold named. now rewrite app_nth1. Qed.
Lemma named_app2 : forall es e, named (es ++ [e]) (length es) = snd e.
Proof. intros. unfold named. rewrite app_nth2, Nat.sub_diag by lia. reflexivity. Qed.

Lemma top_ok : forall lv, top lv = true <-> is_top lv.
Proof. intros. unfold top, is_top. lia. Qed.

Lemma parent_unique : forall es i p q, parent_of es i p -> parent_of es i q -> p = q.
Proof.
  intros es i p q (L & T & P1 & P2 & P3 & P4) (_ & _ & Q1 & Q2 & Q3 & Q4).
  destruct (lt_eq_lt_dec p q) as [[H | H] | H]; [|exact H|].
  - destruct (P4 q (conj H Q1) Q2) as [A B]. exfalso. destruct Q3; [tauto|lia].
  - destruct (Q4 p (conj H P1) P2) as [A B]. exfalso. destruct P3; [tauto|lia].
Qed.
Lemma parent_app1 : forall es e i p, (i < length es)%nat ->
  (parent_of (es ++ [e]) i p <-> parent_of es i p).
Proof.
  intros es e i p L. unfold parent_of.
  rewrite app_length, (level_app1 es e i L).
  split; intros (A & B & C & D & E & F).
  - rewrite (level_app1 es e p) in D, E by lia.
    refine (conj L (conj B (conj C (conj D (conj E _))))).
    intros j Hj Hc. specialize (F j Hj). rewrite (level_app1 es e j) in F by lia. exact (F Hc).
  - rewrite (level_app1 es e p) by lia.
    refine (conj _ (conj B (conj C (conj D (conj E _))))); [lia|].
    intros j Hj Hc. rewrite (level_app1 es e j) in * by lia. exact (F j Hj Hc).
Qed.
Lemma parent_lt : forall es i p, parent_of es i p -> (p < i < length es)%nat.
Proof. intros es i p (A & B & C & _). lia. Qed.

Lemma valid_prefix1 : forall es e, valid (es ++ [e]) -> valid es.
Proof.
  intros es e [V1 V2 V3 V4]. split.
  - intros H. assert (0 < length es)%nat by (destruct es; [congruence|cbn; lia]).
    rewrite <- (level_app1 es e 0) by assumption. apply V1. destruct es; discriminate.
  - intros i L. rewrite <- (level_app1 es e i L). apply V2. rewrite app_length. lia.
  - intros i p H C. pose proof (parent_lt _ _ _ H).
    rewrite <- (level_app1 es e p) by lia. apply (V3 i p); [apply parent_app1; tauto|].
    rewrite level_app1 by lia. exact C.
  - intros i j p Hi Hj Ci Cj. pose proof (parent_lt _ _ _ Hi). pose proof (parent_lt _ _ _ Hj).
    rewrite <- (level_app1 es e i), <- (level_app1 es e j) by lia.
    apply (V4 i j p); try (apply parent_app1; tauto); rewrite level_app1 by lia; assumption.
Qed.
Lemma valid_prefix : forall r es, valid (es ++ r) -> valid es.
Proof.
  induction r as [|e r IH] using rev_ind; intros es H.
  - now rewrite app_nil_r in H.
  - rewrite app_assoc in H. apply IH. exact (valid_prefix1 _ _ H).
Qed.

(** Chains of sisters. *)
Inductive chain (ns : list node) : option nat -> list nat -> Prop :=
  | chain_nil : chain ns None []
  | chain_cons : forall i r, chain ns (n_sister (get ns i)) r -> chain ns (Some i) (i :: r).

Lemma sisters_chain : forall ns l o fuel, chain ns o l -> (length l <= fuel)%nat -> sisters fuel ns o = l.
Proof.
  intros ns l. induction l as [|a l IH]; intros o fuel H L; inversion H; subst.
  - now destruct fuel.
  - destruct fuel as [|k]; cbn [length] in L; [lia|]. cbn [sisters]. f_equal. apply IH; [assumption|lia].
Qed.
Lemma chain_same : forall ns ns' l o, chain ns o l ->
  (forall i, In i l -> n_sister (get ns' i) = n_sister (get ns i)) -> chain ns' o l.
Proof.
  intros ns ns' l. induction l as [|a l IH]; intros o H E; inversion H; subst; [constructor|].
  constructor. rewrite E by (left; reflexivity). apply IH; [assumption|]. intros; apply E; now right.
Qed.
(** Appending to the end of a chain. *)
Lemma chain_snoc : forall ns ns' f l p o,
  chain ns o (l ++ [p]) -> NoDup (l ++ [p]) ->
  (forall i, In i l -> n_sister (get ns' i) = n_sister (get ns i)) ->
  n_sister (get ns' p) = Some f -> n_sister (get ns' f) = None ->
  chain ns' o (l ++ [p; f]).
Proof.
  intros ns ns' f l. induction l as [|a l IH]; intros p o H N E Ep Ef.
  - inversion H; subst. cbn [app]. constructor. rewrite Ep. constructor. rewrite Ef. constructor.
  - inversion H; subst. cbn [app]. constructor. rewrite E by (left; reflexivity).
    apply IH; auto. + now inversion N. + intros; apply E; now right.
Qed.

(** The computed lists. *)
Definition ordb (lv : Z) : bool := negb (lv =? 88).
Definition kids (ns : list node) (p : nat) : list nat :=
  filter (fun i => ordb (n_level (get ns i)) &&
                   match n_parent (get ns i) with Some q => Nat.eqb q p | None => false end)
         (seq 0 (length ns)).
Definition tops (ns : list node) : list nat :=
  filter (fun i => top (n_level (get ns i))) (seq 0 (length ns)).

Record inv (es : list entry) (ns : list node) : Prop := mkInv {
  iv_len : length ns = length es;
  iv_lev : forall i, (i < length es)%nat -> n_level (get ns i) = level es i;
  iv_name : forall i, (i < length es)%nat -> n_name (get ns i) = named es i;
  iv_par : forall i, (i < length es)%nat ->
     match n_parent (get ns i) with Some p => parent_of es i p | None => is_top (level es i) end;
  iv_kids : forall p, (p < length es)%nat -> chain ns (n_child (get ns p)) (kids ns p);
  iv_tops : ns <> [] -> chain ns (Some 0%nat) (tops ns);
  iv_valid : valid es }.

(** The previous item that is not a condition. *)
Definition before (es : list entry) (c : nat) : Prop :=
  (c < length es)%nat /\ ~ is_cond (level es c) /\
  (forall j, (c < j < length es)%nat -> is_cond (level es j)).

Lemma last_ord : forall es ns, inv es ns -> es <> [] ->
  let l0 := (length es - 1)%nat in
  exists c, (if n_level (get ns l0) =? 88 then n_parent (get ns l0) else Some l0) = Some c /\ before es c.
Proof.
  intros es ns I N. cbv zeta. assert (0 < length es)%nat by (destruct es; [congruence|cbn; lia]).
  set (l0 := (length es - 1)%nat). assert (l0 < length es)%nat as L by (unfold l0; lia).
  rewrite (iv_lev _ _ I l0 L). destruct (Z.eqb_spec (level es l0) 88) as [E | E].
  - pose proof (iv_par _ _ I l0 L) as P. destruct (n_parent (get ns l0)) as [c|].
    + exists c. split; [reflexivity|]. destruct P as (A & B & C & D & F & G).
      refine (conj _ (conj D _)); [lia|]. intros j Hj.
      destruct (Z.eq_dec (level es j) 88) as [Ej | Ej]; [exact Ej|].
      destruct (Nat.eq_dec j l0) as [-> | Hn]; [exact E|].
      destruct (G j) as [G1 G2]; [unfold l0 in *; lia|exact Ej|]. elim G1. exact E.
    + unfold is_top in P. lia.
  - exists l0. split; [reflexivity|]. refine (conj L (conj E _)). intros j Hj. unfold l0 in Hj. lia.
Qed.

(** The first item of a larger level is followed only by such. *)
Definition deeper (es : list entry) (x : nat) (v : Z) : Prop :=
  forall j, (x <= j < length es)%nat -> ~ is_cond (level es j) -> v < depth (level es j).

Lemma climb_spec : forall es ns, inv es ns -> forall v, 2 <= v <= 49 -> forall fuel x,
  (x < fuel)%nat -> (x < length es)%nat -> ~ is_cond (level es x) ->
  level es x <> 77 -> deeper es x v ->
  match climb fuel ns x v with
  | Some p => (p < length es)%nat /\ level es p = v /\ (forall j, (p < j < length es)%nat -> ~ is_cond (level es j) -> v < depth (level es j))
  | None => exists p y, (p < y < length es)%nat /\ ~ is_cond (level es p) /\ depth (level es p) < v /\
              parent_of es y p /\ ~ is_cond (level es y) /\ v < level es y /\
              (forall j, (p < j < length es)%nat -> ~ is_cond (level es j) -> v < depth (level es j))
  end.
Proof.
  intros es ns I v V fuel. induction fuel as [|k IH]; intros x Lk L C N D; [lia|]. cbn [climb].
  pose proof (iv_par _ _ I x L) as P.
  assert (v < level es x) as Lx.
  { specialize (D x (conj (le_n _) L) C). unfold depth in D.
    destruct (Z.eqb_spec (level es x) 77) as [E | E]; [contradiction|]. lia. }
  destruct (n_parent (get ns x)) as [p|].
  2:{ exfalso. unfold is_top in P. lia. }
  pose proof P as (A & B & Cp & Dp & E & F).
  assert (forall j, (p < j < length es)%nat -> ~ is_cond (level es j) -> v < depth (level es j)) as D'.
  { intros j Hj Hc. destruct (le_lt_dec x j) as [H | H]; [apply D; [lia|exact Hc]|].
    destruct (F j (conj (proj1 Hj) H) Hc). lia. }
  assert (p < length es)%nat as Lp by lia.
  rewrite (iv_lev _ _ I p Lp). destruct (Z.eqb_spec (level es p) v) as [Ev | Ev].
  - auto.
  - destruct (Z_lt_le_dec (depth (level es p)) v) as [H | H].
    + (* climbing further finds nothing *)
      assert (forall fuel q, (q < length es)%nat -> depth (level es q) < v -> level es q <> 77 \/ True ->
               climb fuel ns q v = None) as Z0.
      { clear -I V. induction fuel as [|m IHm]; intros q Lq Dq _; [reflexivity|]. cbn [climb].
        pose proof (iv_par _ _ I q Lq) as P. destruct (n_parent (get ns q)) as [r|]; [|reflexivity].
        pose proof P as (A & B & Cp & Dp & E & F). assert (r < length es)%nat as Lr by lia.
        rewrite (iv_lev _ _ I r Lr).
        assert (depth (level es r) < v) as Dr.
        { destruct E as [E | E]; [unfold is_cond in E; unfold depth in Dq; rewrite E in Dq; cbn in Dq; lia|].
          unfold depth in Dq. destruct (Z.eqb_spec (level es q) 77); [|lia].
          elim B. right. assumption. }
        destruct (Z.eqb_spec (level es r) v) as [Er | Er].
        - unfold depth in Dr. rewrite Er in Dr. destruct (Z.eqb_spec v 77); lia.
        - apply IHm; auto. }
      rewrite (Z0 k p Lp H (or_intror Logic.I)).
      exists p, x. refine (conj _ (conj Dp (conj H (conj P (conj C (conj Lx D')))))). lia.
    + assert (level es p <> 77) as Np.
      { intros Hp. rewrite Hp in H. unfold depth in H. cbn in H. lia. }
      apply IH; auto; [lia|].
      intros j Hj Hc. destruct (Nat.eq_dec j p) as [-> | Hn]; [|apply D'; [lia|exact Hc]].
      unfold depth in *. destruct (Z.eqb_spec (level es p) 77); lia.
Qed.

Lemma founder_spec : forall es ns, inv es ns -> forall fuel x,
  (x < fuel)%nat -> (x < length es)%nat -> ~ is_cond (level es x) ->
  (forall j, (x < j < length es)%nat -> ~ is_top (level es j)) ->
  (founder fuel ns x < length es)%nat /\ is_top (level es (founder fuel ns x)) /\
  (forall j, (founder fuel ns x < j < length es)%nat -> ~ is_top (level es j)).
Proof.
  intros es ns I fuel. induction fuel as [|k IH]; intros x Lk L C D; [lia|]. cbn [founder].
  pose proof (iv_par _ _ I x L) as P. destruct (n_parent (get ns x)) as [p|]; [|auto].
  pose proof P as (A & B & Cp & Dp & E & F).
  apply IH; auto; try lia. intros j Hj. destruct (lt_eq_lt_dec j x) as [[H | H] | H].
  - intros T. assert (~ is_cond (level es j)) as Hc by (unfold is_top, is_cond in *; lia).
    destruct (F j (conj (proj1 Hj) H) Hc) as [F1 F2].
    pose proof (v_level _ (iv_valid _ _ I) x L) as V. unfold is_top, is_cond, depth in *.
    destruct (Z.eqb_spec (level es j) 77); lia.
  - now subst.
  - apply D. lia.
Qed.
