(** C75: CORRESPONDING takes exactly the corresponding items. *)
From Verif Require Import Base Names SpecNames NamesThm NamesThm2 NamesThm3 NamesThm4 NamesThm5 NamesThm6 P_Names Corr SpecCorr CorrThm.
Local Open Scope Z_scope.

(** The pairs of one target: each corresponding pair once. *)
Definition pairs_of (es1 es2 : list entry) (skip1 skip2 : nat -> bool) (a b : nat) (l : list (nat * nat)) : Prop :=
  NoDup l /\ forall i j, In (i, j) l <-> corresponds es1 es2 skip1 skip2 a b i j.

Lemma built : forall es ns, no_66_78 es -> build es = Ok (Some ns) -> inv es ns.
Proof. intros es ns N B. pose proof (build_inv es N) as I. now rewrite B in I. Qed.

Theorem C75_move_corresponding : forall es1 es2 ns1 ns2 skip1 skip2 a bs,
  no_66_78 es1 -> no_66_78 es2 -> build es1 = Ok (Some ns1) -> build es2 = Ok (Some ns2) ->
  (a < length es1)%nat -> Forall (fun b => (b < length es2)%nat) bs ->
  (group es1 a -> Forall (group es2) bs ->
     exists ls, move_corresponding (ns1, skip1) (ns2, skip2) a bs = Some (concat ls) /\
       Forall2 (pairs_of es1 es2 skip1 skip2 a) bs ls) /\
  (~ (group es1 a /\ Forall (group es2) bs) -> move_corresponding (ns1, skip1) (ns2, skip2) a bs = None).
Proof.
  intros es1 es2 ns1 ns2 skip1 skip2 a bs N1 N2 B1 B2 La Lb.
  pose proof (built _ _ N1 B1) as I1. pose proof (built _ _ N2 B2) as I2.
  pose proof (iv_len _ _ I1) as Ln.
  pose proof (has_children_group es1 ns1 I1 a La) as Ga.
  unfold move_corresponding. cbn [fst].
  assert ((Forall (group es2) bs -> exists ls, move_targets (ns1, skip1) (ns2, skip2) a bs = Some (concat ls) /\
             Forall2 (pairs_of es1 es2 skip1 skip2 a) bs ls) /\
          (~ Forall (group es2) bs -> move_targets (ns1, skip1) (ns2, skip2) a bs = None)) as T.
  { clear Ga. induction bs as [|b r IH]; cbn [move_targets].
    - split; [intros _; exists []; split; [reflexivity|constructor]|]. intros H. elim H. constructor.
    - inversion Lb as [|? ? L1 L2]; subst. destruct (IH L2) as [T1 T2]. cbn [fst].
      pose proof (has_children_group es2 ns2 I2 b L1) as Gb. split.
      + intros H. inversion H as [|? ? H1 H2]; subst. apply Gb in H1. rewrite H1.
        destruct (T1 H2) as (ls & -> & F). eexists (_ :: ls). cbn [concat]. split; [reflexivity|].
        constructor; [|exact F]. split.
        * apply (emit_nodup es1 es2); auto. lia.
        * intros i j. apply (emit_in es1 es2); auto. lia.
      + intros H. destruct (has_children ns2 b); [|reflexivity].
        rewrite T2; [reflexivity|]. intros F. apply H. constructor; [now apply Gb|exact F]. }
  destruct T as [T1 T2]. split.
  - intros G F. apply Ga in G. rewrite G. now apply T1.
  - intros H. destruct (has_children ns1 a); [|reflexivity]. apply T2. intros F. apply H. split; [now apply Ga|exact F].
Qed.

(** ADD and SUBTRACT CORRESPONDING: the same pairs. *)
Theorem C75_arith_corresponding : forall es1 es2 ns1 ns2 skip1 skip2 a b,
  no_66_78 es1 -> no_66_78 es2 -> build es1 = Ok (Some ns1) -> build es2 = Ok (Some ns2) ->
  (a < length es1)%nat -> (b < length es2)%nat ->
  match arith_corresponding (ns1, skip1) (ns2, skip2) a b with
  | Some l => group es1 a /\ group es2 b /\ pairs_of es1 es2 skip1 skip2 a b l
  | None => ~ (group es1 a /\ group es2 b)
  end.
Proof.
  intros es1 es2 ns1 ns2 skip1 skip2 a b N1 N2 B1 B2 La Lb.
  pose proof (built _ _ N1 B1) as I1. pose proof (built _ _ N2 B2) as I2. pose proof (iv_len _ _ I1) as Ln.
  pose proof (has_children_group es1 ns1 I1 a La) as Ga. pose proof (has_children_group es2 ns2 I2 b Lb) as Gb.
  unfold arith_corresponding. cbn [fst].
  destruct (has_children ns1 a); destruct (has_children ns2 b); cbn [andb].
  - split; [now apply Ga|]. split; [now apply Gb|]. split.
    + apply (emit_nodup es1 es2); auto. lia.
    + intros i j. apply (emit_in es1 es2); auto. lia.
  - intros [_ H]. apply Gb in H. discriminate.
  - intros [H _]. apply Ga in H. discriminate.
  - intros [H _]. apply Ga in H. discriminate.
Qed.

(** Refuted: FILLER items do not correspond.  A FILLER has a name of its own
    (tree.c 2004-2014), so that it corresponds to itself in a move from one
    element of a table to another. *)
Theorem C75_filler_refuted : exists es ns skip a filler,
  valid es /\ no_66_78 es /\ build es = Ok (Some ns) /\
  (forall i j, (i < length es)%nat -> (j < length es)%nat -> named es i = filler -> named es j = filler -> i = j) /\
  exists l i, move_corresponding (ns, skip) (ns, skip) a [a] = Some l /\ In (i, i) l /\ named es i = filler.
Proof.
  set (es := [(1, 1); (5, 2); (10, 3); (10, 4)] : list entry).
  assert (no_66_78 es) as N.
  { intros x H. cbn in H. repeat (destruct H as [<- | H]; [cbn; lia|]). destruct H. }
  pose proof (build_inv es N) as B. destruct (build es) as [[ns|]| |] eqn:E; [|vm_compute in E; discriminate|destruct B|destruct B].
  exists es, ns, (fun i => Nat.eqb i 1), 1%nat, 3.
  split; [apply (iv_valid _ _ B)|]. split; [exact N|]. split; [exact E|]. split.
  - intros i j Li Lj. cbn in Li, Lj.
    do 4 (destruct i as [|i]; [do 4 (destruct j as [|j]; [cbn; intros; congruence || lia|]); lia|]). lia.
  - vm_compute in E. injection E as <-. eexists _, 2%nat. split; [vm_compute; reflexivity|]. split; [now left|reflexivity].
Qed.

(** Refuted: ADD CORRESPONDING adds only elementary items: a group is added to
    an item of the same name. *)
Theorem C75_add_group_refuted : exists es1 es2 ns1 ns2 skip a b l i j,
  no_66_78 es1 /\ no_66_78 es2 /\ build es1 = Ok (Some ns1) /\ build es2 = Ok (Some ns2) /\
  arith_corresponding (ns1, skip) (ns2, skip) a b = Some l /\ In (i, j) l /\ group es2 j.
Proof.
  set (es1 := [(1, 1); (5, 2)] : list entry). set (es2 := [(1, 3); (5, 2); (10, 4)] : list entry).
  exists es1, es2. eexists _, _, (fun _ => false), 0%nat, 0%nat, _, 1%nat, 1%nat.
  assert (no_66_78 es1) as N1 by (intros x H; cbn in H; repeat (destruct H as [<- | H]; [cbn; lia|]); destruct H).
  assert (no_66_78 es2) as N2 by (intros x H; cbn in H; repeat (destruct H as [<- | H]; [cbn; lia|]); destruct H).
  split; [exact N1|]. split; [exact N2|]. split; [vm_compute; reflexivity|]. split; [vm_compute; reflexivity|].
  split; [vm_compute; reflexivity|]. split; [now left|].
  pose proof (build_inv es2 N2) as B. destruct (build es2) as [[ns|]| |] eqn:E; [|vm_compute in E; discriminate|destruct B|destruct B].
  apply (has_children_group es2 ns); [exact B|cbn; lia|]. vm_compute in E. injection E as <-. reflexivity.
Qed.

(** *** Cases *)
(** 01 A: 05 X, 05 G (10 P, 10 Q), 05 R (skipped), 05 H (10 U).
    01 B: 05 Q, 05 G (10 Q, 10 P), 05 R, 05 X, 05 H. *)
Definition ga : list entry := [(1, 1); (5, 10); (5, 20); (10, 30); (10, 31); (5, 40); (5, 50); (10, 51)].
Definition gb : list entry := [(1, 2); (5, 31); (5, 20); (10, 31); (10, 30); (5, 40); (5, 10); (5, 50)].
Example C75_sample : match build ga, build gb with
  | Ok (Some x), Ok (Some y) =>
    move_corresponding (x, fun i => Nat.eqb i 5) (y, fun _ => false) 0 [0%nat] = Some [(1, 6); (3, 4); (4, 3); (6, 7)]%nat
  | _, _ => False
  end.
Proof. vm_compute. reflexivity. Qed.
Example C75_not_a_group : match build ga, build gb with
  | Ok (Some x), Ok (Some y) => move_corresponding (x, fun _ => false) (y, fun _ => false) 1 [0%nat] = None
  | _, _ => False
  end.
Proof. vm_compute. reflexivity. Qed.

Print Assumptions C75_move_corresponding.
Print Assumptions C75_arith_corresponding.
Print Assumptions C75_filler_refuted.
Print Assumptions C75_add_group_refuted.
