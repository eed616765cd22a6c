(** C74: level numbers give the hierarchy, and a qualified name means the one
    item it can mean. *)
From Verif Require Import Base Names SpecNames NamesThm NamesThm2 NamesThm3 NamesThm4 NamesThm5 NamesThm6.
Local Open Scope Z_scope.

(** Level 66 and 78 are not modelled. *)
Definition no_66_78 (es : list entry) : Prop := forall x, In x es -> fst x <> 66 /\ fst x <> 78.

(** A section is accepted exactly if its level numbers are correct. *)
Theorem C74_accepted : forall es, no_66_78 es ->
  (valid es -> exists ns, build es = Ok (Some ns)) /\
  (~ valid es -> build es = Ok None).
Proof.
  intros es N. pose proof (build_inv es N) as B.
  destruct (build es) as [[ns|]| |]; try contradiction; split; intros V; auto.
  - eauto.
  - elim V. apply (iv_valid _ _ B).
  - contradiction.
Qed.

(** Then each item belongs to the item that its level number says, the parts of
    an item are found in the order of the source, and so are the records. *)
Theorem C74_hierarchy : forall es ns, no_66_78 es -> build es = Ok (Some ns) ->
  length ns = length es /\
  (forall i, (i < length es)%nat ->
     n_level (get ns i) = level es i /\ n_name (get ns i) = named es i /\
     (forall p, n_parent (get ns i) = Some p <-> parent_of es i p) /\
     parts es i (children ns i)) /\
  (es <> [] -> records es (sisters (length ns) ns (Some 0%nat))).
Proof.
  intros es ns N B. pose proof (build_inv es N) as I. rewrite B in I.
  split; [apply (iv_len _ _ I)|]. split.
  - intros i L. split; [now apply (iv_lev _ _ I)|]. split; [now apply (iv_name _ _ I)|]. split.
    + intros p. now apply inv_parent.
    + rewrite (inv_children es ns I i L). split; [apply filter_seq_sorted|]. apply (kids_in es ns I).
  - intros Ne. rewrite (inv_records es ns I Ne). split; [apply filter_seq_sorted|]. apply (tops_in es ns I).
Qed.

(** What "n OF c" can mean in a program with the sections [secs] (each with the
    file it describes) and the other names [others]. *)
Definition name_of_file (others : list (Z * thing)) (f : option nat) (q : Z) : Prop :=
  exists k, f = Some k /\ In (q, TFile k) others.
Definition can_be (secs : list (option nat * list entry)) (others : list (Z * thing))
    (n : Z) (c : list Z) (v : thing) : Prop :=
  match v with
  | TItem s i => exists f es, nth_error secs s = Some (f, es) /\ (i < length es)%nat /\
                   named es i = n /\ can_mean es (name_of_file others f) i c
  | _ => In (n, v) others /\ c = []
  end.
(** Names of programs: other names are listed once, and the name of a file
    names nothing else. *)
Record good_names (secs : list (option nat * list entry)) (others : list (Z * thing)) : Prop := mkGood {
  gn_levels : forall f es, In (f, es) secs -> no_66_78 es;
  gn_others : forall n v, In (n, v) others -> forall s i, v <> TItem s i;
  gn_once : NoDup others;
  gn_file : forall q f, In (q, TFile f) others ->
    (forall v, In (q, v) others -> v = TFile f) /\
    (forall f' es i, In (f', es) secs -> (i < length es)%nat -> named es i <> q) }.

Theorem C74_reference : forall secs others g, good_names secs others -> compile secs others = Ok (Some g) ->
  forall n c,
  (forall v, resolve g n c = Found v <->
     can_be secs others n c v /\ forall w, can_be secs others n c w -> w = v) /\
  (resolve g n c = Undefined <-> forall v, ~ can_be secs others n c v) /\
  (resolve g n c = Ambiguous <->
     exists v w, v <> w /\ can_be secs others n c v /\ can_be secs others n c w).
Proof.
  intros secs others g [G1 G2 G3 G4] C n c.
  pose proof (resolve_three secs others g C G1 G2 G3 G4 n c) as T.
  change (means secs others n c) with (can_be secs others n c) in T.
  destruct (resolve g n c) as [u| |].
  - destruct T as [T1 T2]. split; [|split].
    + intros v. split; [intros H; injection H as <-; auto|]. intros [_ H]. now rewrite (H u T1).
    + split; [discriminate|]. intros H. elim (H u T1).
    + split; [discriminate|]. intros (v & w & Nv & Hv & Hw). elim Nv. now rewrite (T2 v Hv), (T2 w Hw).
  - split; [|split].
    + intros v. split; [discriminate|]. intros [H _]. elim (T v H).
    + split; auto.
    + split; [discriminate|]. intros (v & w & _ & Hv & _). elim (T v Hv).
  - destruct T as (v & w & Nv & Hv & Hw). split; [|split].
    + intros u. split; [discriminate|]. intros [_ H]. elim Nv. now rewrite (H v Hv), (H w Hw).
    + split; [discriminate|]. intros H. elim (H v Hv).
    + split; [intros _; eauto|auto].
Qed.

(** A procedure name: within a section its own paragraphs come first. *)
Theorem C74_procedure : forall (l : list proc) n c cur,
  (forall i s, lies_in l s i -> (s < length l)%nat) ->
  let result P := match proc_ref (labels l) (PWord n c) cur with
                  | Undefined => forall v, ~ P v
                  | Found (TOther v) => only P v
                  | Found _ => False
                  | Ambiguous => several P
                  end in
  match c with
  | [] =>
    (forall s, cur = Some s -> (exists p, is_named l n p /\ lies_in l s p) ->
       result (fun p => is_named l n p /\ lies_in l s p)) /\
    ((forall s, cur = Some s -> forall p, is_named l n p -> ~ lies_in l s p) ->
       result (is_named l n))
  | [q] => result (fun p => is_named l n p /\ of_section l q p)
  | _ => result (fun _ => False)
  end.
Proof.
  intros l n c cur W. cbv zeta. cbn [proc_ref]. unfold label_ref. fold (cands l n).
  assert (NoDup (cands l n)) as ND by apply filter_seq_nodup.
  destruct c as [|q [|q' r]].
  - rewrite scan_own by reflexivity. split.
    + intros s -> (p & Hp1 & Hp2).
      replace (existsb (ownb (labels l) (Some s)) (cands l n)) with true.
      2:{ symmetry. apply existsb_exists. exists p. split; [now apply cands_in|]. apply (ownb_in l s n); assumption. }
      apply pick_three; [now apply NoDup_filter|]. intros v. rewrite filter_In, cands_in.
      split; intros [H1 H2]; (split; [exact H1|]); apply (ownb_in l s n v H1); exact H2.
    + intros H. replace (existsb (ownb (labels l) cur) (cands l n)) with false.
      2:{ symmetry. destruct (existsb _ _) eqn:X; [|reflexivity]. apply existsb_exists in X.
          destruct X as (p & X1 & X2). apply cands_in in X1. destruct cur as [s|].
          - elim (H s eq_refl p X1). now apply (ownb_in l s n p X1).
          - unfold ownb in X2. destruct (l_section (lget (labels l) p)); discriminate. }
      cbn [rest_of]. apply pick_three; [exact ND|]. apply cands_in.
  - rewrite scan_of by reflexivity. cbn [rest_of]. apply pick_three; [now apply NoDup_filter|].
    intros v. rewrite filter_In, cands_in. pose proof (fun s => W v s) as Wv.
    split; intros [H1 H2]; (split; [exact H1|]); apply (ofb_in l q n v Wv H1); exact H2.
  - rewrite scan_long. auto.
Qed.

(** Refuted: the section of a numeric paragraph name is ignored: 100 OF 200 in
    another section with a paragraph 100 means the paragraph there. *)
Theorem C74_numeric_section_refuted : exists (l : list proc) p w,
  only (fun i => is_named l 100 i /\ of_section l 200 i) w /\
  p = PNumber 100 (Some 200) /\
  exists v, v <> w /\ proc_ref (labels l) p (Some 2%nat) = Found (TOther v).
Proof.
  exists [(200, None); (100, Some 0%nat); (300, None); (100, Some 2%nat)], (PNumber 100 (Some 200)), 1%nat.
  split; [|split; [reflexivity|exists 3%nat; split; [discriminate|vm_compute; reflexivity]]].
  split.
  - split; [exists (Some 0%nat); reflexivity|]. exists 0%nat, None. split; [exists 100; reflexivity|reflexivity].
  - intros i [(s & H) (s' & t & (m & H2) & H3)].
    destruct i as [|[|[|[|i]]]]; cbn in *; try discriminate; try reflexivity.
    + injection H2 as <- <-. cbn in H3. discriminate.
    + destruct i; discriminate.
Qed.

(** *** Cases *)
(** 01 R. 05 A. 10 X. 88 C. 10 Y. 05 B. 10 X. 01 S. 77 T. *)
Definition sample : list entry :=
  [(1, 100); (5, 1); (10, 2); (88, 3); (10, 4); (5, 5); (10, 2); (1, 101); (77, 6)].
Definition sample_program := [(Some 0%nat, sample); (None, [(1, 2)])].
Definition sample_others := [(50, TFile 0); (60, TOther 0)].
Example C74_sample_tree : match build sample with
  | Ok (Some ns) => (children ns 0, children ns 1, children ns 2, n_parent (get ns 3), sisters 9 ns (Some 0%nat))
                    = ([1; 5], [2; 4], [], Some 2, [0; 7; 8])%nat
  | _ => False
  end.
Proof. vm_compute. reflexivity. Qed.
Example C74_sample_valid : valid sample /\ no_66_78 sample.
Proof.
  assert (no_66_78 sample) as N.
  { intros x H. cbn in H. repeat (destruct H as [<- | H]; [cbn; lia|]). destruct H. }
  split; [|exact N]. pose proof (build_inv sample N) as B.
  destruct (build sample) as [[ns|]| |] eqn:E; [apply (iv_valid _ _ B)|vm_compute in E; discriminate|destruct B..].
Qed.
Example C74_sample_names : good_names sample_program sample_others.
Proof.
  split.
  - intros f es H. cbn in H. destruct H as [H | [H | []]]; injection H as <- <-.
    + apply C74_sample_valid.
    + intros x [<- | []]. cbn. lia.
  - intros n v H s i. cbn in H. destruct H as [H | [H | []]]; injection H as <- <-; discriminate.
  - repeat constructor; cbn; intuition discriminate.
  - intros q f H. cbn in H. destruct H as [H | [H | []]]; [|discriminate]. injection H as <- <-. split.
    + intros v [H | [H | []]]; injection H; congruence.
    + intros f es i H L E. cbn in H. destruct H as [H | [H | []]]; injection H as <- <-.
      * do 9 (destruct i as [|i]; [cbn in E; lia|]). cbn in L. lia.
      * destruct i as [|i]; [cbn in E; lia|]. cbn in L. lia.
Qed.
Example C74_sample_references :
  match compile sample_program sample_others with
  | Ok (Some g) =>
    (resolve g 2 [1; 100], resolve g 2 [1], resolve g 2 [5; 50], resolve g 2 [50], resolve g 2 [], resolve g 3 [100], resolve g 4 [5])
    = (Found (TItem 0 2), Found (TItem 0 2), Found (TItem 0 6), Ambiguous, Ambiguous, Found (TItem 0 3), Undefined)
  | _ => False
  end.
Proof. vm_compute. reflexivity. Qed.
(** 05 after 10 in a group that began with 07 is refused. *)
Example C74_sample_refused : build [(1, 1); (7, 2); (10, 3); (5, 4)] = Ok None.
Proof. vm_compute. reflexivity. Qed.
(** In section 2 its own paragraph 100 is meant, elsewhere it is ambiguous. *)
Example C74_sample_paragraphs :
  let l := labels [(200, None); (100, Some 0%nat); (300, None); (100, Some 2%nat)] in
  (proc_ref l (PWord 100 []) (Some 2%nat), proc_ref l (PWord 100 []) None, proc_ref l (PWord 100 [200]) (Some 2%nat))
  = (Found (TOther 3), Ambiguous, Found (TOther 1)).
Proof. vm_compute. reflexivity. Qed.

Print Assumptions C74_accepted.
Print Assumptions C74_hierarchy.
Print Assumptions C74_reference.
Print Assumptions C74_procedure.
Print Assumptions C74_numeric_section_refuted.
