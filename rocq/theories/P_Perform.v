(** C65: PERFORM, GO TO and EXIT.  The jumps cobc generates carry out the
    structured execution of SpecPerform.v and nothing else. *)
From Coq Require Import List ZArith Lia Bool Arith.
From Verif Require Import Perform SpecPerform PerformProofs.
Import ListNotations.
Local Open Scope Z_scope.

Lemma rest_start : forall St Ex (items : list (item St Ex)), rest_at St Ex items 0 items.
Proof. intros St Ex items. split; [intros i x H; exact H|reflexivity]. Qed.

(** A run of the generated code ends with [f] iff the structured execution of
    the program ends with [f], except when a PERFORM TIMES is executed while it
    is being executed. *)
Theorem C65_control : forall St Ex check osvs (items : list (item St Ex)) s f,
  well_formed items ->
  (ev check osvs items [] [] (TRun items) s (Ends f) -> exists N, runs check osvs (compile items) N (start s) = Some f) /\
  ((exists N, runs check osvs (compile items) N (start s) = Some f) ->
   ev check osvs items [] [] (TRun items) s (Ends f) \/ ev check osvs items [] [] (TRun items) s Reentered).
Proof.
  intros St Ex check osvs items s f WF. split.
  - intros E. exact (sim _ _ _ _ _ WF _ _ _ _ _ E 0%nat 0%nat 0%nat 0%nat [] (fun _ => 0) (rest_start _ _ _) (fun st H => H) eq_refl (fun e H => match H with end)).
  - intros (N & R).
    destruct (back _ _ _ _ _ WF N _ (TRun items) (le_n _) [] [] s 0%nat 0%nat 0%nat 0%nat [] (fun _ => 0) f (rest_start _ _ _) (fun st H => H) eq_refl (fun e H => match H with end) R) as (r & E).
    pose proof (sim _ _ _ _ _ WF _ _ _ _ _ E 0%nat 0%nat 0%nat 0%nat [] (fun _ => 0) (rest_start _ _ _) (fun st H => H) eq_refl (fun e H => match H with end)) as A.
    pose proof (pop_ok _ _ _ _ _ _ _ _ _ _ E) as P. destruct r as [s'|l s'|s'|s'|j s'|g|]; try contradiction.
    + destruct A as (k & n' & t & ret & q & A & _). exfalso. destruct j; discriminate A.
    + destruct A as (k & A). left. now rewrite (runs_det _ _ _ _ _ _ _ _ R _ _ A).
    + now right.
Qed.
Print Assumptions C65_control.

(** A structured execution has one result: the exception above excludes every
    other end. *)
Theorem C65_one_result : forall St Ex check osvs (items : list (item St Ex)) es act t s r r',
  ev check osvs items es act t s r -> ev check osvs items es act t s r' -> r = r'.
Proof. intros. eapply ev_det; eassumption. Qed.
Print Assumptions C65_one_result.

(** No PERFORM TIMES: no exception.  The program loops for ever iff it has no
    structured execution. *)
Fixpoint no_times {St Ex} (s : stmt St Ex) : Prop :=
  let ok p := match p with PTimes _ _ => False | _ => True end in
  match s with
  | Seq a b | If _ a b => no_times a /\ no_times b
  | Inline p b => ok p /\ no_times b
  | Outline p _ _ => ok p
  | _ => True
  end.
Definition nt_body {St Ex} (b : body St Ex) : Prop := match b with BIn s => no_times s | BOut _ _ => True end.
Definition nt_phrase {St Ex} (p : phrase St Ex) : Prop := match p with PTimes _ _ => False | _ => True end.
Definition nt_task {St Ex} (t : task St Ex) : Prop :=
  match t with
  | TStmt s => no_times s
  | TPhrase p b => nt_phrase p /\ nt_body b
  | TBody b | TForever b | TUntil _ b _ | TTimes _ b _ => nt_body b
  | TRun is => forall s, In (Code s) is -> no_times s
  end.
Lemma no_reenter : forall St Ex check osvs (items : list (item St Ex)), (forall s, In (Code s) items -> no_times s) ->
  forall es act t s r, ev check osvs items es act t s r -> nt_task t -> r <> Reentered.
Proof.
  intros St Ex check osvs items NT es act t s r H.
  assert (FL : forall l, nt_task (TRun (from_label l items))) by (intros l st IS; apply suffix_from in IS; auto).
  induction H; intros K; cbn [nt_task nt_phrase nt_body no_times] in *; try discriminate; try tauto.
  - destruct (o s); discriminate.
  - apply IHev. destruct v; tauto.
  - destruct r; try discriminate. exfalso. apply IHev; [|reflexivity]. destruct K as [K1 K2]. split; [destruct p; tauto|exact K2].
  - destruct r; try discriminate. exfalso. now apply (IHev K).
  - destruct r as [?|? ?|?|?|[|j] ?|?|]; try discriminate. exfalso. now apply (IHev (FL lb)).
  - apply IHev. intros st IS. apply K. now right.
  - apply IHev. intros st IS. apply K. now right.
  - apply IHev2. intros st IS. apply K. now right.
  - apply IHev2. exact (FL l).
  - apply IHev. apply K. now left.
Qed.
Theorem C65_iff : forall St Ex check osvs (items : list (item St Ex)) s f,
  well_formed items -> (forall a, In (Code a) items -> no_times a) ->
  (ev check osvs items [] [] (TRun items) s (Ends f) <-> exists N, runs check osvs (compile items) N (start s) = Some f).
Proof.
  intros St Ex check osvs items s f WF NT. destruct (C65_control _ _ check osvs items s f WF) as [A B]. split; [exact A|].
  intros H. destruct (B H) as [E|E]; [exact E|]. exfalso. exact (no_reenter _ _ _ _ _ NT _ _ _ _ _ E (fun st I => NT st I) eq_refl).
Qed.
Print Assumptions C65_iff.

(** PERFORM n TIMES: n is read once, and the body is executed n times, for a
    body that always ends normally. *)
Theorem C65_times : forall St Ex check osvs (items : list (item St Ex)) es act k n b s v s' (F : St -> St),
  ~ In k act -> n s = inl (v, s') ->
  (forall a, ev check osvs items es (k :: act) (TBody b) a (Normal (F a))) ->
  ev check osvs items es act (TPhrase (PTimes k n) b) s (Normal (Nat.iter (Z.to_nat v) F s')).
Proof.
  intros St Ex check osvs items es act k n b s v s' F NI RD HB. eapply ev_times; [exact RD|exact NI|].
  clear RD. destruct (Z_le_gt_dec v 0) as [L|G]; [replace (Z.to_nat v) with 0%nat by lia; now apply ev_t_done|].
  assert (X : forall m v a, v = Z.of_nat m -> ev check osvs items es (k :: act) (TTimes k b v) a (Normal (Nat.iter m F a))).
  { clear - HB. intros m. induction m as [|m IH]; intros v a ->; [now apply ev_t_done|].
    eapply ev_t_next; [lia|apply HB|].
    replace (Nat.iter (S m) F a) with (Nat.iter m F (F a)); [apply IH; lia|]. clear. induction m as [|m IH]; [reflexivity|]. exact (f_equal F IH). }
  apply X. lia.
Qed.
Print Assumptions C65_times.

(** PERFORM A THRU Z, for consecutive paragraphs whose statements end normally:
    they are executed in turn, once each, and control comes back. *)
Lemma Forall2_length : forall A B (R : A -> B -> Prop) l l', Forall2 R l l' -> length l = length l'.
Proof. intros A B R l l' H. induction H; [reflexivity|]. cbn [length]. now f_equal. Qed.
Definition run_all {St} (Fs : list (St -> St)) (s : St) : St := fold_left (fun a F => F a) Fs s.
Theorem C65_thru : forall St Ex check osvs pre post (qs : list (para St Ex)) z es act Fs Fz s,
  let ps := qs ++ [z] in
  let items := pre ++ flat_map para_items ps ++ post in
  let lb := p_name (hd z ps) in
  (length es < 253)%nat ->
  ~ In (Lab lb) pre ->
  Forall (fun p => p_name p <> p_name z /\ ~ In (p_name p) es) qs ->
  Forall2 (fun p F => forall a, ev check osvs items (p_name z :: es) act (TStmt (p_body p)) a (Normal (F a))) ps (Fs ++ [Fz]) ->
  ev check osvs items es act (TStmt (Outline POnce lb (p_name z))) s (Normal (Fz (run_all Fs s))).
Proof.
  intros St Ex check osvs pre post qs z es act Fs Fz s ps items lb LE NI NE H.
  apply ev_outline, ev_once. change (Normal (Fz (run_all Fs s))) with (@pop St Ex (Returns 0 (Fz (run_all Fs s)))). apply ev_out; [lia|lia|].
  assert (FL : from_label lb items = flat_map para_items ps ++ post).
  { unfold items. clear - NI. revert NI. induction pre as [|i pre IH]; intros NI.
    - cbn [app]. unfold lb, ps. destruct qs as [|q qs]; cbn [app hd flat_map para_items from_label]; now rewrite Nat.eqb_refl.
    - cbn [app from_label]. destruct i as [k|k|c]; [|apply IH; intros X; apply NI; now right|apply IH; intros X; apply NI; now right].
      destruct (Nat.eqb_spec k lb) as [->|N]; [exfalso; apply NI; now left|]. apply IH. intros X; apply NI; now right. }
  rewrite FL. clear FL. clearbody items. clear lb NI LE. unfold ps in *. clear ps. revert Fs H s. clear pre. induction qs as [|q qs IH]; intros Fs H s.
  - cbn [app] in H. destruct Fs as [|F0 Fs]; [|apply Forall2_length in H; cbn [app length] in H; rewrite app_length in H; cbn [length] in H; lia].
    cbn [app] in H. inversion H as [|? ? ? ? H1 H2]; subst. cbn [app flat_map para_items run_all fold_left].
    apply ev_lab. eapply ev_stmt; [apply H1|]. apply ev_lab. apply ev_return. unfold ends_at. destruct osvs; cbn [index_of firstn]; now rewrite Nat.eqb_refl.
  - cbn [app] in H. destruct Fs as [|F0 Fs].
    { apply Forall2_length in H. cbn [app length] in H. rewrite app_length in H. cbn [length] in H. lia. }
    cbn [app] in H. inversion H as [|? ? ? ? H1 H2]; subst. inversion NE as [|? ? [N1 N2] NE']; subst.
    cbn [app flat_map para_items]. apply ev_lab. eapply ev_stmt; [apply H1|]. apply ev_lab. apply ev_pass.
    { unfold ends_at. assert (Y : index_of (p_name q) es = None).
      { clear - N2. induction es as [|e es IH]; [reflexivity|]. cbn [index_of]. destruct (Nat.eqb_spec e (p_name q)) as [->|N]; [exfalso; apply N2; now left|].
        rewrite IH; [reflexivity|]. intros X; apply N2; now right. }
      destruct osvs; cbn [index_of firstn]; destruct (Nat.eqb_spec (p_name z) (p_name q)) as [E|_]; try (exfalso; now apply N1); [now rewrite Y|reflexivity]. }
    cbn [run_all fold_left]. apply IH; assumption.
Qed.
Print Assumptions C65_thru.

(** EXIT PARAGRAPH and EXIT SECTION, which cobc turns into a GO TO a label of its
    own: they end the PERFORM of the paragraph or section. *)
Lemma from_label_app : forall St Ex l (pre rest : list (item St Ex)), ~ In (Lab l) pre -> from_label l (pre ++ rest) = from_label l rest.
Proof.
  intros St Ex l pre rest. induction pre as [|i pre IH]; intros N; [reflexivity|]. cbn [app from_label].
  destruct i as [k|k|c]; [|apply IH; intros X; apply N; now right|apply IH; intros X; apply N; now right].
  destruct (Nat.eqb_spec k l) as [->|_]; [exfalso; apply N; now left|]. apply IH. intros X. apply N. now right.
Qed.
Lemma ends_top : forall osvs l es, ends_at osvs l (l :: es) = Some 0%nat.
Proof. intros osvs l es. unfold ends_at. destruct osvs; cbn [index_of firstn]; now rewrite Nat.eqb_refl. Qed.
Theorem C65_exit_paragraph : forall St Ex check osvs pre (p : para St Ex) post es act s s',
  let items := pre ++ para_items p ++ post in
  (length es < 253)%nat -> ~ In (Lab (p_name p)) pre -> ~ In (Lab (p_exit p)) pre -> p_exit p <> p_name p ->
  ev check osvs items (p_name p :: es) act (TStmt (p_body p)) s (Goes (p_exit p) s') ->
  ev check osvs items es act (TStmt (Outline POnce (p_name p) (p_name p))) s (Normal s').
Proof.
  intros St Ex check osvs pre p post es act s s' items LE N1 N2 NE H. apply ev_outline, ev_once.
  apply (ev_out _ _ _ _ _ _ _ _ _ _ (Returns 0 s')); [lia|lia|]. replace (from_label (p_name p) items) with (para_items p ++ post).
  2: { unfold items. rewrite from_label_app by exact N1. cbn [para_items app from_label]. now rewrite Nat.eqb_refl. }
  cbn [para_items app]. apply ev_lab. eapply ev_jump; [exact H|]. unfold items at 2. rewrite from_label_app by exact N2. cbn [para_items app from_label].
  destruct (Nat.eqb_spec (p_name p) (p_exit p)) as [E|_]; [exfalso; now apply NE|]. rewrite Nat.eqb_refl. apply ev_lab, ev_return, ends_top.
Qed.
Print Assumptions C65_exit_paragraph.

(** From any place in a performed section. *)
Theorem C65_exit_section : forall St Ex check osvs pre (p : section St Ex) post rest c es act s s',
  let items := pre ++ section_items p ++ post in
  ~ In (Lab (s_exit p)) pre -> s_exit p <> s_name p -> (forall q, In q (s_paras p) -> p_name q <> s_exit p /\ p_exit q <> s_exit p) ->
  ev check osvs items (s_name p :: es) act (TStmt c) s (Goes (s_exit p) s') ->
  ev check osvs items (s_name p :: es) act (TRun (Code c :: rest)) s (Returns 0 s').
Proof.
  intros St Ex check osvs pre p post rest c es act s s' items N1 NE NP H. eapply ev_jump; [exact H|]. unfold items at 2. rewrite from_label_app by exact N1.
  cbn [section_items app from_label]. destruct (Nat.eqb_spec (s_name p) (s_exit p)) as [E|_]; [exfalso; now apply NE|].
  rewrite <- app_assoc, from_label_app.
  - cbn [app from_label]. rewrite Nat.eqb_refl. apply ev_lab, ev_return, ends_top.
  - intros I0. apply in_flat_map in I0. destruct I0 as (q & Q & I0). destruct (NP q Q) as [A B]. cbn [para_items In] in I0.
    destruct I0 as [X|[X|[X|[X|[]]]]]; try discriminate; injection X as X; auto.
Qed.
Print Assumptions C65_exit_section.
(** PERFORM of a section: from its label on. *)
Theorem C65_perform_section : forall St Ex check osvs pre (p : section St Ex) post es act s s',
  let items := pre ++ section_items p ++ post in
  (length es < 253)%nat -> ~ In (Lab (s_name p)) pre ->
  ev check osvs items (s_name p :: es) act (TRun (Code (s_body p) :: flat_map para_items (s_paras p) ++ [Lab (s_exit p); End (s_name p)] ++ post)) s (Returns 0 s') ->
  ev check osvs items es act (TStmt (Outline POnce (s_name p) (s_name p))) s (Normal s').
Proof.
  intros St Ex check osvs pre p post es act s s' items LE N1 H. apply ev_outline, ev_once.
  apply (ev_out _ _ _ _ _ _ _ _ _ _ (Returns 0 s')); [lia|lia|]. unfold items at 2. rewrite from_label_app by exact N1. cbn [section_items app from_label]. rewrite Nat.eqb_refl.
  apply ev_lab. rewrite <- app_assoc. exact H.
Qed.
Print Assumptions C65_perform_section.

(** ** Concrete programs *)
Definition add1 : op Z unit := fun d => inl (d + 1).
Definition lt (k : Z) : test Z unit := fun d => inl (d <? k, d).
Definition two : int_of Z unit := fun d => inl (2, d).

(** PERFORM VARYING I FROM 1 BY 1 UNTIL I > m AFTER J FROM 1 BY 1 UNTIL J > n:
    all the pairs, J fastest; afterwards I = m + 1 and J = 1. *)
Record ij := mkIJ { i_ : Z; j_ : Z; seen : list (Z * Z) }.
Definition vary_ij (m n : Z) : list (varying ij unit) :=
  [mkVar (Some (fun s => inl (mkIJ 1 (j_ s) (seen s)))) (fun s => inl (m <? i_ s, s)) (Some (fun s => inl (mkIJ (i_ s + 1) (j_ s) (seen s))));
   mkVar (Some (fun s => inl (mkIJ (i_ s) 1 (seen s)))) (fun s => inl (n <? j_ s, s)) (Some (fun s => inl (mkIJ (i_ s) (j_ s + 1) (seen s))))].
Definition see : stmt ij unit := Do (fun s => inl (mkIJ (i_ s) (j_ s) (seen s ++ [(i_ s, j_ s)]))).
Definition vary_prog (m n : Z) : list (item ij unit) := [Lab 1; Code (Inline (PUntil true (vary_ij m n)) see)].
Definition upto (n : nat) : list Z := map Z.of_nat (seq 1 n).
Definition pairs (m n : nat) : list (Z * Z) := flat_map (fun i => map (fun j => (i, j)) (upto n)) (upto m).
Lemma vary_wf : forall m n, well_formed (vary_prog m n).
Proof. intros m n s [H|[H|[]]]; [discriminate|]. injection H as <-. cbn [labels_ok exits_ok see]. auto. Qed.
Lemma vary_inner : forall check osvs items (m n : nat) d i l, (d <= n)%nat ->
  ev check osvs items [] [] (TUntil true (BIn see) (tl (vary_ij (Z.of_nat m) (Z.of_nat n)))) (mkIJ i (Z.of_nat (n - d) + 1) l)
     (Normal (mkIJ i (Z.of_nat n + 1) (l ++ map (fun j => (i, j)) (map Z.of_nat (seq (n - d + 1) d))))).
Proof.
  intros check osvs items m n d. induction d as [|d IH]; intros i l L.
  - cbn [seq map]. rewrite app_nil_r, Nat.sub_0_r. eapply ev_ub_done; [reflexivity|]. cbn [v_until j_]. destruct (Z.ltb_spec (Z.of_nat n) (Z.of_nat n + 1)); [reflexivity|lia].
  - cbn [vary_ij tl]. eapply ev_ub_next; [reflexivity| | | |].
    + cbn [v_until j_]. destruct (Z.ltb_spec (Z.of_nat n) (Z.of_nat (n - S d) + 1)); [lia|reflexivity].
    + apply ev_u_body. apply (ev_in _ _ _ _ _ _ _ see _ (of_op (inl (mkIJ i (Z.of_nat (n - S d) + 1) (l ++ [(i, Z.of_nat (n - S d) + 1)]))))).
      apply (ev_do _ _ _ _ _ _ _ (fun s => inl (mkIJ (i_ s) (j_ s) (seen s ++ [(i_ s, j_ s)])))).
    + reflexivity.
    + cbn [i_ j_ seen]. specialize (IH i (l ++ [(i, Z.of_nat (n - S d) + 1)]) ltac:(lia)). cbn [vary_ij tl] in IH.
      replace (Z.of_nat (n - S d) + 1 + 1) with (Z.of_nat (n - d) + 1) by lia. rewrite <- app_assoc in IH.
      replace (map (fun j => (i, j)) (map Z.of_nat (seq (n - S d + 1) (S d)))) with ([(i, Z.of_nat (n - S d) + 1)] ++ map (fun j => (i, j)) (map Z.of_nat (seq (n - d + 1) d))); [exact IH|].
      cbn [seq map app]. replace (S (n - S d + 1)) with (n - d + 1)%nat by lia. f_equal. f_equal. lia.
Qed.
Lemma vary_outer : forall check osvs items (m n : nat) d j l, (d <= m)%nat ->
  ev check osvs items [] [] (TUntil true (BIn see) (vary_ij (Z.of_nat m) (Z.of_nat n))) (mkIJ (Z.of_nat (m - d) + 1) j l)
     (Normal (mkIJ (Z.of_nat m + 1) 1 (l ++ flat_map (fun i => map (fun j => (i, j)) (upto n)) (map Z.of_nat (seq (m - d + 1) d))))).
Proof.
  intros check osvs items m n d. induction d as [|d IH]; intros j l L.
  - cbn [seq map flat_map]. rewrite app_nil_r, Nat.sub_0_r. eapply ev_ub_done; [reflexivity|]. cbn [v_until i_]. destruct (Z.ltb_spec (Z.of_nat m) (Z.of_nat m + 1)); [reflexivity|lia].
  - unfold vary_ij. eapply ev_ub_next; [reflexivity| | | |].
    + cbn [v_until i_]. destruct (Z.ltb_spec (Z.of_nat m) (Z.of_nat (m - S d) + 1)); [lia|reflexivity].
    + pose proof (vary_inner check osvs items m n n (Z.of_nat (m - S d) + 1) l (le_n _)) as V. rewrite Nat.sub_diag in V. cbn [vary_ij tl] in V. exact V.
    + reflexivity.
    + cbn [i_ j_ seen]. specialize (IH (Z.of_nat n + 1) (l ++ map (fun j => (Z.of_nat (m - S d) + 1, j)) (upto n)) ltac:(lia)). unfold vary_ij in IH.
      replace (Z.of_nat (m - S d) + 1 + 1) with (Z.of_nat (m - d) + 1) by lia. rewrite <- app_assoc in IH.
      cbn [seq map flat_map]. replace (S (m - S d + 1)) with (m - d + 1)%nat by lia. replace (Z.of_nat (m - S d + 1)) with (Z.of_nat (m - S d) + 1) by lia. exact IH.
Qed.
Theorem C65_varying : forall check osvs (m n : nat) i j,
  exists N, runs check osvs (compile (vary_prog (Z.of_nat m) (Z.of_nat n))) N (start (mkIJ i j [])) = Some (Finished (mkIJ (Z.of_nat m + 1) 1 (pairs m n))).
Proof.
  intros check osvs m n i j. apply (C65_control _ _ check osvs _ _ _ (vary_wf _ _)).
  apply ev_lab. eapply ev_stmt; [|apply ev_end].
  apply (ev_inline _ _ _ _ _ _ _ _ _ _ (Normal (mkIJ (Z.of_nat m + 1) 1 (pairs m n)))). eapply ev_until; [reflexivity|].
  pose proof (vary_outer check osvs (vary_prog (Z.of_nat m) (Z.of_nat n)) m n m j [] (le_n _)) as V. rewrite Nat.sub_diag in V. exact V.
Qed.
Print Assumptions C65_varying.

(** A program with a loop of GO TO, PERFORM THRU, EXIT PERFORM CYCLE. *)
Definition ex_prog : list (item Z unit) := program_items
  [mkSec 1 2 (Seq (Outline POnce 3 5) (Seq (Inline (PTimes 0 two) (Seq (Do add1) (Seq (If (lt 20) ExitCycle Skip) (Do add1)))) Stop))
     [mkPara 3 4 (Seq (Do add1) (If (lt 10) (Goto 3) Skip)); mkPara 5 6 (Do add1)]].
Example C65_ex_wf : well_formed ex_prog.
Proof.
  intros s H. cbn in H. repeat destruct H as [H|H]; try discriminate; try contradiction; injection H as <-; cbn; tauto.
Qed.
Example C65_ex_run : runs true false (compile ex_prog) 200 (start 0) = Some (Finished 13).
Proof. vm_compute. reflexivity. Qed.
Example C65_ex_ev : ev true false ex_prog [] [] (TRun ex_prog) 0 (Ends (Finished 13)) \/ ev true false ex_prog [] [] (TRun ex_prog) 0 Reentered.
Proof. apply (C65_control _ _ true false _ _ _ C65_ex_wf). exists 200%nat. exact C65_ex_run. Qed.

Example C65_ex_thru : forall check osvs d,
  ev check osvs ([Lab 1; Code (Outline POnce 3 5)] ++ flat_map para_items [mkPara 3 4 (Do add1); mkPara 5 6 (Do add1)] ++ [Lab 7; End 1]) [] []
     (TStmt (Outline POnce 3 5)) d (Normal (d + 1 + 1)).
Proof.
  intros check osvs d. apply (C65_thru Z unit check osvs [Lab 1; Code (Outline POnce 3 5)] [Lab 7; End 1] [mkPara 3 4 (Do add1)] (mkPara 5 6 (Do add1)) [] [] [fun d => d + 1] (fun d => d + 1) d).
  - cbn. lia.
  - cbn. intros [H|[H|[]]]; discriminate.
  - constructor; [cbn; split; [discriminate|tauto]|constructor].
  - constructor; [|constructor; [|constructor]]; intros a; apply (ev_do _ _ _ _ _ _ _ add1).
Qed.
Example C65_ex_times : forall check osvs, ev check osvs [] [] [] (TPhrase (PTimes 0 two) (BIn (Do add1))) 5 (Normal 7).
Proof.
  intros check osvs. apply (C65_times Z unit check osvs [] [] [] 0 two (BIn (Do add1)) 5 2 5 (fun d => d + 1)); [intros []|reflexivity|].
  intros a. apply (ev_in _ _ _ _ _ _ _ (Do add1) a (Normal (a + 1))). apply (ev_do _ _ _ _ _ _ _ add1).
Qed.

Example C65_ex_exit : forall check osvs d,
  ev check osvs ([Lab 1; Code Skip] ++ para_items (mkPara 3 4 (Seq (If (lt 10) (Goto 4) Skip) (Do add1))) ++ [Lab 7; End 1]) [] []
     (TStmt (Outline POnce 3 3)) d (Normal (if d <? 10 then d else d + 1)).
Proof.
  intros check osvs d. destruct (Z.ltb_spec d 10) as [L|G].
  - apply (C65_exit_paragraph Z unit check osvs [Lab 1; Code Skip] (mkPara 3 4 (Seq (If (lt 10) (Goto 4) Skip) (Do add1))) [Lab 7; End 1] [] [] d d);
      [cbn; lia|cbn; intuition discriminate|cbn; intuition discriminate|cbn; discriminate|].
    apply ev_seq_out; [|reflexivity]. eapply (ev_if _ _ _ _ _ _ _ (lt 10)); [reflexivity|]. destruct (Z.ltb_spec d 10); [|lia]. apply ev_goto.
  - apply ev_outline, ev_once. apply (ev_out _ _ _ _ _ _ _ _ _ _ (Returns 0 (d + 1))); [cbn; lia|cbn; lia|]. apply ev_lab.
    eapply ev_stmt; [|apply ev_lab, ev_return, ends_top]. eapply ev_seq; [|apply (ev_do _ _ _ _ _ _ _ add1)].
    eapply (ev_if _ _ _ _ _ _ _ (lt 10)); [reflexivity|]. destruct (Z.ltb_spec d 10); [lia|]. apply ev_skip.
Qed.

Definition ex_sec : section Z unit := mkSec 8 9 (Do add1) [mkPara 3 4 (Seq (Do add1) (Goto 9)); mkPara 5 6 (Do add1)].
Example C65_ex_section : forall check osvs d,
  ev check osvs ([Lab 1; Code Skip] ++ section_items ex_sec ++ [Lab 7; End 1]) [] [] (TStmt (Outline POnce 8 8)) d (Normal (d + 1 + 1)).
Proof.
  intros check osvs d. apply (C65_perform_section Z unit check osvs [Lab 1; Code Skip] ex_sec [Lab 7; End 1]); [cbn; lia|cbn; intuition discriminate|].
  eapply ev_stmt; [apply (ev_do _ _ _ _ _ _ _ add1)|]. apply ev_lab.
  apply (C65_exit_section Z unit check osvs [Lab 1; Code Skip] ex_sec [Lab 7; End 1]); [cbn; intuition discriminate|cbn; discriminate| |].
  - intros q [ <- |[ <- |[]]]; cbn; split; discriminate.
  - eapply ev_seq; [apply (ev_do _ _ _ _ _ _ _ add1)|]. apply ev_goto.
Qed.

(** PERFORM B inside the performed A, with a GO TO from B to the end of A: it
    comes back to A with perform-osvs only. *)
Definition ex_osvs : list (item Z unit) := program_items
  [mkSec 1 2 (Seq (Outline POnce 3 3) Stop)
     [mkPara 3 4 (Seq (Outline POnce 5 5) (Do add1)); mkPara 5 6 (Goto 4)]].
Example C65_ex_osvs : runs true true (compile ex_osvs) 200 (start 0) = Some (Finished 0) /\ runs true false (compile ex_osvs) 200 (start 0) = None.
Proof. vm_compute. auto. Qed.

(** ** Refuted *)

(** P: ADD 1 TO D, IF D < 3 PERFORM P 2 TIMES.  D is 4 and not 5 at the end: the
    inner PERFORM uses up the counter of the outer one.  With the paragraph
    written out in place of PERFORM P, D is 5. *)
Definition ex_rec : list (item Z unit) := program_items
  [mkSec 1 2 (Seq (Outline POnce 3 3) Stop) [mkPara 3 4 (Seq (Do add1) (If (lt 3) (Outline (PTimes 0 two) 3 3) Skip))]].
Definition ex_unfolded : list (item Z unit) := program_items
  [mkSec 1 2 (Seq (Do add1) (Seq (If (lt 3) (Inline (PTimes 0 two) (Seq (Do add1) (If (lt 3) (Inline (PTimes 1 two) (Seq (Do add1) (If (lt 3) Stop Skip))) Skip))) Skip) Stop)) []].
Theorem C65_recursive_times_refuted : forall check osvs,
  runs check osvs (compile ex_rec) 100 (start 0) = Some (Finished 4) /\ runs check osvs (compile ex_unfolded) 100 (start 0) = Some (Finished 5) /\
  ev check osvs ex_rec [] [] (TRun ex_rec) 0 Reentered.
Proof.
  intros check osvs. split; [destruct check, osvs; vm_compute; reflexivity|]. split; [destruct check, osvs; vm_compute; reflexivity|].
  assert (WF : well_formed ex_rec) by (intros s H; cbn in H; repeat destruct H as [H|H]; try discriminate; try contradiction; injection H as <-; cbn; tauto).
  set (P := ex_rec) at 1.
  assert (F : from_label 3 P = [Lab 3; Code (Seq (Do add1) (If (lt 3) (Outline (PTimes 0 two) 3 3) Skip)); Lab 4; End 3; Lab 2; End 1]) by reflexivity.
  assert (P0 : ex_rec = Lab 1 :: Code (Seq (Outline POnce 3 3) Stop) :: from_label 3 P) by reflexivity. rewrite P0. clearbody P. clear P0.
  apply ev_lab. apply ev_leave; [|exact I]. apply ev_seq_out; [|reflexivity]. apply ev_outline, ev_once.
  apply (ev_out _ _ _ _ _ _ _ _ _ _ Reentered); [cbn [length]; lia|cbn [length]; lia|]. rewrite F.
  apply ev_lab. apply ev_leave; [|exact I]. eapply ev_seq; [apply (ev_do _ _ _ _ _ _ _ add1)|]. 
  eapply (ev_if _ _ _ _ _ _ _ (lt 3)); [reflexivity|]. apply ev_outline. eapply (ev_times _ _ _ _ _ _ _ 0 two); [reflexivity|intros []|].
  apply ev_t_out; [lia| |reflexivity]. apply (ev_out _ _ _ _ _ _ _ _ _ _ Reentered); [cbn [length]; lia|cbn [length]; lia|]. rewrite F.
  apply ev_lab. apply ev_leave; [|exact I]. eapply ev_seq; [apply (ev_do _ _ _ _ _ _ _ add1)|].
  eapply (ev_if _ _ _ _ _ _ _ (lt 3)); [reflexivity|]. apply ev_outline. eapply (ev_times_again _ _ _ _ _ _ _ 0 two); [reflexivity|now left].
Qed.
Print Assumptions C65_recursive_times_refuted.

(** P: PERFORM P.  With -fstack-check the program stops with a message; without
    it, the 255th PERFORM writes beyond the end of the stack. *)
Definition ex_deep : list (item Z unit) := program_items [mkSec 1 2 Skip [mkPara 3 4 (Outline POnce 3 3)]].
Theorem C65_depth_refuted : forall osvs,
  runs false osvs (compile ex_deep) 1000 (start 0) = Some StackUB /\ runs true osvs (compile ex_deep) 1000 (start 0) = Some StackFatal.
Proof. intros []; vm_compute; auto. Qed.
Print Assumptions C65_depth_refuted.
