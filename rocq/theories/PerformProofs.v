(** The generated jumps carry out the structured execution (proof file). *)
From Coq Require Import List ZArith Lia Bool Arith Wf_nat.
From Verif Require Import Perform SpecPerform.
Import ListNotations.
Local Open Scope Z_scope.

Section P.
Variables (St Ex : Type) (check osvs : bool) (items : list (item St Ex)).
Notation stmt := (stmt St Ex). Notation item := (item St Ex). Notation phrase := (phrase St Ex). Notation varying := (varying St Ex).
Notation final := (final St Ex). Notation instr := (instr St Ex). Notation conf := (conf St). Notation result := (result St Ex). Notation task := (task St Ex).
Notation body := (body St Ex).
Notation need := (need_return items).
Notation code := (compile items).
Notation step := (step check osvs code).
Notation runs := (runs check osvs code).
Notation ev := (ev check osvs items).

(** ** Lengths *)
Definition bcode (b : body) (x : nat) : nat -> list instr :=
  fun q => match b with BIn st => comp st x (q + len st)%nat q | BOut lb le => [IPush le (q + 2); IGoto lb; IPop] end.
Definition blen (b : body) : nat := match b with BIn st => len st | BOut _ _ => 3%nat end.

Lemma length_opt : forall o : option (op St Ex), length (code_opt o) = len_opt o.
Proof. now destruct o. Qed.
Lemma length_until : forall before b bd vs pc, (forall q, length (bd q) = b) -> length (comp_until before b bd vs pc) = @len_until St Ex b vs.
Proof.
  intros before b bd vs. induction vs as [|v r IH]; intros pc H; cbn [comp_until len_until]; [apply H|]. cbv zeta.
  destruct before; rewrite !app_length, !length_opt, ?app_length, IH by exact H; cbn [length]; lia.
Qed.
Lemma length_phrase : forall p b bd pc, (forall q, length (bd q) = b) -> length (comp_phrase p b bd pc) = @len_phrase St Ex p b.
Proof.
  intros [| |k n|before vs] b bd pc H; cbn [comp_phrase len_phrase]; rewrite ?app_length, ?H; cbn [length]; try lia.
  now rewrite length_opt, length_until.
Qed.
Lemma length_comp : forall (s : stmt) x c pc, length (comp s x c pc) = len s.
Proof.
  induction s as [|a IHa b IHb|o|t a IHa b IHb|l|n ls| | | |p b IHb|p lb le]; intros x c pc; cbn [comp len]; try reflexivity.
  - now rewrite app_length, IHa, IHb.
  - rewrite !app_length, IHa, IHb. cbn [length]. lia.
  - apply length_phrase. intros q. apply IHb.
  - now apply length_phrase.
Qed.
Lemma length_bcode : forall b x q, length (bcode b x q) = blen b.
Proof. intros [b|lb le] x q; cbn [bcode blen]; [apply length_comp|reflexivity]. Qed.
Lemma length_item : forall (i : item) pc, length (comp_item need i pc) = len_item need i.
Proof. intros [l|l|s] pc; cbn [comp_item len_item]; [reflexivity|now destruct (need l)|apply length_comp]. Qed.

(** ** Code at a place *)
Definition code_at (pc : nat) (l : list instr) : Prop := forall i x, nth_error l i = Some x -> nth_error code (pc + i) = Some x.
Lemma code_at_app : forall pc l1 l2, code_at pc (l1 ++ l2) -> code_at pc l1 /\ code_at (pc + length l1) l2.
Proof.
  intros pc l1 l2 H. split; intros i x E.
  - apply H. rewrite nth_error_app1; [exact E|]. apply nth_error_Some. congruence.
  - rewrite <- Nat.add_assoc. apply H. rewrite nth_error_app2 by lia. replace (length l1 + i - length l1)%nat with i by lia. exact E.
Qed.
Lemma code_at_cons : forall pc a l, code_at pc (a :: l) -> nth_error code pc = Some a /\ code_at (S pc) l.
Proof.
  intros pc a l H. split; [rewrite <- (Nat.add_0_r pc); now apply H|]. intros i x E. replace (S pc + i)%nat with (pc + S i)%nat by lia. now apply H.
Qed.
Lemma code_at_eq : forall pc pc' l l', pc = pc' -> l = l' -> code_at pc l -> code_at pc' l'.
Proof. now intros pc pc' l l' -> ->. Qed.

(** ** Runs *)
Inductive stn : nat -> conf -> conf -> Prop :=
| s_0 : forall c, stn 0 c c
| s_S : forall j c c1 c2, step c = Next c1 -> stn j c1 c2 -> stn (S j) c c2.
Lemma stn_trans : forall i j a b c, stn i a b -> stn j b c -> stn (i + j) a c.
Proof. intros i j a b c H. revert j c. induction H as [|i a a1 b E H IH]; intros j d K; [exact K|]. cbn [Nat.add]. apply (s_S _ _ a1); auto. Qed.
Lemma runs_step : forall c c' n f, step c = Next c' -> runs n c' = Some f -> runs (S n) c = Some f.
Proof. intros c c' n f E R. cbn [Perform.runs]. now rewrite E. Qed.
Lemma runs_stn : forall j a b n f, stn j a b -> runs n b = Some f -> runs (j + n) a = Some f.
Proof. intros j a b n f H. induction H as [|j a a1 b E H IH]; intros R; [exact R|]. cbn [Nat.add]. apply (runs_step a a1); auto. Qed.
Lemma runs_back : forall j a b, stn j a b -> forall N f, runs N a = Some f -> exists N', N = (j + N')%nat /\ runs N' b = Some f.
Proof.
  intros j a b H. induction H as [|j a a1 b E H IH]; intros N f R; [now exists N|]. destruct N as [|N]; [discriminate R|].
  cbn [Perform.runs] in R. rewrite E in R. destruct (IH N f R) as (N' & -> & R'). now exists N'.
Qed.
Lemma runs_det : forall N a f, runs N a = Some f -> forall N' f', runs N' a = Some f' -> f = f'.
Proof.
  induction N as [|N IH]; intros a f R N' f' R'; [discriminate R|]. destruct N' as [|N']; [discriminate R'|].
  cbn [Perform.runs] in R, R'. destruct (step a) as [a'|g]; [now apply (IH a' f R N')|congruence].
Qed.

(** ** What the end of an execution is in the machine *)
Definition agree (act : list nat) (n n' : nat -> Z) : Prop := forall k, In k act -> n' k = n k.
Definition after (act : list nat) (x c q : nat) (fr : list (nat * nat)) (n : nat -> Z) (r : result) (cf : conf) : Prop :=
  match r with
  | Normal s => exists j n', stn j cf (mkConf q fr n' s) /\ agree act n n'
  | Goes l s => exists j n' p, find_label l code 0 = Some p /\ stn (S j) cf (mkConf p fr n' s) /\ agree act n n'
  | Breaks s => exists j n', stn j cf (mkConf x fr n' s) /\ agree act n n'
  | Cycles s => exists j n', stn j cf (mkConf c fr n' s) /\ agree act n n'
  | Returns i s => exists j n' t ret g, skipn i fr = (t, ret) :: g /\ stn j cf (mkConf ret ((t, ret) :: g) n' s) /\ agree act n n'
  | Ends f => exists k, runs k cf = Some f
  | Reentered => True
  end.
Lemma agree_refl : forall act n, agree act n n.
Proof. now intros act n k K. Qed.
Lemma agree_trans : forall act n n' n'', agree act n n' -> agree act n' n'' -> agree act n n''.
Proof. intros act n n' n'' A B k K. now rewrite (B k K), (A k K). Qed.
Lemma after_trans : forall act x c q fr n n' r cf cf' j, stn j cf cf' -> agree act n n' -> after act x c q fr n' r cf' -> after act x c q fr n r cf.
Proof.
  intros act x c q fr n n' r cf cf' j S A H. destruct r; cbn [after] in *.
  - destruct H as (i & n2 & S2 & A2). exists (j + i)%nat, n2. split; [now apply (stn_trans _ _ _ cf')|now apply (agree_trans _ _ n')].
  - destruct H as (i & n2 & p & F & S2 & A2). exists (j + i)%nat, n2, p. split; [exact F|]. split; [rewrite plus_n_Sm; now apply (stn_trans _ _ _ cf')|now apply (agree_trans _ _ n')].
  - destruct H as (i & n2 & S2 & A2). exists (j + i)%nat, n2. split; [now apply (stn_trans _ _ _ cf')|now apply (agree_trans _ _ n')].
  - destruct H as (i & n2 & S2 & A2). exists (j + i)%nat, n2. split; [now apply (stn_trans _ _ _ cf')|now apply (agree_trans _ _ n')].
  - destruct H as (i & n2 & t & ret & g & F & S2 & A2). exists (j + i)%nat, n2, t, ret, g. split; [exact F|]. split; [now apply (stn_trans _ _ _ cf')|now apply (agree_trans _ _ n')].
  - destruct H as (k & R). exists (j + k)%nat. now apply (runs_stn _ _ cf').
  - exact I.
Qed.
Lemma after_step : forall act x c q fr n n' r cf cf', step cf = Next cf' -> agree act n n' -> after act x c q fr n' r cf' -> after act x c q fr n r cf.
Proof. intros act x c q fr n n' r cf cf' S. apply (after_trans act x c q fr n n' r cf cf' 1). apply (s_S _ _ cf'); [exact S|constructor]. Qed.
(** Only where the machine goes for this kind of end matters. *)
Lemma after_other : forall act x c q q' fr n r cf, normal r = false -> after act x c q fr n r cf -> after act x c q' fr n r cf.
Proof. intros act x c q q' fr n r cf N H. destruct r; [discriminate N|exact H..]. Qed.
Lemma after_weaken : forall act act' x c q fr n r cf, incl act act' -> after act' x c q fr n r cf -> after act x c q fr n r cf.
Proof.
  intros act act' x c q fr n r cf IN H.
  assert (W : forall n n', agree act' n n' -> agree act n n') by (intros m m' A j J; apply A; now apply IN). destruct r; cbn [after] in *; auto.
  - destruct H as (i & n2 & S2 & A2). exists i, n2. split; eauto.
  - destruct H as (i & n2 & p & F & S2 & A2). exists i, n2, p. split; eauto.
  - destruct H as (i & n2 & S2 & A2). exists i, n2. split; eauto.
  - destruct H as (i & n2 & S2 & A2). exists i, n2. split; eauto.
  - destruct H as (i & n2 & t & ret & g & F & S2 & A2). exists i, n2, t, ret, g. split; eauto.
Qed.

(** ** Labels *)
Definition no_lab (l : list instr) : Prop := Forall (fun i => match i with ILab _ => False | _ => True end) l.
Lemma no_lab_opt : forall o : option (op St Ex), no_lab (code_opt o).
Proof. destruct o; repeat constructor. Qed.
Lemma no_lab_app : forall l1 l2, no_lab l1 -> no_lab l2 -> no_lab (l1 ++ l2).
Proof. intros l1 l2 A B. apply Forall_app. now split. Qed.
Lemma no_lab_until : forall before b bd vs pc, (forall q, no_lab (bd q)) -> no_lab (@comp_until St Ex before b bd vs pc).
Proof.
  intros before b bd vs. induction vs as [|v r IH]; intros pc H; cbn [comp_until]; [apply H|]. cbv zeta.
  apply no_lab_app; [apply no_lab_opt|]. apply no_lab_app; [|apply no_lab_app; [apply no_lab_opt|repeat constructor]].
  destruct before; apply no_lab_app; try (now apply IH); repeat constructor.
Qed.
Lemma no_lab_phrase : forall p b bd pc, (forall q, no_lab (bd q)) -> no_lab (@comp_phrase St Ex p b bd pc).
Proof.
  intros [| |k n|before vs] b bd pc H; cbn [comp_phrase]; auto.
  - apply no_lab_app; [apply H|repeat constructor].
  - apply no_lab_app; [repeat constructor|]. apply no_lab_app; [apply H|repeat constructor].
  - apply no_lab_app; [apply no_lab_opt|now apply no_lab_until].
Qed.
Lemma no_lab_comp : forall (s : stmt) x c pc, no_lab (comp s x c pc).
Proof.
  induction s as [|a IHa b IHb|o|t a IHa b IHb|l|n ls| | | |p b IHb|p lb le]; intros x c pc; cbn [comp]; try (now repeat constructor).
  - now apply no_lab_app.
  - apply no_lab_app; [repeat constructor|]. apply no_lab_app; [apply IHa|]. apply no_lab_app; [repeat constructor|apply IHb].
  - apply no_lab_phrase. intros q. apply IHb.
  - apply no_lab_phrase. intros q. repeat constructor.
Qed.
Lemma find_no_lab : forall l a (b : list instr) pc, no_lab a -> find_label l (a ++ b) pc = find_label l b (pc + length a).
Proof.
  intros l a b. induction a as [|i a IH]; intros pc H; [now rewrite Nat.add_0_r|]. apply Forall_cons_iff in H. destruct H as [H1 H].
  cbn [app find_label length]. replace (pc + S (length a))%nat with (S pc + length a)%nat by lia. destruct i; try contradiction H1; now apply IH.
Qed.
Lemma find_items : forall l (is : list item) base, In (Lab l) is -> exists n,
  find_label l (comp_items need is base) base = Some (base + n)%nat /\
  skipn n (comp_items need is base) = comp_items need (from_label l is) (base + n) /\ (n <= length (comp_items need is base))%nat.
Proof.
  intros l is. induction is as [|i r IH]; intros base H; [destruct H|]. cbn [comp_items].
  assert (SK : forall a : list instr, length a = len_item need i -> In (Lab l) r ->
    (forall b pc, find_label l (a ++ b) pc = find_label l b (pc + length a)) ->
    exists n, find_label l (a ++ comp_items need r (base + len_item need i)) base = Some (base + n)%nat /\
      skipn n (a ++ comp_items need r (base + len_item need i)) = comp_items need (from_label l r) (base + n) /\
      (n <= length (a ++ comp_items need r (base + len_item need i)))%nat).
  { intros a LA HR FA. destruct (IH (base + len_item need i)%nat HR) as (n & E1 & E2 & E3). exists (length a + n)%nat.
    rewrite FA, LA, E1. split; [f_equal; lia|]. split; [|rewrite app_length; lia].
    rewrite skipn_app, skipn_all2 by lia. cbn [app]. replace (len_item need i + n - length a)%nat with n by lia. rewrite E2. f_equal. lia. }
  destruct i as [k|k|s]; cbn [comp_item len_item from_label] in *.
  - destruct (Nat.eqb_spec k l) as [-> |NE].
    + exists 0%nat. cbn [app find_label comp_items comp_item len_item]. rewrite Nat.eqb_refl, Nat.add_0_r. split; [reflexivity|]. split; [reflexivity|lia].
    + apply (SK [ILab k] eq_refl).
      * destruct H as [H|H]; [congruence|exact H].
      * intros b pc. cbn [app find_label length]. destruct (Nat.eqb_spec k l); [contradiction|]. f_equal. lia.
  - apply SK.
    + now destruct (need k).
    + destruct H as [H|H]; [discriminate H|exact H].
    + intros b pc. apply find_no_lab. destruct (need k); repeat constructor.
  - apply SK.
    + apply length_comp.
    + destruct H as [H|H]; [discriminate H|exact H].
    + intros b pc. apply find_no_lab. apply no_lab_comp.
Qed.

Lemma find_in : forall l (is : list item) base b p, find_label l (comp_items need is base) b = Some p -> In (Lab l) is.
Proof.
  intros l is. induction is as [|i r IH]; intros base b p F; [discriminate F|]. cbn [comp_items] in F. destruct i as [k|k|s]; cbn [comp_item] in F.
  - cbn [app find_label] in F. destruct (Nat.eqb_spec k l) as [-> |]; [now left|]. right. now apply (IH _ _ _ F).
  - right. rewrite find_no_lab in F by (destruct (need k); repeat constructor). now apply (IH _ _ _ F).
  - right. rewrite find_no_lab in F by apply no_lab_comp. now apply (IH _ _ _ F).
Qed.

(** The rest of the program at a place. *)
Definition rest_at (pc : nat) (is : list item) : Prop := code_at pc (comp_items need is pc) /\ length code = (pc + length (comp_items need is pc))%nat.
Lemma label_at : forall l, In (Lab l) items -> exists p, find_label l code 0 = Some p /\ rest_at p (from_label l items).
Proof.
  intros l H. destruct (find_items l items 0 H) as (n & E1 & E2 & E3). exists n. split; [exact E1|]. cbn [Nat.add] in E2. fold code in E2, E3. split.
  - rewrite <- E2. intros i x E. rewrite <- E. rewrite <- (firstn_skipn n code) at 1. rewrite nth_error_app2 by (rewrite firstn_length; lia).
    rewrite firstn_length. f_equal. lia.
  - rewrite <- E2. rewrite skipn_length. lia.
Qed.
Lemma suffix_from : forall l (is : list item) i, In i (from_label l is) -> In i is.
Proof.
  intros l is. induction is as [|x r IH]; intros i H; [exact H|]. cbn [from_label] in H. destruct x as [k|k|s]; try (right; now apply IH).
  destruct (Nat.eqb k l); [exact H|right; now apply IH].
Qed.

(** ** Frames *)
Lemma exit_some : forall l fr j, ends_at osvs l (map fst fr) = Some j -> exists t r g, exit_frames osvs l fr = (t, r) :: g /\ skipn j fr = (t, r) :: g.
Proof.
  intros l fr j. unfold ends_at, exit_frames. destruct osvs.
  - revert j. induction fr as [|[t r] q IH]; intros j E; cbn [map fst index_of drop_to] in *; [discriminate E|].
    destruct (Nat.eqb t l); [injection E as <-; exists t, r, q; auto|]. destruct (index_of l (map fst q)) as [i|]; [|discriminate E]. injection E as <-.
    destruct (IH i eq_refl) as (t' & r' & g & A & B). exists t', r', g. auto.
  - destruct fr as [|[t r] q]; cbn [map fst firstn index_of]; [discriminate|]. intros E. destruct (Nat.eqb t l); [injection E as <-; exists t, r, q; auto|discriminate E].
Qed.
Lemma exit_none : forall l fr, ends_at osvs l (map fst fr) = None -> exit_frames osvs l fr = [].
Proof.
  intros l fr. unfold ends_at, exit_frames. destruct osvs.
  - induction fr as [|[t r] q IH]; intros E; cbn [map fst index_of drop_to] in *; [reflexivity|].
    destruct (Nat.eqb t l); [discriminate E|]. apply IH. destruct (index_of l (map fst q)); [discriminate E|reflexivity].
  - destruct fr as [|[t r] q]; cbn [map fst firstn index_of]; [reflexivity|]. intros E. destruct (Nat.eqb t l); [discriminate E|reflexivity].
Qed.
Lemma index_in : forall l es j, index_of l es = Some j -> In l es.
Proof.
  intros l es. induction es as [|e r IH]; intros j E; cbn [index_of] in E; [discriminate E|]. destruct (Nat.eqb_spec e l) as [-> |]; [now left|].
  destruct (index_of l r) as [i|]; [|discriminate E]. right. now apply (IH i).
Qed.
Lemma ends_in : forall l es j, ends_at osvs l es = Some j -> In l es.
Proof.
  intros l es j E. unfold ends_at in E. destruct osvs; [now apply (index_in _ _ j)|]. apply index_in in E. destruct es; [exact E|]. destruct E as [ <- |[]]. now left.
Qed.

(** ** Tasks in the code *)
Definition needs (s : stmt) : Prop := forall l, returns_from l s = true -> need l = true.
Definition stmt_ok (s : stmt) : Prop := labels_ok items s /\ needs s.
Definition body_ok (b : body) : Prop := match b with BIn s => stmt_ok s | BOut lb le => In (Lab lb) items /\ need le = true end.
Definition task_ok (t : task) : Prop :=
  match t with
  | TStmt s => stmt_ok s
  | TPhrase _ b | TBody b | TTimes _ b _ | TForever b | TUntil _ b _ => body_ok b
  | TRun is => forall s, In (Code s) is -> In (Code s) items
  end.
Definition placed (act : list nat) (n : nat -> Z) (t : task) (pc x c q : nat) : Prop :=
  match t with
  | TStmt s => code_at pc (comp s x c pc) /\ q = (pc + len s)%nat
  | TPhrase p b => code_at pc (comp_phrase p (blen b) (bcode b x) pc) /\ q = (pc + len_phrase p (blen b))%nat
  | TBody b => code_at pc (bcode b x pc) /\ q = (pc + blen b)%nat
  | TTimes k b v => (code_at pc (ITestN k (pc + 1 + blen b + 2) :: bcode b x (pc + 1)%nat ++ [IDecN k; IJmp pc]) /\ q = (pc + 1 + blen b + 2)%nat) /\ n k = v /\ In k act
  | TForever b => code_at pc (bcode b x pc ++ [IJmp pc])
  | TUntil before b vs => code_at pc (comp_until before (blen b) (bcode b x) vs pc) /\ q = (pc + len_until (blen b) vs)%nat
  | TRun is => rest_at pc is
  end.
Hypothesis WF : well_formed items.
Lemma item_ok : forall s, In (Code s) items -> stmt_ok s.
Proof.
  intros s H. split; [exact (proj1 (WF s H))|]. intros l R. unfold need_return. apply existsb_exists. exists (Code s). auto.
Qed.

Lemma run_result : forall es act t s r, ev es act t s r -> match t with TRun _ => match r with Returns _ _ | Ends _ | Reentered => True | _ => False end | _ => True end.
Proof. intros es act t s r H. induction H; auto. Qed.
Lemma pop_ok : forall es act is s r, ev es act (TRun is) s r -> match r with Returns _ _ | Ends _ | Reentered => True | _ => False end.
Proof. intros es act is s r H. exact (run_result _ _ _ _ _ H). Qed.

(** An optional operation. *)
Lemma opt_step : forall (o : option (op St Ex)) fr n s s' pc, code_at pc (code_opt o) -> opt o s = inl s' ->
  exists j, stn j (mkConf pc fr n s) (mkConf (pc + len_opt o) fr n s').
Proof.
  intros [o|] fr n s s' pc C E; cbn [opt code_opt len_opt] in *.
  - exists 1%nat. apply code_at_cons in C. destruct C as [C _]. eapply s_S; [|constructor]. unfold Perform.step. cbn [Perform.pc state frames counters].
    rewrite C, E. do 2 f_equal. lia.
  - exists 0%nat. injection E as <-. rewrite Nat.add_0_r. constructor.
Qed.
Lemma opt_end : forall (o : option (op St Ex)) fr n s e pc, code_at pc (code_opt o) -> opt o s = inr e -> runs 1 (mkConf pc fr n s) = Some (Ended e).
Proof.
  intros [o|] fr n s e pc C E; cbn [opt code_opt] in *; [|discriminate E]. apply code_at_cons in C. destruct C as [C _].
  cbn [Perform.runs]. unfold Perform.step. cbn [Perform.pc state frames counters]. now rewrite C, E.
Qed.
Ltac one C := unfold Perform.step; cbn [Perform.pc state frames counters]; rewrite C.

(** The counters kept: those of the active PERFORM TIMES, except the one that
    is executed. *)
Definition kept (act : list nat) (t : task) : list nat := match t with TTimes k _ _ => remove Nat.eq_dec k act | _ => act end.
Lemma kept_incl : forall act t, incl (kept act t) act.
Proof. intros act [s|p b|b|k b n|b|be b vs|is]; cbn [kept]; try apply incl_refl. intros j J. now apply in_remove in J. Qed.
Definition forward (es act : list nat) (t : task) (s : St) (r : result) : Prop :=
  forall pc x c q fr n, placed act n t pc x c q -> task_ok t -> map fst fr = es -> (forall e, In e es -> need e = true) ->
  after (kept act t) x c q fr n r (mkConf pc fr n s).

(** The pieces of UNTIL loops. *)
Lemma until_before : forall b x v vs pc, code_at pc (comp_until true (blen b) (bcode b x) (v :: vs) pc) ->
  let p1 := (pc + len_opt (next_from vs))%nat in
  let p2 := (p1 + 1 + len_until (blen b) vs)%nat in
  code_at pc (code_opt (next_from vs)) /\ nth_error code p1 = Some (IIf (v_until v) (pc + len_until (blen b) (v :: vs)) (p1 + 1)) /\
  code_at (p1 + 1) (comp_until true (blen b) (bcode b x) vs (p1 + 1)) /\ code_at p2 (code_opt (v_step v)) /\
  nth_error code (p2 + len_opt (v_step v)) = Some (IJmp pc) /\ (pc + len_until (blen b) (v :: vs) = p2 + len_opt (v_step v) + 1)%nat.
Proof.
  intros b x v vs pc C. cbn [comp_until] in C. cbv zeta in *. apply code_at_app in C. destruct C as [C1 C]. rewrite length_opt in C.
  apply code_at_app in C. destruct C as [C2 C]. cbn [app] in C2. apply code_at_cons in C2. destruct C2 as [C2 C3].
  rewrite app_length, length_until in C by (intros; apply length_bcode). cbn [length] in C. apply code_at_app in C. destruct C as [C4 C].
  rewrite length_opt in C. apply code_at_cons in C. destruct C as [C5 _].
  split; [exact C1|]. split; [exact C2|]. split; [revert C3; apply code_at_eq; [lia|reflexivity]|].
  split; [revert C4; apply code_at_eq; [lia|reflexivity]|]. split; [rewrite <- C5; f_equal; lia|]. cbn [len_until]. lia.
Qed.
Lemma until_after : forall b x v vs pc, code_at pc (comp_until false (blen b) (bcode b x) (v :: vs) pc) ->
  let p1 := (pc + len_opt (next_from vs))%nat in
  let p2 := (p1 + len_until (blen b) vs)%nat in
  code_at pc (code_opt (next_from vs)) /\ code_at p1 (comp_until false (blen b) (bcode b x) vs p1) /\
  nth_error code p2 = Some (IIf (v_until v) (pc + len_until (blen b) (v :: vs)) (p2 + 1)) /\ code_at (p2 + 1) (code_opt (v_step v)) /\
  nth_error code (p2 + 1 + len_opt (v_step v)) = Some (IJmp pc) /\ (pc + len_until (blen b) (v :: vs) = p2 + 1 + len_opt (v_step v) + 1)%nat.
Proof.
  intros b x v vs pc C. cbn [comp_until] in C. cbv zeta in *. apply code_at_app in C. destruct C as [C1 C]. rewrite length_opt in C.
  apply code_at_app in C. destruct C as [C2 C]. rewrite app_length, length_until in C by (intros; apply length_bcode). cbn [length] in C.
  apply code_at_app in C2. destruct C2 as [C2 C3]. rewrite length_until in C3 by (intros; apply length_bcode). apply code_at_cons in C3. destruct C3 as [C3 _].
  apply code_at_app in C. destruct C as [C4 C]. rewrite length_opt in C. apply code_at_cons in C. destruct C as [C5 _].
  split; [exact C1|]. split; [exact C2|]. split; [exact C3|]. split; [revert C4; apply code_at_eq; [lia|reflexivity]|]. split; [rewrite <- C5; f_equal; lia|]. cbn [len_until]. lia.
Qed.
Lemma if_step : forall t a b v s s' pc fr n, nth_error code pc = Some (IIf t a b) -> t s = inl (v, s') ->
  step (mkConf pc fr n s) = Next (mkConf (if v then a else b) fr n s').
Proof. intros t a b v s s' pc fr n C E. one C. now rewrite E. Qed.
Lemma if_end : forall t a b e s pc fr n, nth_error code pc = Some (IIf t a b) -> t s = inr e -> runs 1 (mkConf pc fr n s) = Some (Ended e).
Proof. intros t a b e s pc fr n C E. cbn [Perform.runs]. one C. now rewrite E. Qed.
Lemma jmp_step : forall p s pc fr n, nth_error code pc = Some (IJmp p) -> step (mkConf pc fr n s) = Next (mkConf p fr n s).
Proof. intros p s pc fr n C. now one C. Qed.

Lemma goto_step : forall l fr n s, In (Lab l) items -> exists p, find_label l code 0 = Some p /\ rest_at p (from_label l items) /\
  forall pc0 s0, goto code l (mkConf pc0 fr n s0) s = Next (mkConf p fr n s).
Proof.
  intros l fr n s H. destruct (label_at l H) as (p & F & R). exists p. split; [exact F|]. split; [exact R|]. intros pc0 s0. unfold goto. now rewrite F.
Qed.
Lemma rest_cons : forall pc i is, rest_at pc (i :: is) -> code_at pc (comp_item need i pc) /\ rest_at (pc + len_item need i) is.
Proof.
  intros pc i is [C L]. cbn [comp_items] in *. apply code_at_app in C. destruct C as [C1 C2]. rewrite length_item in C2. rewrite app_length, length_item in L.
  split; [exact C1|]. split; [exact C2|lia].
Qed.

Theorem sim : forall es act t s r, ev es act t s r -> forward es act t s r.
Proof.
  intros es act t s r H. induction H; intros pc x c0 q fr n0 PL OK FR NE.
  - (* skip *) destruct PL as [_ ->]. cbn [len]. rewrite Nat.add_0_r. exists 0%nat, n0. split; [constructor|apply agree_refl].
  - (* seq *) destruct PL as [C ->]. cbn [comp len] in *. apply code_at_app in C. destruct C as [C1 C2]. rewrite length_comp in C2.
    destruct OK as [[O1 O2] ON].
    assert (OA : stmt_ok a) by (split; [exact O1|intros l R; apply ON; cbn [returns_from]; now rewrite R]).
    assert (OB : stmt_ok b) by (split; [exact O2|intros l R; apply ON; cbn [returns_from]; rewrite R; apply orb_true_r]).
    destruct (IHev1 pc x c0 (pc + len a)%nat fr n0 (conj C1 eq_refl) OA FR NE) as (j & n' & S1 & A1).
    apply (after_trans _ _ _ _ _ n0 n' _ _ _ j S1 A1). apply IHev2; auto. split; [exact C2|lia].
  - (* seq_out *) destruct PL as [C ->]. cbn [comp len] in *. apply code_at_app in C. destruct C as [C1 C2].
    destruct OK as [[O1 O2] ON].
    assert (OA : stmt_ok a) by (split; [exact O1|intros l R; apply ON; cbn [returns_from]; now rewrite R]).
    apply (after_other _ _ _ (pc + len a)); [assumption|]. apply IHev; auto. split; [exact C1|reflexivity].
  - (* do *) destruct PL as [C ->]. cbn [comp len] in *. apply code_at_cons in C. destruct C as [C _]. destruct (o s) as [s'|e] eqn:E; cbn [of_op after].
    + exists 1%nat, n0. split; [|apply agree_refl]. eapply s_S; [one C; rewrite E; reflexivity|]. replace (pc + 1)%nat with (S pc) by lia. constructor.
    + exists 1%nat. cbn [Perform.runs]. one C. now rewrite E.
  - (* if *) destruct PL as [C ->]. cbn [comp len] in *. apply code_at_app in C. destruct C as [C1 C]. apply code_at_cons in C1. destruct C1 as [C1 _]. cbn [length] in C.
    apply code_at_app in C. destruct C as [C2 C]. rewrite length_comp in C. apply code_at_app in C. destruct C as [C3 C4]. apply code_at_cons in C3. destruct C3 as [C3 _]. cbn [length] in C4.
    destruct OK as [[O1 O2] ON].
    assert (OA : stmt_ok a) by (split; [exact O1|intros l R; apply ON; cbn [returns_from]; now rewrite R]).
    assert (OB : stmt_ok b) by (split; [exact O2|intros l R; apply ON; cbn [returns_from]; rewrite R; apply orb_true_r]).
    eapply after_step; [exact (if_step _ _ _ _ _ _ _ fr n0 C1 H)|apply agree_refl|]. destruct v.
    + pose proof (IHev (pc + 1)%nat x c0 (pc + 1 + len a)%nat fr n0 (conj C2 eq_refl) OA FR NE) as A. destruct (normal r) eqn:NR; [|now apply (after_other _ _ _ (pc + 1 + len a))].
      destruct r as [s2|? ?|?|?|? ?|?|]; try discriminate NR. destruct A as (j & n' & S1 & A1).
      eapply after_trans; [exact S1|exact A1|]. eapply after_step; [exact (jmp_step _ s2 _ fr n' C3)|apply agree_refl|].
      exists 0%nat, n'. split; [|apply agree_refl]. replace (pc + (1 + len a + 1 + len b))%nat with (pc + 1 + len a + 1 + len b)%nat by lia. constructor.
    + apply IHev; auto. split; [exact C4|lia].
  - (* if_end *) destruct PL as [C ->]. cbn [comp] in C. apply code_at_app in C. destruct C as [C1 _]. apply code_at_cons in C1. destruct C1 as [C1 _].
    exists 1%nat. exact (if_end _ _ _ _ _ _ _ _ C1 H).
  - (* goto *) destruct PL as [C ->]. cbn [comp] in C. apply code_at_cons in C. destruct C as [C _]. destruct OK as [OL _].
    destruct (goto_step l fr n0 s OL) as (p & F & _ & G). exists 0%nat, n0, p. split; [exact F|]. split; [|apply agree_refl]. eapply s_S; [one C; apply G|constructor].
  - (* dep *) destruct PL as [C ->]. cbn [comp] in C. apply code_at_cons in C. destruct C as [C _]. destruct OK as [OL _]. cbn [labels_ok] in OL.
    assert (LT : (Z.to_nat (v - 1) < length ls)%nat) by (apply nth_error_Some; congruence).
    assert (NL : nth (Z.to_nat (v - 1)) ls 0%nat = l) by (now apply nth_error_nth).
    destruct (goto_step l fr n0 s' (OL l (nth_error_In _ _ H1))) as (p & F & _ & G). exists 0%nat, n0, p. split; [exact F|]. split; [|apply agree_refl].
    eapply s_S; [one C; rewrite H|constructor]. destruct (Z.leb_spec 1 v); [|lia]. destruct (Z.leb_spec v (Z.of_nat (length ls))); [|lia]. cbn [andb]. rewrite NL. apply G.
  - (* dep_out *) destruct PL as [C ->]. cbn [comp len] in *. apply code_at_cons in C. destruct C as [C _]. exists 1%nat, n0. split; [|apply agree_refl].
    replace (pc + 1)%nat with (S pc) by lia. eapply s_S; [one C; rewrite H|constructor].
    destruct (Z.leb_spec 1 v); [destruct (Z.leb_spec v (Z.of_nat (length ls))); [lia|]|]; reflexivity.
  - (* dep_end *) destruct PL as [C ->]. cbn [comp len] in *. apply code_at_cons in C. destruct C as [C _]. exists 1%nat. cbn [Perform.runs]. one C. now rewrite H.
  - (* stop *) destruct PL as [C ->]. apply code_at_cons in C. destruct C as [C _]. exists 1%nat. cbn [Perform.runs]. now one C.
  - (* exit *) destruct PL as [C ->]. apply code_at_cons in C. destruct C as [C _]. exists 1%nat, n0. split; [|apply agree_refl]. eapply s_S; [now one C|constructor].
  - (* cycle *) destruct PL as [C ->]. apply code_at_cons in C. destruct C as [C _]. exists 1%nat, n0. split; [|apply agree_refl]. eapply s_S; [now one C|constructor].
  - (* inline *) destruct PL as [C ->]. cbn [comp len] in *.
    pose proof (IHev pc (pc + len_phrase p (len b))%nat c0 (pc + len_phrase p (len b))%nat fr n0 (conj C eq_refl) OK FR NE) as A.
    destruct r; cbn [unbreak]; exact A.
  - (* outline *) destruct PL as [C ->]. cbn [comp len] in *. destruct OK as [[O1 O2] ON].
    apply (IHev pc x c0 (pc + len_phrase p 3)%nat fr n0); auto; [split; [exact C|reflexivity]|]. split; [exact O1|]. apply ON. cbn [returns_from]. apply Nat.eqb_refl.
  - (* once *) apply (IHev pc x c0 q fr n0); auto.
  - (* forever *) destruct PL as [C ->]. apply (IHev pc x c0 _ fr n0); auto.
  - (* times *) destruct PL as [C ->]. cbn [comp_phrase len_phrase] in *. apply code_at_app in C. destruct C as [C1 C2]. cbn [length] in C2.
    apply code_at_cons in C1. destruct C1 as [C1 C1']. apply code_at_cons in C1'. destruct C1' as [C3 _].
    eapply (after_step act x c0 _ fr n0 (set_n n0 k v)); [one C1; rewrite H; reflexivity| |].
    { intros j J. unfold set_n. destruct (Nat.eqb_spec j k) as [-> |]; [contradiction|reflexivity]. }
    replace act with (kept (k :: act) (TTimes k b v)) by (cbn [kept]; rewrite remove_cons; now apply notin_remove).
    apply IHev; auto. split; [split; [|lia]|].
    + replace (S pc + 1 + blen b + 2)%nat with (pc + 2 + blen b + 2)%nat by lia.
      intros i y E. destruct i as [|i]; cbn [nth_error] in E; [injection E as <-; now rewrite Nat.add_0_r|].
      replace (S pc + S i)%nat with (pc + 2 + i)%nat by lia. apply C2. replace (S pc + 1)%nat with (pc + 2)%nat in E by lia. replace (S pc) with (pc + 1)%nat in E by lia. exact E.
    + split; [unfold set_n; now rewrite Nat.eqb_refl|now left].
  - (* times_again *) exact I.
  - (* times_end *) destruct PL as [C ->]. cbn [comp_phrase] in C. apply code_at_app in C. destruct C as [C1 _]. apply code_at_cons in C1. destruct C1 as [C1 _].
    exists 1%nat. cbn [Perform.runs]. one C1. now rewrite H.
  - (* until *) destruct PL as [C ->]. cbn [comp_phrase len_phrase] in *. apply code_at_app in C. destruct C as [C1 C2]. rewrite length_opt in C2.
    destruct (opt_step _ fr n0 _ _ _ C1 H) as (j & S1). eapply after_trans; [exact S1|apply agree_refl|]. apply IHev; auto. split; [exact C2|lia].
  - (* until_end *) destruct PL as [C ->]. cbn [comp_phrase len_phrase] in *. apply code_at_app in C. destruct C as [C1 _]. exists 1%nat. exact (opt_end _ _ _ _ _ _ C1 H).
  - (* f_next *) cbn [placed] in PL. pose proof PL as C. apply code_at_app in C. destruct C as [C1 C2]. apply code_at_cons in C2. destruct C2 as [C2 _]. rewrite length_bcode in C2.
    destruct (IHev1 pc x c0 (pc + blen b)%nat fr n0 (conj C1 eq_refl) OK FR NE) as (j & n' & S1 & A1). eapply after_trans; [exact S1|exact A1|].
    eapply after_step; [exact (jmp_step _ _ _ fr n' C2)|apply agree_refl|]. apply IHev2; auto.
  - (* f_out *) cbn [placed] in PL. apply code_at_app in PL. destruct PL as [C1 _]. apply (after_other _ _ _ (pc + blen b)); [assumption|]. apply IHev; auto. split; [exact C1|reflexivity].
  - (* t_done *) destruct PL as ((C & ->) & NK & KA). apply code_at_cons in C. destruct C as [C _]. exists 1%nat, n0. split; [|apply agree_refl].
    eapply s_S; [one C; reflexivity|]. rewrite NK. destruct (Z.ltb_spec 0 n); [lia|]. constructor.
  - (* t_next *) destruct PL as ((C & ->) & NK & KA). pose proof C as CC. apply code_at_cons in C. destruct C as [C1 C]. apply code_at_app in C. destruct C as [C2 C3]. rewrite length_bcode in C3.
    apply code_at_cons in C3. destruct C3 as [C3 C4]. apply code_at_cons in C4. destruct C4 as [C4 _].
    eapply (after_step _ _ _ _ _ n0 n0); [one C1; reflexivity|apply agree_refl|]. rewrite NK. destruct (Z.ltb_spec 0 n); [|lia].
    replace (pc + 1)%nat with (S pc) in C2 by lia.
    destruct (IHev1 (S pc) x c0 (S pc + blen b)%nat fr n0 (conj C2 eq_refl) OK FR NE) as (j & n' & S1 & A1). cbn [kept] in A1.
    eapply after_trans; [exact S1|intros i I; apply A1; now apply (kept_incl act (TTimes k b n))|].
    eapply (after_step _ _ _ _ _ n' (set_n n' k (n' k - 1))); [one C3; reflexivity| |].
    + intros i0 I0. cbn [kept] in I0. apply in_remove in I0. unfold set_n. destruct (Nat.eqb_spec i0 k) as [-> |]; [now destruct I0|reflexivity].
    + eapply after_step; [exact (jmp_step _ _ _ fr _ C4)|apply agree_refl|]. apply IHev2; auto. split; [split; [exact CC|reflexivity]|]. split; [|exact KA]. unfold set_n. rewrite Nat.eqb_refl, (A1 k KA), NK. reflexivity.
  - (* t_out *) destruct PL as ((C & ->) & NK & KA). apply code_at_cons in C. destruct C as [C1 C]. apply code_at_app in C. destruct C as [C2 _].
    eapply (after_step _ _ _ _ _ n0 n0); [one C1; reflexivity|apply agree_refl|]. rewrite NK. destruct (Z.ltb_spec 0 n); [|lia].
    replace (pc + 1)%nat with (S pc) in C2 by lia. apply (after_weaken _ act); [apply kept_incl|]. apply (after_other _ _ _ (S pc + blen b)); [assumption|].
    apply IHev; auto. split; [exact C2|reflexivity].
  - (* u_body *) destruct PL as [C ->]. cbn [comp_until len_until] in *. apply IHev; auto. split; [exact C|reflexivity].
  - (* u_from_end *) destruct PL as [C ->]. exists 1%nat. destruct before; [destruct (until_before _ _ _ _ _ C) as (C1 & _)|destruct (until_after _ _ _ _ _ C) as (C1 & _)]; exact (opt_end _ _ _ _ _ _ C1 H).
  - (* ub_done *) destruct PL as [C ->]. destruct (until_before _ _ _ _ _ C) as (C1 & C2 & C3 & C4 & C5 & LE).
    destruct (opt_step _ fr n0 _ _ _ C1 H) as (j & S1). eapply after_trans; [exact S1|apply agree_refl|]. eapply after_step; [exact (if_step _ _ _ _ _ _ _ fr n0 C2 H0)|apply agree_refl|].
    exists 0%nat, n0. split; [constructor|apply agree_refl].
  - (* ub_end *) destruct PL as [C ->]. destruct (until_before _ _ _ _ _ C) as (C1 & C2 & C3 & C4 & C5 & LE).
    destruct (opt_step _ fr n0 _ _ _ C1 H) as (j & S1). eapply after_trans; [exact S1|apply agree_refl|]. exists 1%nat. exact (if_end _ _ _ _ _ _ _ _ C2 H0).
  - (* ub_out *) destruct PL as [C ->]. destruct (until_before _ _ _ _ _ C) as (C1 & C2 & C3 & C4 & C5 & LE).
    destruct (opt_step _ fr n0 _ _ _ C1 H) as (j & S1). eapply after_trans; [exact S1|apply agree_refl|]. eapply after_step; [exact (if_step _ _ _ _ _ _ _ fr n0 C2 H0)|apply agree_refl|].
    apply (after_other _ _ _ (pc + len_opt (next_from vs) + 1 + len_until (blen b) vs)); [assumption|]. apply IHev; auto. split; [exact C3|reflexivity].
  - (* ub_next *) destruct PL as [C ->]. destruct (until_before _ _ _ _ _ C) as (C1 & C2 & C3 & C4 & C5 & LE).
    destruct (opt_step _ fr n0 _ _ _ C1 H) as (j & S1). eapply after_trans; [exact S1|apply agree_refl|]. eapply after_step; [exact (if_step _ _ _ _ _ _ _ fr n0 C2 H0)|apply agree_refl|].
    destruct (IHev1 _ x c0 _ fr n0 (conj C3 eq_refl) OK FR NE) as (j2 & n' & S2 & A2). eapply after_trans; [exact S2|exact A2|].
    destruct (opt_step _ fr n' _ _ _ C4 H2) as (j3 & S3). eapply after_trans; [exact S3|apply agree_refl|].
    eapply after_step; [exact (jmp_step _ _ _ fr n' C5)|apply agree_refl|]. apply IHev2; auto. split; [exact C|reflexivity].
  - (* ub_step_end *) destruct PL as [C ->]. destruct (until_before _ _ _ _ _ C) as (C1 & C2 & C3 & C4 & C5 & LE).
    destruct (opt_step _ fr n0 _ _ _ C1 H) as (j & S1). eapply after_trans; [exact S1|apply agree_refl|]. eapply after_step; [exact (if_step _ _ _ _ _ _ _ fr n0 C2 H0)|apply agree_refl|].
    destruct (IHev _ x c0 _ fr n0 (conj C3 eq_refl) OK FR NE) as (j2 & n' & S2 & A2). eapply after_trans; [exact S2|exact A2|].
    exists 1%nat. exact (opt_end _ _ _ _ _ _ C4 H2).
  - (* ua_out *) destruct PL as [C ->]. destruct (until_after _ _ _ _ _ C) as (C1 & C2 & C3 & C4 & C5 & LE).
    destruct (opt_step _ fr n0 _ _ _ C1 H) as (j & S1). eapply after_trans; [exact S1|apply agree_refl|].
    apply (after_other _ _ _ (pc + len_opt (next_from vs) + len_until (blen b) vs)); [assumption|]. apply IHev; auto. split; [exact C2|reflexivity].
  - (* ua_done *) destruct PL as [C ->]. destruct (until_after _ _ _ _ _ C) as (C1 & C2 & C3 & C4 & C5 & LE).
    destruct (opt_step _ fr n0 _ _ _ C1 H) as (j & S1). eapply after_trans; [exact S1|apply agree_refl|].
    destruct (IHev _ x c0 _ fr n0 (conj C2 eq_refl) OK FR NE) as (j2 & n' & S2 & A2). eapply after_trans; [exact S2|exact A2|].
    eapply after_step; [exact (if_step _ _ _ _ _ _ _ fr n' C3 H1)|apply agree_refl|]. exists 0%nat, n'. split; [constructor|apply agree_refl].
  - (* ua_end *) destruct PL as [C ->]. destruct (until_after _ _ _ _ _ C) as (C1 & C2 & C3 & C4 & C5 & LE).
    destruct (opt_step _ fr n0 _ _ _ C1 H) as (j & S1). eapply after_trans; [exact S1|apply agree_refl|].
    destruct (IHev _ x c0 _ fr n0 (conj C2 eq_refl) OK FR NE) as (j2 & n' & S2 & A2). eapply after_trans; [exact S2|exact A2|].
    exists 1%nat. exact (if_end _ _ _ _ _ _ _ _ C3 H1).
  - (* ua_next *) destruct PL as [C ->]. destruct (until_after _ _ _ _ _ C) as (C1 & C2 & C3 & C4 & C5 & LE).
    destruct (opt_step _ fr n0 _ _ _ C1 H) as (j & S1). eapply after_trans; [exact S1|apply agree_refl|].
    destruct (IHev1 _ x c0 _ fr n0 (conj C2 eq_refl) OK FR NE) as (j2 & n' & S2 & A2). eapply after_trans; [exact S2|exact A2|].
    eapply after_step; [exact (if_step _ _ _ _ _ _ _ fr n' C3 H1)|apply agree_refl|].
    destruct (opt_step _ fr n' _ _ _ C4 H2) as (j3 & S3). eapply after_trans; [exact S3|apply agree_refl|].
    eapply after_step; [exact (jmp_step _ _ _ fr n' C5)|apply agree_refl|]. apply IHev2; auto. split; [exact C|reflexivity].
  - (* ua_step_end *) destruct PL as [C ->]. destruct (until_after _ _ _ _ _ C) as (C1 & C2 & C3 & C4 & C5 & LE).
    destruct (opt_step _ fr n0 _ _ _ C1 H) as (j & S1). eapply after_trans; [exact S1|apply agree_refl|].
    destruct (IHev _ x c0 _ fr n0 (conj C2 eq_refl) OK FR NE) as (j2 & n' & S2 & A2). eapply after_trans; [exact S2|exact A2|].
    eapply after_step; [exact (if_step _ _ _ _ _ _ _ fr n' C3 H1)|apply agree_refl|]. exists 1%nat. exact (opt_end _ _ _ _ _ _ C4 H2).
  - (* in *) destruct PL as [C ->]. cbn [bcode blen] in *.
    pose proof (IHev pc x (pc + len b)%nat (pc + len b)%nat fr n0 (conj C eq_refl) OK FR NE) as A. destruct r; cbn [uncycle]; exact A.
  - (* out *) destruct PL as [C ->]. cbn [bcode blen] in *. apply code_at_cons in C. destruct C as [C1 C]. apply code_at_cons in C. destruct C as [C2 C]. apply code_at_cons in C. destruct C as [C3 _].
    destruct OK as [O1 O2]. assert (LF : length fr = length es) by (rewrite <- FR; symmetry; apply map_length).
    eapply (after_step _ _ _ _ _ n0 n0); [one C1; rewrite LF; unfold STACK_SIZE; destruct (Nat.leb_spec 255 (S (length es))); [lia|]|apply agree_refl|].
    { replace (check && (S (length es) =? 255 - 1)%nat) with false; [reflexivity|]. symmetry. destruct check; [|reflexivity]. cbn [andb]. apply Nat.eqb_neq. specialize (H0 eq_refl). lia. }
    destruct (goto_step lb ((le, (pc + 2)%nat) :: fr) n0 s O1) as (p & F & R & G).
    eapply (after_step _ _ _ _ _ n0 n0); [one C2; apply G|apply agree_refl|].
    assert (OK' : task_ok (TRun (from_label lb items))) by (intros st IS; now apply suffix_from in IS).
    assert (NE' : forall e, In e (le :: es) -> need e = true) by (intros e [ <- |E]; auto).
    assert (FR' : map fst ((le, (pc + 2)%nat) :: fr) = le :: es) by (cbn [map fst]; now rewrite FR).
    pose proof (IHev p x c0 0%nat ((le, (pc + 2)%nat) :: fr) n0 R OK' FR' NE') as A. pose proof (pop_ok _ _ _ _ _ H1) as PR.
    destruct r as [?|? ?|?|?|[|i] s2|f|]; try contradiction PR; cbn [pop].
    + destruct A as (j & n' & t & ret & g & SK & S1 & A1). cbn [skipn] in SK. injection SK as <- <- <-. eapply after_trans; [exact S1|exact A1|].
      eapply (after_step _ _ _ _ _ n' n'); [replace (pc + 2)%nat with (S (S pc)) by lia; one C3; reflexivity|apply agree_refl|]. cbn [tl].
      exists 0%nat, n'. split; [|apply agree_refl]. replace (pc + 3)%nat with (S (S (S pc))) by lia. constructor.
    + destruct A as (j & n' & t & ret & g & SK & S1 & A1). cbn [skipn] in SK. exists j, n', t, ret, g. auto.
    + exact A.
    + exact I.
  - (* out_ub *) destruct PL as [C ->]. cbn [bcode] in C. apply code_at_cons in C. destruct C as [C1 _]. assert (LF : length fr = length es) by (rewrite <- FR; symmetry; apply map_length).
    exists 1%nat. cbn [Perform.runs]. one C1. rewrite LF. unfold STACK_SIZE. destruct (Nat.leb_spec 255 (S (length es))); [reflexivity|lia].
  - (* out_fatal *) destruct PL as [C ->]. cbn [bcode] in C. apply code_at_cons in C. destruct C as [C1 _]. assert (LF : length fr = length es) by (rewrite <- FR; symmetry; apply map_length).
    exists 1%nat. cbn [Perform.runs]. one C1. rewrite LF, H, H0. reflexivity.
  - (* end *) destruct PL as [_ L]. cbn [comp_items length] in L. exists 1%nat. cbn [Perform.runs]. unfold Perform.step. cbn [Perform.pc]. rewrite (proj2 (nth_error_None code pc)) by lia. reflexivity.
  - (* lab *) apply rest_cons in PL. destruct PL as [C R]. cbn [comp_item len_item] in *. apply code_at_cons in C. destruct C as [C _].
    eapply (after_step _ _ _ _ _ n0 n0); [one C; reflexivity|apply agree_refl|]. replace (S pc) with (pc + 1)%nat by lia. apply IHev; auto. intros st IS. apply OK. now right.
  - (* return *) apply rest_cons in PL. destruct PL as [C _]. cbn [comp_item] in C. rewrite (NE l (ends_in _ _ _ H)) in C. apply code_at_cons in C. destruct C as [C _].
    rewrite <- FR in H. destruct (exit_some _ _ _ H) as (t & r & g & E1 & E2). exists 1%nat, n0, t, r, g. split; [exact E2|]. split; [|apply agree_refl].
    eapply s_S; [one C; rewrite E1; reflexivity|constructor].
  - (* pass *) apply rest_cons in PL. destruct PL as [C R]. cbn [comp_item len_item] in *. assert (OK' : task_ok (TRun is)) by (intros st IS; apply OK; now right). destruct (need l).
    + apply code_at_cons in C. destruct C as [C _]. rewrite <- FR in H. eapply (after_step _ _ _ _ _ n0 n0); [one C; rewrite (exit_none _ _ H); reflexivity|apply agree_refl|].
      replace (S pc) with (pc + 1)%nat by lia. apply IHev; auto.
    + rewrite Nat.add_0_r in R. apply IHev; auto.
  - (* stmt *) apply rest_cons in PL. destruct PL as [C R]. cbn [comp_item len_item] in *. assert (OK' : task_ok (TRun is)) by (intros st IS; apply OK; now right).
    destruct (IHev1 pc 0%nat 0%nat (pc + len a)%nat fr n0 (conj C eq_refl) (item_ok a (OK a (or_introl eq_refl))) FR NE) as (j & n' & S1 & A1).
    eapply after_trans; [exact S1|exact A1|]. apply IHev2; auto.
  - (* jump *) apply rest_cons in PL. destruct PL as [C R]. cbn [comp_item len_item] in *.
    destruct (IHev1 pc 0%nat 0%nat (pc + len a)%nat fr n0 (conj C eq_refl) (item_ok a (OK a (or_introl eq_refl))) FR NE) as (j & n' & p & F & S1 & A1).
    eapply after_trans; [exact S1|exact A1|]. destruct (label_at l (find_in _ _ _ _ _ F)) as (p' & F' & R'). rewrite F in F'. injection F' as <-.
    apply IHev2; auto. intros st IS. now apply suffix_from in IS.
  - (* leave *) apply rest_cons in PL. destruct PL as [C R]. cbn [comp_item len_item] in *.
    pose proof (IHev pc 0%nat 0%nat (pc + len a)%nat fr n0 (conj C eq_refl) (item_ok a (OK a (or_introl eq_refl))) FR NE) as A.
    destruct r; try contradiction H0; exact A.
Qed.

(** ** And the other way round: if the machine comes to an end, so does the
    structured execution. *)
Fixpoint ssize (s : stmt) : nat :=
  match s with
  | Seq a b | If _ a b => 1 + ssize a + ssize b
  | Inline p b => 6 + match p with PUntil _ vs => length vs | _ => 0 end + ssize b
  | Outline p _ _ => 6 + match p with PUntil _ vs => length vs | _ => 0 end
  | _ => 1
  end.
Definition bsize (b : body) : nat := match b with BIn s => 1 + ssize s | BOut _ _ => 1 end.
Definition size (t : task) : nat :=
  match t with
  | TStmt s => ssize s
  | TPhrase p b => 3 + match p with PUntil _ vs => length vs | _ => 0 end + bsize b
  | TBody b => bsize b
  | TTimes _ b _ | TForever b => 1 + bsize b
  | TUntil _ b vs => 1 + length vs + bsize b
  | TRun is => fold_right (fun i n => match i with Code s => 1 + ssize s + n | _ => 1 + n end)%nat 1%nat is
  end.
Definition backward (N : nat) (t : task) : Prop :=
  forall es act s pc x c q fr n f, placed act n t pc x c q -> task_ok t -> map fst fr = es -> (forall e, In e es -> need e = true) ->
  runs N (mkConf pc fr n s) = Some f -> exists r, ev es act t s r.

(** A statement outside an inline PERFORM does not end with EXIT PERFORM. *)
Definition breaks (r : result) : bool := match r with Breaks _ | Cycles _ => true | _ => false end.
Definition cycles (r : result) : bool := match r with Cycles _ => true | _ => false end.
Definition body_res (b : body) (r : result) : Prop := cycles r = false /\ match b with BOut _ _ => breaks r = false | _ => True end.
Lemma no_breaks : forall es act t s r, ev es act t s r ->
  match t with
  | TStmt st => exits_ok false st -> breaks r = false
  | TRun _ => breaks r = false
  | TPhrase _ b | TBody b | TTimes _ b _ | TForever b | TUntil _ b _ => body_res b r
  end.
Proof.
  assert (BN : forall b s, body_res b (Normal s)) by (intros [?|? ?] s; split; auto).
  assert (BE : forall b f, body_res b (Ends f)) by (intros [?|? ?] s; split; auto).
  intros es act t s r H. induction H; auto; try (intros X; discriminate X); try (cbn [exits_ok]; intros X; destruct X; auto; fail).
  - intros _. now destruct (o s).
  - intros [X Y]. destruct v; auto.
  - intros _. destruct IHev as [C _]. now destruct r.
  - intros _. exact (proj2 IHev).
  - split; auto. destruct b; auto.
  - split; [now destruct r|exact I].
  - destruct r as [?|? ?|?|?|[|i] s2|f|]; try discriminate IHev; split; reflexivity.
  - now destruct r.
Qed.

Lemma runs_next : forall a b N f, step a = Next b -> runs N a = Some f -> exists N', N = S N' /\ runs N' b = Some f.
Proof. intros a b [|N] f E R; [discriminate R|]. cbn [Perform.runs] in R. rewrite E in R. now exists N. Qed.
Lemma go_on : forall es act t s s' pc x c q fr n N f, ev es act t s (Normal s') -> placed act n t pc x c q -> task_ok t -> map fst fr = es -> (forall e, In e es -> need e = true) ->
  runs N (mkConf pc fr n s) = Some f -> exists N' n', (N' <= N)%nat /\ runs N' (mkConf q fr n' s') = Some f /\ agree (kept act t) n n'.
Proof.
  intros es act t s s' pc x c q fr n N f E P OK FR NE R. destruct (sim _ _ _ _ _ E pc x c q fr n P OK FR NE) as (j & n' & S1 & A).
  destruct (runs_back _ _ _ S1 N f R) as (N' & -> & R'). exists N', n'. split; [lia|]. auto.
Qed.
Lemma times_placed : forall k n b x pc, code_at pc (comp_phrase (PTimes k n) (blen b) (bcode b x) pc) ->
  nth_error code pc = Some (ISetN k n) /\ forall act n0 v c, placed (k :: act) (set_n n0 k v) (TTimes k b v) (S pc) x c (pc + len_phrase (PTimes k n) (blen b)).
Proof.
  intros k n b x pc C. cbn [comp_phrase len_phrase] in *. apply code_at_app in C. destruct C as [C1 C2]. cbn [length] in C2.
  apply code_at_cons in C1. destruct C1 as [C1 C1']. apply code_at_cons in C1'. destruct C1' as [C3 _]. split; [exact C1|]. intros act n0 v c.
  split; [split; [|lia]|].
  - replace (S pc + 1 + blen b + 2)%nat with (pc + 2 + blen b + 2)%nat by lia.
    intros i y E. destruct i as [|i]; cbn [nth_error] in E; [injection E as <-; now rewrite Nat.add_0_r|].
    replace (S pc + S i)%nat with (pc + 2 + i)%nat by lia. apply C2. replace (S pc + 1)%nat with (pc + 2)%nat in E by lia. replace (S pc) with (pc + 1)%nat in E by lia. exact E.
  - split; [unfold set_n; now rewrite Nat.eqb_refl|now left].
Qed.
Lemma seq_ok : forall a b, stmt_ok (Seq a b) -> stmt_ok a /\ stmt_ok b.
Proof.
  intros a b [[O1 O2] ON]. split; (split; [assumption|intros l R; apply ON; cbn [returns_from]; rewrite R; rewrite ?orb_true_r; reflexivity]).
Qed.
Lemma if_ok : forall c a b, stmt_ok (If c a b) -> stmt_ok a /\ stmt_ok b.
Proof.
  intros c a b [[O1 O2] ON]. split; (split; [assumption|intros l R; apply ON; cbn [returns_from]; rewrite R; rewrite ?orb_true_r; reflexivity]).
Qed.
Lemma size_pos : forall t, (1 <= size t)%nat.
Proof.
  intros [s|p b|b|k b n|b|be b vs|is]; cbn [size]; try lia.
  - destruct s; cbn [ssize]; lia.
  - destruct b; cbn [bsize]; lia.
  - destruct is as [|[l|l|s] r]; cbn [fold_right]; lia.
Qed.

Theorem back : forall N m t, (size t <= m)%nat -> backward N t.
Proof.
  induction N as [N IHN] using lt_wf_ind. induction m as [|m IHm]; intros t SZ; [pose proof (size_pos t); lia|].
  assert (IH : forall N' t', (N' <= N)%nat -> (N' < N \/ size t' <= m)%nat -> backward N' t').
  { intros N' t' L [L'|L']; [exact (IHN N' L' (size t') t' (le_n _))|]. destruct (Nat.eq_dec N' N) as [-> |]; [now apply IHm|]. exact (IHN N' ltac:(lia) (size t') t' (le_n _)). }
  clear IHN IHm. intros es act s pc x c q fr n f PL OK FR NE R. destruct t as [st|p b|b|k b v|b|be b vs|is].
  - (* statement *) destruct st as [|a b|o|t a b|l|n0 ls| | | |p b|p lb le].
    + eexists. apply ev_skip.
    + destruct PL as [C ->]. cbn [comp] in C. apply code_at_app in C. destruct C as [C1 C2]. rewrite length_comp in C2. destruct (seq_ok _ _ OK) as [OA OB]. cbn [size ssize] in SZ.
      destruct (IH N (TStmt a) ltac:(lia) ltac:(cbn [size]; lia) es act s pc x c (pc + len a)%nat fr n f (conj C1 eq_refl) OA FR NE R) as (r1 & E1).
      destruct (normal r1) eqn:NR; [|exists r1; eapply ev_seq_out; eassumption]. destruct r1 as [s'|? ?|?|?|? ?|?|]; try discriminate NR.
      destruct (go_on _ _ _ _ _ pc x c (pc + len a)%nat fr n N f E1 (conj C1 eq_refl) OA FR NE R) as (N' & n' & L & R' & _).
      destruct (IH N' (TStmt b) L ltac:(cbn [size]; lia) es act s' _ x c _ fr n' f (conj C2 eq_refl) OB FR NE R') as (r2 & E2). exists r2. eapply ev_seq; eassumption.
    + eexists. apply ev_do.
    + destruct PL as [C ->]. cbn [comp] in C. apply code_at_app in C. destruct C as [C1 C]. apply code_at_cons in C1. destruct C1 as [C1 _]. cbn [length] in C.
      apply code_at_app in C. destruct C as [C2 C]. rewrite length_comp in C. apply code_at_app in C. destruct C as [C3 C4]. cbn [length] in C4. destruct (if_ok _ _ _ OK) as [OA OB].
      destruct (t s) as [[v s']|e] eqn:T; [|eexists; eapply ev_if_end; eassumption].
      destruct (runs_next _ _ _ _ (if_step _ _ _ _ _ _ _ fr n C1 T) R) as (N' & -> & R').
      assert (X : exists r, ev es act (TStmt (if v then a else b)) s' r).
      { destruct v; [exact (IH N' (TStmt a) ltac:(lia) ltac:(lia) es act s' _ x c _ fr n f (conj C2 eq_refl) OA FR NE R')|exact (IH N' (TStmt b) ltac:(lia) ltac:(lia) es act s' _ x c _ fr n f (conj C4 eq_refl) OB FR NE R')]. }
      destruct X as (r & E). exists r. eapply ev_if; eassumption.
    + eexists. apply ev_goto.
    + destruct (n0 s) as [[v s']|e] eqn:T; [|eexists; eapply ev_dep_end; eassumption]. destruct (Z_lt_dec v 1); [eexists; eapply ev_dep_out; [exact T|lia]|].
      destruct (nth_error ls (Z.to_nat (v - 1))) as [l|] eqn:NL; [eexists; eapply ev_dep; [exact T|lia|exact NL]|].
      apply nth_error_None in NL. eexists. eapply ev_dep_out; [exact T|lia].
    + eexists. apply ev_stop.
    + eexists. apply ev_exit.
    + eexists. apply ev_cycle.
    + destruct PL as [C ->]. cbn [comp len size ssize] in *.
      destruct (IH N (TPhrase p (BIn b)) ltac:(lia) ltac:(right; cbn [size bsize]; lia) es act s pc (pc + len_phrase p (len b))%nat c _ fr n f (conj C eq_refl) OK FR NE R) as (r & E).
      eexists. eapply ev_inline; exact E.
    + destruct PL as [C ->]. cbn [comp len size ssize] in *. destruct OK as [[O1 O2] ON].
      assert (OK' : body_ok (BOut lb le)) by (split; [exact O1|]; apply ON; cbn [returns_from]; apply Nat.eqb_refl).
      destruct (IH N (TPhrase p (BOut lb le)) ltac:(lia) ltac:(right; cbn [size bsize]; lia) es act s pc x c _ fr n f (conj C eq_refl) OK' FR NE R) as (r & E).
      exists r. eapply ev_outline; eassumption.
  - (* phrase *) destruct p as [| |k n0|be vs].
    + destruct (IH N (TBody b) ltac:(lia) ltac:(right; cbn [size] in *; lia) es act s pc x c q fr n f PL OK FR NE R) as (r & E). exists r. eapply ev_once; eassumption.
    + destruct (IH N (TForever b) ltac:(lia) ltac:(right; cbn [size] in *; lia) es act s pc x c q fr n f (proj1 PL) OK FR NE R) as (r & E). exists r. eapply ev_forever; eassumption.
    + destruct PL as [C ->]. destruct (times_placed _ _ _ _ _ C) as [C1 PL]. destruct (n0 s) as [[v s']|e] eqn:T; [|eexists; eapply ev_times_end; eassumption].
      destruct (in_dec Nat.eq_dec k act) as [I0|I0]; [eexists; eapply ev_times_again; eassumption|].
      assert (ST : step (mkConf pc fr n s) = Next (mkConf (S pc) fr (set_n n k v) s')) by (one C1; now rewrite T).
      destruct (runs_next _ _ _ _ ST R) as (N' & -> & R').
      destruct (IH N' (TTimes k b v) ltac:(lia) ltac:(lia) es (k :: act) s' (S pc) x c _ fr _ f (PL act n v c) OK FR NE R') as (r & E). exists r. eapply ev_times; eassumption.
    + destruct PL as [C ->]. cbn [comp_phrase len_phrase] in *. apply code_at_app in C. destruct C as [C1 C2]. rewrite length_opt in C2.
      destruct (opt (next_from vs) s) as [s'|e] eqn:T; [|eexists; eapply ev_until_end; eassumption].
      destruct (opt_step _ fr n _ _ _ C1 T) as (j & S1). destruct (runs_back _ _ _ S1 N f R) as (N' & -> & R').
      destruct (IH N' (TUntil be b vs) ltac:(lia) ltac:(right; cbn [size] in *; lia) es act s' _ x c _ fr n f (conj C2 eq_refl) OK FR NE R') as (r & E). exists r. eapply ev_until; eassumption.
  - (* body *) destruct b as [b|lb le].
    + destruct PL as [C ->]. cbn [bcode blen] in *.
      destruct (IH N (TStmt b) ltac:(lia) ltac:(right; cbn [size bsize] in *; lia) es act s pc x (pc + len b)%nat _ fr n f (conj C eq_refl) OK FR NE R) as (r & E). eexists. eapply ev_in; exact E.
    + destruct PL as [C ->]. cbn [bcode blen] in *. apply code_at_cons in C. destruct C as [C1 C]. apply code_at_cons in C. destruct C as [C2 C].
      destruct OK as [O1 O2]. assert (LF : length fr = length es) by (rewrite <- FR; symmetry; apply map_length).
      destruct (le_lt_dec 254 (length es)) as [L|L]; [eexists; eapply ev_out_ub; eassumption|].
      assert (D : (check = true /\ length es = 253%nat) \/ (check = true -> length es <> 253%nat)).
      { destruct check; [destruct (Nat.eq_dec (length es) 253); [left|right]; auto|right; discriminate]. }
      destruct D as [[D1 D2]|D]; [eexists; eapply ev_out_fatal; eassumption|].
      assert (ST : step (mkConf pc fr n s) = Next (mkConf (S pc) ((le, (pc + 2)%nat) :: fr) n s)).
      { one C1. rewrite LF. unfold STACK_SIZE. destruct (Nat.leb_spec 255 (S (length es))); [lia|].
        replace (check && (S (length es) =? 255 - 1)%nat) with false; [reflexivity|]. symmetry. destruct check; [|reflexivity]. cbn [andb]. apply Nat.eqb_neq. specialize (D eq_refl). lia. }
      destruct (runs_next _ _ _ _ ST R) as (N1 & -> & R1).
      destruct (goto_step lb ((le, (pc + 2)%nat) :: fr) n s O1) as (p & F & RA & G).
      assert (ST2 : step (mkConf (S pc) ((le, (pc + 2)%nat) :: fr) n s) = Next (mkConf p ((le, (pc + 2)%nat) :: fr) n s)) by (one C2; apply G).
      destruct (runs_next _ _ _ _ ST2 R1) as (N2 & -> & R2).
      assert (OK' : task_ok (TRun (from_label lb items))) by (intros st IS; now apply suffix_from in IS).
      assert (NE' : forall e, In e (le :: es) -> need e = true) by (intros e [ <- |E]; auto).
      assert (FR' : map fst ((le, (pc + 2)%nat) :: fr) = le :: es) by (cbn [map fst]; now rewrite FR).
      destruct (IH N2 (TRun (from_label lb items)) ltac:(lia) ltac:(lia) (le :: es) act s p x c 0%nat _ n f RA OK' FR' NE' R2) as (r & E).
      eexists. eapply ev_out; eassumption.
  - (* times *) destruct PL as ((C & ->) & NK & KA). pose proof C as CC. apply code_at_cons in C. destruct C as [C1 C]. apply code_at_app in C. destruct C as [C2 C3]. rewrite length_bcode in C3.
    apply code_at_cons in C3. destruct C3 as [C3 C4]. apply code_at_cons in C4. destruct C4 as [C4 _]. replace (pc + 1)%nat with (S pc) in C2 by lia.
    destruct (Z_le_dec v 0) as [L|L]; [eexists; eapply ev_t_done; eassumption|].
    assert (ST : step (mkConf pc fr n s) = Next (mkConf (S pc) fr n s)) by (one C1; rewrite NK; destruct (Z.ltb_spec 0 v); [reflexivity|lia]).
    destruct (runs_next _ _ _ _ ST R) as (N1 & -> & R1).
    destruct (IH N1 (TBody b) ltac:(lia) ltac:(lia) es act s (S pc) x c _ fr n f (conj C2 eq_refl) OK FR NE R1) as (r1 & E1).
    destruct (normal r1) eqn:NR; [|exists r1; apply ev_t_out; [lia|assumption..]]. destruct r1 as [s'|? ?|?|?|? ?|?|]; try discriminate NR.
    destruct (go_on _ _ _ _ _ (S pc) x c _ fr n N1 f E1 (conj C2 eq_refl) OK FR NE R1) as (N2 & n' & L2 & R2 & A). cbn [kept] in A.
    assert (ST2 : step (mkConf (S pc + blen b) fr n' s') = Next (mkConf (S (S pc + blen b)) fr (set_n n' k (n' k - 1)) s')) by (one C3; reflexivity).
    destruct (runs_next _ _ _ _ ST2 R2) as (N3 & -> & R3).
    destruct (runs_next _ _ _ _ (jmp_step _ s' _ fr (set_n n' k (n' k - 1)) C4) R3) as (N4 & -> & R4).
    destruct (IH N4 (TTimes k b (v - 1)) ltac:(lia) ltac:(lia) es act s' pc x c (pc + 1 + blen b + 2)%nat fr (set_n n' k (n' k - 1)) f) as (r2 & E2); auto.
    { split; [split; [exact CC|reflexivity]|]. split; [|exact KA]. unfold set_n. rewrite Nat.eqb_refl, (A k KA), NK. reflexivity. }
    exists r2. eapply ev_t_next; [lia|eassumption..].
  - (* forever *) cbn [placed] in PL. pose proof PL as C. apply code_at_app in C. destruct C as [C1 C2]. apply code_at_cons in C2. destruct C2 as [C2 _]. rewrite length_bcode in C2.
    destruct (IH N (TBody b) ltac:(lia) ltac:(right; cbn [size] in *; lia) es act s pc x c _ fr n f (conj C1 eq_refl) OK FR NE R) as (r1 & E1).
    destruct (normal r1) eqn:NR; [|exists r1; eapply ev_f_out; eassumption]. destruct r1 as [s'|? ?|?|?|? ?|?|]; try discriminate NR.
    destruct (go_on _ _ _ _ _ pc x c _ fr n N f E1 (conj C1 eq_refl) OK FR NE R) as (N1 & n' & L & R1 & _).
    destruct (runs_next _ _ _ _ (jmp_step _ s' _ fr n' C2) R1) as (N2 & -> & R2).
    destruct (IH N2 (TForever b) ltac:(lia) ltac:(lia) es act s' pc x c q fr n' f PL OK FR NE R2) as (r2 & E2). exists r2. eapply ev_f_next; eassumption.
  - (* until *) destruct vs as [|v vs].
    { destruct PL as [C ->]. destruct (IH N (TBody b) ltac:(lia) ltac:(right; cbn [size length] in *; lia) es act s pc x c _ fr n f (conj C eq_refl) OK FR NE R) as (r & E). exists r. eapply ev_u_body; eassumption. }
    destruct PL as [C ->]. destruct (opt (next_from vs) s) as [s1|e] eqn:T1; [|eexists; eapply ev_u_from_end; eassumption]. cbn [size length] in SZ. destruct be.
    + destruct (until_before _ _ _ _ _ C) as (C1 & C2 & C3 & C4 & C5 & LE). destruct (opt_step _ fr n _ _ _ C1 T1) as (j & S1). destruct (runs_back _ _ _ S1 N f R) as (N1 & -> & R1).
      destruct (v_until v s1) as [[[] s2]|e] eqn:T2; [eexists; eapply ev_ub_done; eassumption| |eexists; eapply ev_ub_end; eassumption].
      destruct (runs_next _ _ _ _ (if_step _ _ _ _ _ _ _ fr n C2 T2) R1) as (N2 & -> & R2).
      destruct (IH N2 (TUntil true b vs) ltac:(lia) ltac:(lia) es act s2 _ x c _ fr n f (conj C3 eq_refl) OK FR NE R2) as (r1 & E1).
      destruct (normal r1) eqn:NR; [|exists r1; eapply ev_ub_out; eassumption]. destruct r1 as [s3|? ?|?|?|? ?|?|]; try discriminate NR.
      destruct (go_on _ _ _ _ _ _ x c _ fr n N2 f E1 (conj C3 eq_refl) OK FR NE R2) as (N3 & n' & L & R3 & _).
      destruct (opt (v_step v) s3) as [s4|e] eqn:T3; [|eexists; eapply ev_ub_step_end; eassumption].
      destruct (opt_step _ fr n' _ _ _ C4 T3) as (j2 & S2). destruct (runs_back _ _ _ S2 N3 f R3) as (N4 & -> & R4).
      destruct (runs_next _ _ _ _ (jmp_step _ s4 _ fr n' C5) R4) as (N5 & -> & R5).
      destruct (IH N5 (TUntil true b (v :: vs)) ltac:(lia) ltac:(lia) es act s4 pc x c _ fr n' f (conj C eq_refl) OK FR NE R5) as (r2 & E2). exists r2. eapply ev_ub_next; eassumption.
    + destruct (until_after _ _ _ _ _ C) as (C1 & C2 & C3 & C4 & C5 & LE). destruct (opt_step _ fr n _ _ _ C1 T1) as (j & S1). destruct (runs_back _ _ _ S1 N f R) as (N1 & -> & R1).
      destruct (IH N1 (TUntil false b vs) ltac:(lia) ltac:(right; cbn [size]; lia) es act s1 _ x c _ fr n f (conj C2 eq_refl) OK FR NE R1) as (r1 & E1).
      destruct (normal r1) eqn:NR; [|exists r1; eapply ev_ua_out; eassumption]. destruct r1 as [s2|? ?|?|?|? ?|?|]; try discriminate NR.
      destruct (go_on _ _ _ _ _ _ x c _ fr n N1 f E1 (conj C2 eq_refl) OK FR NE R1) as (N2 & n' & L & R2 & _).
      destruct (v_until v s2) as [[[] s3]|e] eqn:T2; [eexists; eapply ev_ua_done; eassumption| |eexists; eapply ev_ua_end; eassumption].
      destruct (runs_next _ _ _ _ (if_step _ _ _ _ _ _ _ fr n' C3 T2) R2) as (N3 & -> & R3).
      destruct (opt (v_step v) s3) as [s4|e] eqn:T3; [|eexists; eapply ev_ua_step_end; eassumption].
      destruct (opt_step _ fr n' _ _ _ C4 T3) as (j2 & S2). destruct (runs_back _ _ _ S2 N3 f R3) as (N4 & -> & R4).
      destruct (runs_next _ _ _ _ (jmp_step _ s4 _ fr n' C5) R4) as (N5 & -> & R5).
      destruct (IH N5 (TUntil false b (v :: vs)) ltac:(lia) ltac:(lia) es act s4 pc x c _ fr n' f (conj C eq_refl) OK FR NE R5) as (r2 & E2). exists r2. eapply ev_ua_next; eassumption.
  - (* the rest of the program *) destruct is as [|i is]; [eexists; apply ev_end|]. assert (OK' : task_ok (TRun is)) by (intros st IS; apply OK; now right).
    apply rest_cons in PL. destruct PL as [C RA]. destruct i as [l|l|a]; cbn [comp_item len_item size fold_right] in *.
    + apply code_at_cons in C. destruct C as [C _]. replace (pc + 1)%nat with (S pc) in RA by lia.
      assert (ST : step (mkConf pc fr n s) = Next (mkConf (S pc) fr n s)) by (now one C). destruct (runs_next _ _ _ _ ST R) as (N1 & -> & R1).
      destruct (IH N1 (TRun is) ltac:(lia) ltac:(lia) es act s (S pc) x c q fr n f RA OK' FR NE R1) as (r & E). exists r. eapply ev_lab; eassumption.
    + destruct (ends_at osvs l es) as [j|] eqn:EA; [eexists; eapply ev_return; eassumption|].
      assert (X : exists N' pc', (N' <= N)%nat /\ rest_at pc' is /\ runs N' (mkConf pc' fr n s) = Some f).
      { destruct (need l).
        - apply code_at_cons in C. destruct C as [C _]. assert (ST : step (mkConf pc fr n s) = Next (mkConf (S pc) fr n s)) by (one C; rewrite <- FR in EA; now rewrite (exit_none _ _ EA)).
          destruct (runs_next _ _ _ _ ST R) as (N1 & -> & R1). exists N1, (S pc). split; [lia|]. split; [|exact R1]. replace (S pc) with (pc + 1)%nat by lia. exact RA.
        - exists N, pc. rewrite Nat.add_0_r in RA. auto. }
      destruct X as (N' & pc' & L & RA' & R'). destruct (IH N' (TRun is) L ltac:(right; cbn [size]; lia) es act s pc' x c q fr n f RA' OK' FR NE R') as (r & E). exists r. eapply ev_pass; eassumption.
    + pose proof (item_ok a (OK a (or_introl eq_refl))) as OA.
      destruct (IH N (TStmt a) ltac:(lia) ltac:(right; cbn [size]; lia) es act s pc 0%nat 0%nat _ fr n f (conj C eq_refl) OA FR NE R) as (r1 & E1).
      pose proof (no_breaks _ _ _ _ _ E1 (proj2 (WF a (OK a (or_introl eq_refl))))) as NB.
      destruct r1 as [s'|l s'|s'|s'|j s'|g|]; try discriminate NB; try (eexists; eapply ev_leave; [exact E1|exact I]).
      * destruct (go_on _ _ _ _ _ pc 0%nat 0%nat _ fr n N f E1 (conj C eq_refl) OA FR NE R) as (N' & n' & L & R' & _).
        destruct (IH N' (TRun is) L ltac:(right; cbn [size]; lia) es act s' _ x c q fr n' f RA OK' FR NE R') as (r & E). exists r. eapply ev_stmt; eassumption.
      * destruct (sim _ _ _ _ _ E1 pc 0%nat 0%nat _ fr n (conj C eq_refl) OA FR NE) as (j & n' & p & F & S1 & A1).
        destruct (runs_back _ _ _ S1 N f R) as (N' & -> & R'). destruct (label_at l (find_in _ _ _ _ _ F)) as (p' & F' & RP). rewrite F in F'. injection F' as <-.
        destruct (IH N' (TRun (from_label l items)) ltac:(lia) ltac:(lia) es act s' p x c q fr n' f RP) as (r & E); auto.
        { intros st IS. now apply suffix_from in IS. }
        exists r. eapply ev_jump; eassumption.
Qed.

(** ** One end only *)
Lemma normal_not : forall s (r : result), Normal s = r -> normal r = false -> False.
Proof. intros s r <- X. discriminate X. Qed.
Theorem ev_det : forall es act t s r, ev es act t s r -> forall r', ev es act t s r' -> r = r'.
Proof.
  intros es act t s r H. induction H; intros r0 K; inversion K; subst; try congruence; try lia.
  all: repeat (match goal with
    | A : ?x = ?y, B : ?x = ?z |- _ => first [discriminate (eq_trans (eq_sym A) B) | (rewrite A in B; first [discriminate B | (injection B; clear B; intros; subst)])]
    | IH : (forall r', SpecPerform.ev _ _ _ ?e ?a ?t ?s r' -> ?r = r'), E : SpecPerform.ev _ _ _ ?e ?a ?t ?s ?r2 |- _ =>
        let X := fresh "X" in pose proof (IH _ E) as X; clear E; first [discriminate X | (injection X; clear X; intros; subst) | subst]
    end; try discriminate; try contradiction).
  all: try reflexivity; try congruence; try lia.
  all: exfalso; match goal with N : nth_error ?ls (Z.to_nat (?v - 1)) = Some _ |- _ =>
    assert (Z.to_nat (v - 1) < length ls)%nat by (apply nth_error_Some; rewrite N; discriminate) end; lia.
Qed.
End P.
