(** Proofs about SpecStatus: what the file functions leave alone, and the
    invariant tying the flags of the file to the history. *)
From Verif Require Import Base Stdio FileIO SpecStatus.

Definition flags (f : cfile) := (f_open f, f_access f, f_nonexistent f, f_eof f, f_read_done f).
Definition plain (s : Z) : Prop := In s [0; 4; 7; 10; 14; 21; 22; 23; 30; 91].

Lemma bind_ok : forall {A B} (x : outcome A) (k : A -> outcome B) b, (do v <- x; k v) = Ok b -> exists a, x = Ok a /\ k a = Ok b.
Proof. intros A B x k b H. destruct x; try discriminate. eauto. Qed.

Ltac crush :=
  repeat match goal with
  | H : UB = Ok _ |- _ => discriminate H
  | H : NotModelled = Ok _ |- _ => discriminate H
  | H : with_stream _ _ = Ok _ |- _ => unfold with_stream in H
  | H : Ok _ = Ok _ |- _ => injection H; clear H; intros; subst
  | H : (_, _) = (_, _) |- _ => injection H; clear H; intros; subst
  | H : Some _ = Some _ |- _ => injection H; clear H; intros; subst
  | H : inl _ = inl _ |- _ => injection H; clear H; intros; subst
  | H : inr _ = inr _ |- _ => injection H; clear H; intros; subst
  | H : inl _ = inr _ |- _ => discriminate H
  | H : inr _ = inl _ |- _ => discriminate H
  | H : Some _ = None |- _ => discriminate H
  | H : None = Some _ |- _ => discriminate H
  | H : obind _ _ = Ok _ |- _ => apply bind_ok in H; destruct H as (? & ? & ?)
  | H : context [match ?x with _ => _ end] |- _ => let E := fresh "E" in destruct x eqn:E
  end.
Ltac pl := unfold plain; repeat match goal with |- context [if ?b then _ else _] => destruct b end; cbn [In]; tauto.
Ltac done_ := split; [unfold flags, into_area; cbn [set_dep set_key set_data set_size set_open set_first set_done set_nl set_stream set_disk set_status f_open f_access f_nonexistent f_eof f_read_done]; repeat match goal with |- context [match ?b with _ => _ end] => destruct b end; reflexivity | pl].

Lemma seq_read_fl : forall c f st g, sequential_read c f = Ok (st, g) -> flags g = flags f /\ plain st.
Proof. intros c f st g H. unfold sequential_read in H. crush; done_. Qed.
Lemma seq_write_fl : forall c f o st g, sequential_write c f o = Ok (st, g) -> flags g = flags f /\ plain st.
Proof. intros c f o st g H. unfold sequential_write in H. crush; done_. Qed.
Lemma seq_rewrite_fl : forall f st g, sequential_rewrite f = Ok (st, g) -> flags g = flags f /\ plain st.
Proof. intros f st g H. unfold sequential_rewrite in H. crush; done_. Qed.
Lemma line_loop_st : forall nulls l room some pos st cs p, line_loop nulls room some l pos = (st, cs, p) -> plain st.
Proof.
  intros nulls l. assert (G : forall n l, (length l <= n)%nat -> forall room some pos st cs p, line_loop nulls room some l pos = (st, cs, p) -> plain st).
  { clear. induction n as [|n IH]; intros l LE room some pos st cs p H.
    - destruct l; [|cbn in LE; lia]. cbn [line_loop] in H. crush; pl.
    - destruct l as [|x r]; cbn [line_loop] in H.
      + crush; pl.
      + cbn [length] in LE. crush; cbn [length] in LE; try (pl);
        match goal with E : line_loop _ _ _ _ _ = _ |- _ => eapply IH in E; [exact E|lia] end. }
  intros. eapply G; eauto.
Qed.
Lemma line_read_fl : forall c f st g, lineseq_read c f = Ok (st, g) -> flags g = flags f /\ plain st.
Proof.
  intros c f st g H. unfold lineseq_read, with_stream in H. destruct (f_stream f) as [s|]; [|discriminate].
  destruct (line_loop _ _ _ _ _) as [[s1 cs] p] eqn:L. pose proof (line_loop_st _ _ _ _ _ _ _ _ L) as P. clear L.
  destruct (Nat.ltb _ _); [discriminate|]. destruct (s1 =? 0); cbn [negb] in H; [crush; done_|].
  injection H as <- <-. split; [reflexivity|exact P].
Qed.
Lemma line_write_fl : forall c f o st g, lineseq_write c f o = Ok (st, g) -> flags g = flags f /\ plain st.
Proof. intros c f o st g H. unfold lineseq_write in H. crush; done_. Qed.

Lemma start_fl : forall fuel f s c k x st g, start_loop fuel f s c k x = Ok (st, g) -> flags g = flags f /\ plain st.
Proof.
  induction fuel as [|fuel IH]; intros f s c k x st g H; [discriminate|]. cbn [start_loop] in H.
  crush; try done_; apply IH in H0; destruct H0 as [H0 ?]; split; auto; rewrite H0; reflexivity.
Qed.
Lemma rel_start_fl : forall f c st g, relative_start f c = Ok (st, g) -> flags g = flags f /\ plain st.
Proof. intros f c st g H. unfold relative_start, with_stream in H. destruct (f_stream f); [|discriminate]. destruct (f_key f); [|discriminate]. eapply start_fl; eauto. Qed.
Lemma body_fl : forall f s b g, read_body f s = Ok (b, g) -> flags g = flags f.
Proof. intros f s b g H. unfold read_body in H. crush; reflexivity. Qed.
Lemma rel_read_fl : forall f st g, relative_read f = Ok (st, g) -> flags g = flags f /\ plain st.
Proof.
  intros f st g H. unfold relative_read in H. crush; try done_;
    match goal with E : read_body _ _ = Ok _ |- _ => apply body_fl in E; split; [rewrite E; reflexivity|pl] end.
Qed.
Lemma next_fl : forall fuel f s st g, next_loop fuel f s = Ok (st, g) -> flags g = flags f /\ plain st.
Proof.
  induction fuel as [|fuel IH]; intros f s st g H; [discriminate|]. cbn [next_loop] in H.
  destruct (read_slot_size s) as [sz s1]. destruct sz as [osz|]; [|crush; done_].
  apply bind_ok in H. destruct H as (n & _ & H). cbv beta zeta in H.
  match type of H with (let '(_, _) := ?m in _) = _ => destruct m as [b f1] eqn:E end.
  assert (FL : flags f1 = flags f) by (clear - E; crush; reflexivity).
  clear E. destruct b; cbn [negb] in H; [|injection H as <- <-; split; [rewrite <- FL; reflexivity|pl]].
  destruct (0 <? n)%nat.
  - apply bind_ok in H. destruct H as ([ok f2] & B & H). apply body_fl in B. injection H as <- <-. split; [congruence|]. destruct ok; pl.
  - destruct (fseek_cur s1 _) eqn:S; [|discriminate]. apply IH in H. destruct H as [H ?]. split; auto. congruence.
Qed.
Lemma rel_next_fl : forall f st g, relative_read_next f = Ok (st, g) -> flags g = flags f /\ plain st.
Proof. intros f st g H. unfold relative_read_next, with_stream in H. destruct (f_stream f); [|discriminate]. eapply next_fl; eauto. Qed.
Lemma slot_fl : forall f s st g, write_slot f s = Ok (st, g) -> flags g = flags f /\ plain st.
Proof. intros f s st g H. unfold write_slot in H. crush; done_. Qed.
Lemma rel_write_fl : forall f st g, relative_write f = Ok (st, g) -> flags g = flags f /\ plain st.
Proof.
  intros f st g H. unfold relative_write, with_stream in H. destruct (f_stream f) as [s0|]; [|discriminate].
  apply bind_ok in H. destruct H as (p & P & H).
  destruct p as [e|s]; [crush; done_|].
  clear P. destruct (fread s SZ) as [h s1]. cbv zeta in H. destruct (_ && _); [crush; done_|].
  apply bind_ok in H. destruct H as ([st1 f1] & W & H). apply slot_fl in W. destruct W as [W1 W2].
  destruct (st1 =? 0); cbn [negb] in H; [|injection H as <- <-; auto].
  injection H as <- <-. split; [|pl]. rewrite <- W1. destruct (f_access f1), (f_key f1); reflexivity.
Qed.
Lemma rel_rewrite_fl : forall f st g, relative_rewrite f = Ok (st, g) -> flags g = flags f /\ plain st.
Proof. intros f st g H. unfold relative_rewrite in H. crush; try done_. Qed.
Lemma rel_delete_fl : forall f st g, relative_delete f = Ok (st, g) -> flags g = flags f /\ plain st.
Proof. intros f st g H. unfold relative_delete in H. crush; done_. Qed.

Lemma org_start_fl : forall f c st g, org_start f c = Ok (st, g) -> flags g = flags f /\ plain st.
Proof. intros f c st g H. unfold org_start in H. destruct (f_org f); [crush; done_|crush; done_|eapply rel_start_fl; eauto]. Qed.
Lemma org_read_fl : forall f st g, org_read f = Ok (st, g) -> flags g = flags f /\ plain st /\ st <> 10.
Proof.
  intros f st g H. unfold org_read in H. destruct (f_org f).
  1,2: injection H as <- <-; repeat split; [pl|lia].
  pose proof (rel_read_fl _ _ _ H) as [A B]. repeat split; auto. clear A B. unfold relative_read in H. crush; repeat match goal with |- context [if ?b then _ else _] => destruct b end; lia.
Qed.
Lemma org_next_fl : forall c f st g, org_read_next c f = Ok (st, g) -> flags g = flags f /\ plain st.
Proof. intros c f st g H. unfold org_read_next in H. destruct (f_org f); [eapply seq_read_fl|eapply line_read_fl|eapply rel_next_fl]; eauto. Qed.
Lemma org_write_fl : forall c f o st g, org_write c f o = Ok (st, g) -> flags g = flags f /\ plain st.
Proof. intros c f o st g H. unfold org_write in H. destruct (f_org f); [eapply seq_write_fl|eapply line_write_fl|eapply rel_write_fl]; eauto. Qed.
Lemma org_rewrite_fl : forall f st g, org_rewrite f = Ok (st, g) -> flags g = flags f /\ plain st.
Proof. intros f st g H. unfold org_rewrite in H. destruct (f_org f); [eapply seq_rewrite_fl; eauto|crush; done_|eapply rel_rewrite_fl; eauto]. Qed.
Lemma org_delete_fl : forall f st g, org_delete f = Ok (st, g) -> flags g = flags f /\ plain st.
Proof. intros f st g H. unfold org_delete in H. destruct (f_org f); [crush; done_|crush; done_|eapply rel_delete_fl; eauto]. Qed.

(** The invariant. *)
Record inv (h : history) (f : cfile) : Prop := {
  iv_open : f_open f = mode_of h;
  iv_done : f_read_done f = just_read h;
  iv_eof : mode_of h <> Closed -> f_eof f = at_end h;
  iv_end : f_eof f = true -> at_end h = true;
  iv_out : mode_of h = Output \/ mode_of h = Extend -> at_end h = false;
  iv_ne : f_nonexistent f = false }.

Lemma mode_snoc : forall h e, mode_of (h ++ [e]) = mode_after (mode_of h) e.
Proof. intros. unfold mode_of. rewrite fold_left_app. reflexivity. Qed.
Lemma read_snoc : forall h e, just_read (h ++ [e]) = read_after (just_read h) e.
Proof. intros. unfold just_read. rewrite fold_left_app. reflexivity. Qed.
Lemma end_snoc : forall h e, at_end (h ++ [e]) = end_after (at_end h) e.
Proof. intros. unfold at_end. rewrite fold_left_app. reflexivity. Qed.

Lemma plain_cases : forall s, plain s -> ~ In s refusals.
Proof. intros s P R. unfold plain in P. unfold refusals in R. cbn [In] in P, R. intuition lia. Qed.

Ltac fld := cbn [set_dep set_key set_data set_size set_open set_flags set_first set_done set_nl set_stream set_disk set_status
  f_org f_access f_optional f_min f_max f_dep f_key f_data f_size f_open f_nonexistent f_eof f_bof f_first f_read_done f_needs_nl f_stream f_disk f_status].
Ltac fldin H := cbn [set_dep set_key set_data set_size set_open set_flags set_first set_done set_nl set_stream set_disk set_status
  f_org f_access f_optional f_min f_max f_dep f_key f_data f_size f_open f_nonexistent f_eof f_bof f_first f_read_done f_needs_nl f_stream f_disk f_status] in H.

(** What one statement does to the flags. *)
Inductive effect (c : iocfg) (h : history) (f : cfile) : op -> cfile -> Prop :=
| ef_data : forall o g, is_stmt o = false -> flags g = flags f -> effect c h f o g
| ef_refused : forall o g s, is_stmt o = true -> prescribed (f_access f) h o = Some s -> f_status g = s -> same_file f g ->
    (f_open g, f_access g, f_nonexistent g, f_eof g) = (f_open f, f_access f, f_nonexistent f, f_eof f) -> f_read_done g = false -> effect c h f o g
| ef_open : forall md g, mode_of h = Closed -> (f_status g = 0 \/ f_status g = 5) -> f_open g = md -> f_access g = f_access f -> f_nonexistent g = false ->
    f_eof g = false -> f_read_done g = false -> effect c h f (OOpen md) g
| ef_noopen : forall md g, mode_of h = Closed -> f_status g = 35 -> f_open g = Closed -> f_access g = f_access f -> f_nonexistent g = false ->
    f_eof g = false -> f_read_done g = false -> effect c h f (OOpen md) g
| ef_missing : forall md g, mode_of h = Closed -> opened_missing c (OOpen md, f_status g) -> effect c h f (OOpen md) g
| ef_close : forall o g, (f_open g, f_access g, f_nonexistent g, f_eof g) = (mode_after (f_open f) (OClose o, f_status g), f_access f, f_nonexistent f, f_eof f) -> f_read_done g = false ->
    (prescribed (f_access f) h (OClose o) = None \/ departs h (OClose o)) -> (f_status g = 0 \/ f_status g = 7) -> effect c h f (OClose o) g
| ef_start : forall cd g, (prescribed (f_access f) h (OStart cd) = None /\ plain (f_status g) \/ departs h (OStart cd)) ->
    (f_open g, f_access g, f_nonexistent g, f_read_done g) = (f_open f, f_access f, f_nonexistent f, false) ->
    f_eof g = (if f_status g =? 0 then false else f_eof f) -> effect c h f (OStart cd) g
| ef_read : forall o g, o = ORead \/ o = OReadNext -> (prescribed (f_access f) h o = None /\ plain (f_status g) \/ departs h o) ->
    (f_open g, f_access g, f_nonexistent g, f_read_done g) = (f_open f, f_access f, f_nonexistent f, f_status g =? 0) ->
    f_eof g = (if f_status g =? 0 then false else if f_status g =? 10 then true else f_eof f) -> (f_status g = 10 -> o = OReadNext) -> effect c h f o g
| ef_other : forall o g, (match o with OWrite _ _ | ORewrite _ | ODelete => True | _ => False end) -> (prescribed (f_access f) h o = None /\ ~ In (f_status g) refusals \/ departs h o) ->
    (f_open g, f_access g, f_nonexistent g, f_eof g, f_read_done g) = (f_open f, f_access f, f_nonexistent f, f_eof f, false) -> effect c h f o g.

Lemma sf_ret : forall f s b, same_file f (set_status s (set_done b f)).
Proof. intros. constructor; reflexivity. Qed.

Lemma ret_inv : forall st f g, ret st f = Ok g -> g = set_status st f.
Proof. intros st f g H. injection H as <-. reflexivity. Qed.
Ltac rinv H := apply ret_inv in H; subst.
Ltac refuse s := apply (ef_refused _ _ _ _ _ s); [reflexivity| |reflexivity|constructor; reflexivity|reflexivity|reflexivity].

Lemma run_open : forall c h f md g, inv h f -> legal_op (OOpen md) -> ex_open c f md = Ok g -> effect c h f (OOpen md) g.
Proof.
  intros c h f md g IV LG H. unfold ex_open in H. fldin H. rewrite (iv_open _ _ IV) in H. destruct (mode_of h) eqn:M.
  2,3,4,5: rinv H; refuse 41; cbn [prescribed]; rewrite M; reflexivity.
  2: rinv H; refuse 38; cbn [prescribed]; rewrite M; reflexivity.
  pose proof (iv_open _ _ IV) as FO. rewrite M in FO.
  match type of H with (if ?b then _ else _) = _ => destruct b eqn:B end.
  { rinv H. apply ef_noopen; auto. }
  destruct (file_open c _ md) as [f1|] eqn:F.
  - rinv H. assert (E : exists s d, f1 = set_stream s (set_disk d (set_first 2 (set_flags false false false (set_done false f))))).
    { unfold file_open in F. fldin F. destruct md; destruct (f_disk f); try destruct (io_creates c); inversion F; subst; eauto. }
    destruct E as (s & d & ->). apply ef_open; auto. fld. destruct (f_optional f && _); auto.
  - destruct (f_optional f) eqn:OP.
    + rinv H. apply ef_missing; [exact M|]. split; [reflexivity|]. unfold file_open in F. fldin F. cbn [fst]. cbn [legal_op] in LG. destruct md; try contradiction; destruct (f_disk f); try destruct (io_creates c); try discriminate; auto.
    + rinv H. apply ef_noopen; auto.
Qed.

Lemma close_fl : forall f o st g, file_close f o = Ok (st, g) -> (st = 0 \/ st = 7) /\
  (f_access g, f_nonexistent g, f_eof g, f_read_done g) = (f_access f, f_nonexistent f, f_eof f, f_read_done f) /\
  f_open g = (match o with CloseNoRewind => Closed | _ => f_open f end) /\ (st = 0 <-> o = CloseNormal \/ o = CloseLock).
Proof.
  intros f o st g H. unfold file_close, with_stream in H. destruct (f_stream f); [|discriminate].
  destruct o; [| | |injection H as <- <-; repeat split; auto; try lia; intuition discriminate].
  all: destruct (f_org f); try destruct (f_needs_nl f); injection H as <- <-; repeat split; auto; try lia; intuition discriminate.
Qed.

Lemma run_close : forall c h f o g, inv h f -> ex_close f o = Ok g -> effect c h f (OClose o) g.
Proof.
  intros c h f o g IV H. unfold ex_close in H. fldin H. rewrite (iv_open _ _ IV) in H.
  destruct (mode_of h) eqn:M; [rinv H; refuse 42; cbn [prescribed]; rewrite M; reflexivity| | | | |].
  all: rewrite (iv_ne _ _ IV) in H; apply bind_ok in H; destruct H as ([st f1] & C & H); apply close_fl in C; fldin C; destruct C as (C1 & C2 & C3 & C4); rinv H;
    injection C2 as A1 A2 A3 A4.
  all: apply ef_close.
  all: try (fld; exact C1).
  all: try (destruct (st =? 0); exact A4).
  all: try (left; cbn [prescribed]; rewrite M; reflexivity).
  all: try (right; left; split; auto; fail).
  all: try (cbn [mode_after]; fld; destruct o; destruct C1 as [-> | ->]; try (exfalso; intuition (discriminate || lia)); cbn [Z.eqb]; fld; rewrite ?A1, ?A2, ?A3, ?C3; reflexivity).
Qed.

Lemma run_start : forall c h f cd g, inv h f -> ex_start f cd = Ok g -> effect c h f (OStart cd) g.
Proof.
  intros c h f cd g IV H. unfold ex_start in H. fldin H. rewrite (iv_ne _ _ IV), (iv_open _ _ IV) in H.
  destruct (_ || _) eqn:B.
  { rinv H. refuse 47. cbn [prescribed]. destruct (mode_of h), (f_access f); try discriminate; reflexivity. }
  apply bind_ok in H. destruct H as ([st f1] & C & H). apply org_start_fl in C. destruct C as [C P]. injection C as C1 C2 C3 C4 C5. rinv H. fldin C5.
  apply ef_start.
  - destruct (mode_of h) eqn:M; try discriminate.
    1,2: left; split; [cbn [prescribed]; rewrite M; destruct (f_access f); try discriminate; reflexivity|fld; exact P].
    right. left. auto.
  - fld. destruct (st =? 0); fld; rewrite C1, C2, C3, C5; reflexivity.
  - fld. destruct (st =? 0); fld; [reflexivity|exact C4].
Qed.

Lemma read_tail : forall c h f (kd : bool) st f1 g, (prescribed (f_access f) h (if kd then ORead else OReadNext) = None) \/ departs h (if kd then ORead else OReadNext) ->
  f_open f1 = f_open f -> f_access f1 = f_access f -> f_nonexistent f1 = f_nonexistent f -> f_eof f1 = f_eof f -> f_read_done f1 = false ->
  plain st -> (st = 10 -> kd = false) ->
  (if st =? 0 then
        let f := set_flags (f_nonexistent f1) false false (set_done true (set_first 0 f1)) in
        ret 0 (match f_dep f, f_org f with
               | None, _ => f
               | Some _, OrgLineSequential => f
               | Some d, _ => set_dep (Some (item_set d (Z.of_nat (f_size f)))) f
               end)
      else if st =? 10 then ret 10 (set_flags (f_nonexistent f1) true (f_bof f1) f1)
      else ret st f1) = Ok g ->
  effect c h f (if kd then ORead else OReadNext) g.
Proof.
  intros c h f kd st f1 g NP C1 C2 C3 C4 C5 P T H.
  assert (OR : (if kd then ORead else OReadNext) = ORead \/ (if kd then ORead else OReadNext) = OReadNext) by (destruct kd; auto).
  assert (NP' : forall s, plain s -> prescribed (f_access f) h (if kd then ORead else OReadNext) = None /\ plain s \/ departs h (if kd then ORead else OReadNext)) by tauto.
  destruct (Z.eqb_spec st 0) as [-> |NZ].
  { assert (E : exists d : option item, g = set_status 0 (set_dep d (set_flags (f_nonexistent f1) false false (set_done true (set_first 0 f1))))).
    { rinv H. fld. destruct (f_dep f1) as [d|] eqn:D; [|exists None; unfold set_dep; fld; rewrite <- D; destruct f1; reflexivity].
      destruct (f_org f1) eqn:O; [eexists; reflexivity|exists (Some d); unfold set_dep; fld; rewrite <- D; destruct f1; reflexivity|eexists; reflexivity]. }
    destruct E as (d & ->). apply ef_read; [exact OR|apply NP'; exact P|fld; cbn [Z.eqb]; congruence|reflexivity|fld; discriminate]. }
  destruct (Z.eqb_spec st 10) as [-> |NT].
  { rinv H. apply ef_read; [exact OR|apply NP'; exact P|fld; cbn [Z.eqb]; congruence|reflexivity|]. fld. intros _. rewrite T by reflexivity. reflexivity. }
  rinv H. apply ef_read; [exact OR|apply NP'; exact P|fld|fld|].
  - rewrite (proj2 (Z.eqb_neq st 0)) by assumption. congruence.
  - rewrite (proj2 (Z.eqb_neq st 0)), (proj2 (Z.eqb_neq st 10)) by assumption. exact C4.
  - fld. intros ->. contradiction.
Qed.

Lemma run_read : forall c h f kd g, inv h f -> ex_read c f kd = Ok g -> effect c h f (if kd then ORead else OReadNext) g.
Proof.
  intros c h f kd g IV H. unfold ex_read in H. fldin H. rewrite (iv_ne _ _ IV) in H.
  destruct (negb kd && f_eof f) eqn:B.
  { apply andb_true_iff in B. destruct B as [B1 B2]. apply negb_true_iff in B1. subst kd. rinv H.
    pose proof (iv_end _ _ IV B2) as AE. destruct (mode_of h) eqn:M.
    - apply ef_read; [auto|right; right; auto|reflexivity|reflexivity|fld; discriminate].
    - refuse 46. cbn [prescribed]. rewrite M, AE. reflexivity.
    - exfalso. pose proof (iv_out _ _ IV (or_introl M)). congruence.
    - refuse 46. cbn [prescribed]. rewrite M, AE. reflexivity.
    - exfalso. pose proof (iv_out _ _ IV (or_intror M)). congruence.
    - apply ef_read; [auto|right; left; auto|reflexivity|reflexivity|fld; discriminate]. }
  rewrite (iv_open _ _ IV) in H.
  destruct (mode_of h) eqn:M.
  1,3,5: rinv H; destruct kd; refuse 47; cbn [prescribed]; rewrite M; reflexivity.
  all: apply bind_ok in H; destruct H as ([st f1] & C & H).
  all: assert (FL : flags f1 = flags (set_done false f) /\ plain st /\ (st = 10 -> kd = false))
    by (destruct kd; [apply org_read_fl in C; destruct C as (X & Y & Z); auto; split; [auto|split; [auto|contradiction]]|apply org_next_fl in C; destruct C; auto]).
  all: destruct FL as (C1 & P & T); injection C1 as C1 C2 C3 C4 C5; fldin C5.
  all: assert (NP : (prescribed (f_access f) h (if kd then ORead else OReadNext) = None) \/ departs h (if kd then ORead else OReadNext)).
  1,3: left; destruct kd; cbn [prescribed]; rewrite M; auto; cbn [negb andb] in B; rewrite (iv_eof _ _ IV) in B by congruence; rewrite B; reflexivity.
  3:{ right. left. split; auto. destruct kd; auto. }
  all: eapply read_tail; eauto; congruence.
Qed.

Lemma run_write : forall c h f n o g, inv h f -> ex_write c f n o = Ok g -> effect c h f (OWrite n o) g.
Proof.
  intros c h f n o g IV H. unfold ex_write in H. fldin H. rewrite (iv_open _ _ IV) in H.
  match type of H with (if ?b then _ else _) = _ => destruct b eqn:B end.
  { rinv H. refuse 48. cbn [prescribed]. destruct (f_access f), (mode_of h); try discriminate; reflexivity. }
  assert (NP : prescribed (f_access f) h (OWrite n o) = None \/ departs h (OWrite n o)).
  { destruct (mode_of h) eqn:M; [left|left|left|left|left|right; left; auto]; cbn [prescribed]; rewrite M; destruct (f_access f); try discriminate; reflexivity. }
  match type of H with (if ?b then _ else _) = _ => destruct b eqn:B2 end.
  { rinv H. apply ef_other; [exact I| |reflexivity]. destruct NP; [left; split; auto|auto]. fld. unfold refusals. cbn [In]. intuition lia. }
  apply bind_ok in H. destruct H as ([st f1] & C & H). apply org_write_fl in C. destruct C as [C P]. injection C as C1 C2 C3 C4 C5. fldin C5. rinv H.
  apply ef_other; [exact I| |fld; congruence]. destruct NP; [left; split; auto|auto]. fld. apply plain_cases; auto.
Qed.

Lemma run_rewrite : forall c h f n g, inv h f -> ex_rewrite f n = Ok g -> effect c h f (ORewrite n) g.
Proof.
  intros c h f n g IV H. unfold ex_rewrite in H. fldin H. rewrite (iv_open _ _ IV), (iv_done _ _ IV) in H.
  destruct (mode_of h) eqn:M.
  1,2,3,5,6: rinv H; refuse 49; cbn [prescribed]; rewrite M; reflexivity.
  destruct (match f_access f with AccSequential => negb (just_read h) | _ => false end) eqn:B.
  { rinv H. refuse 43. cbn [prescribed]. rewrite M. destruct (f_access f); try discriminate. apply negb_true_iff in B. rewrite B. reflexivity. }
  assert (NP : prescribed (f_access f) h (ORewrite n) = None).
  { cbn [prescribed]. rewrite M. destruct (f_access f); auto. apply negb_false_iff in B. rewrite B. reflexivity. }
  match type of H with (if ?b then _ else _) = _ => destruct b eqn:B2 end.
  { rinv H. apply ef_other; [exact I| |reflexivity]. left. split; auto. fld. unfold refusals. cbn [In]. intuition lia. }
  apply bind_ok in H. destruct H as ([st f1] & C & H). apply org_rewrite_fl in C. destruct C as [C P]. injection C as C1 C2 C3 C4 C5. fldin C5. rinv H.
  apply ef_other; [exact I| |fld; congruence]. left. split; auto. fld. apply plain_cases; auto.
Qed.

Lemma run_delete : forall c h f g, inv h f -> ex_delete f = Ok g -> effect c h f ODelete g.
Proof.
  intros c h f g IV H. unfold ex_delete in H. fldin H. rewrite (iv_open _ _ IV), (iv_done _ _ IV) in H.
  destruct (mode_of h) eqn:M.
  1,2,3,5,6: rinv H; refuse 49; cbn [prescribed]; rewrite M; reflexivity.
  destruct (match f_access f with AccSequential => negb (just_read h) | _ => false end) eqn:B.
  { rinv H. refuse 43. cbn [prescribed]. rewrite M. destruct (f_access f); try discriminate. apply negb_true_iff in B. rewrite B. reflexivity. }
  assert (NP : prescribed (f_access f) h ODelete = None).
  { cbn [prescribed]. rewrite M. destruct (f_access f); auto. apply negb_false_iff in B. rewrite B. reflexivity. }
  apply bind_ok in H. destruct H as ([st f1] & C & H). apply org_delete_fl in C. destruct C as [C P]. injection C as C1 C2 C3 C4 C5. fldin C5. rinv H.
  apply ef_other; [exact I| |fld; congruence]. left. split; auto. fld. apply plain_cases; auto.
Qed.

Lemma run_effect : forall c h f o g, inv h f -> legal_op o -> run_op c f o = Ok g -> effect c h f o g.
Proof.
  intros c h f o g IV LG H. destruct o; cbn [run_op] in H.
  - eapply run_open; eauto.
  - eapply run_close; eauto.
  - eapply run_start; eauto.
  - eapply (run_read c h f true); eauto.
  - eapply (run_read c h f false); eauto.
  - eapply run_write; eauto.
  - eapply run_rewrite; eauto.
  - eapply run_delete; eauto.
  - injection H as <-. apply ef_data; reflexivity.
  - injection H as <-. apply ef_data; [reflexivity|]. destruct (f_key f); reflexivity.
  - injection H as <-. apply ef_data; [reflexivity|]. destruct (f_dep f); reflexivity.
Qed.

Lemma step_inv : forall c h f o g, inv h f -> legal_op o -> run_op c f o = Ok g -> ~ opened_missing c (o, f_status g) -> inv (h ++ [(o, f_status g)]) g.
Proof.
  intros c h f o g IV LG H NM. pose proof (run_effect c h f o g IV LG H) as EF.
  destruct IV as [I1 I2 I3 I4 I5 I6].
  inversion EF as [o' g' S FL|o' g' s S PR ST SF FL RD|md g' M ST FO FA FN FE FD|md g' M ST FO FA FN FE FD|md g' M OM|o' g' FL RD PR ST|cd g' PR FL FE|o' g' OR PR FL FE T|o' g' SH PR FL]; subst o' g' || subst g'; subst o || idtac; clear EF.
  - injection FL as A1 A2 A3 A4 A5.
    destruct o; try discriminate; constructor; rewrite ?mode_snoc, ?read_snoc, ?end_snoc; cbn [mode_after read_after end_after is_stmt]; try congruence; auto; rewrite A4; auto.
  - injection FL as A1 A2 A3 A4.
    destruct o as [md|cl|cd| | |n w|n| | | |]; try discriminate S; cbn [prescribed] in PR.
    all: constructor; rewrite ?mode_snoc, ?read_snoc, ?end_snoc; rewrite ?ST, ?A1, ?A3, ?A4; auto.
    all: try (rewrite RD); cbn [mode_after read_after end_after is_stmt].
    all: destruct (mode_of h) eqn:M; try discriminate PR; try destruct (f_access f); try discriminate PR; try destruct cl; try destruct (at_end h); try destruct (just_read h); try discriminate PR; try (injection PR as <-).
    all: cbn [Z.eqb orb Pos.eqb]; auto; try congruence; try tauto.
  - constructor; rewrite ?mode_snoc, ?read_snoc, ?end_snoc; cbn [mode_after read_after end_after is_stmt]; destruct ST as [ST|ST]; rewrite ?ST; cbn [Z.eqb orb Pos.eqb]; auto; congruence.
  - constructor; rewrite ?mode_snoc, ?read_snoc, ?end_snoc; cbn [mode_after read_after end_after is_stmt]; rewrite ?ST; cbn [Z.eqb orb Pos.eqb]; try congruence.
    rewrite M. intros [X|X]; discriminate.
  - contradiction.
  - injection FL as A1 A2 A3 A4.
    assert (EN : at_end (h ++ [(OClose o', f_status g)]) = at_end h) by (rewrite end_snoc; reflexivity).
    assert (MD : mode_of (h ++ [(OClose o', f_status g)]) <> Closed -> mode_of (h ++ [(OClose o', f_status g)]) = Locked \/ mode_of (h ++ [(OClose o', f_status g)]) = mode_of h).
    { rewrite mode_snoc. cbn [mode_after]. destruct o', ST as [-> | ->]; cbn [Z.eqb Pos.eqb]; auto; congruence. }
    assert (MC : mode_of h = Closed -> False).
    { intros X. destruct PR as [PR|[[D _]|(D & _ & X2)]]; [cbn [prescribed] in PR; rewrite X in PR; discriminate|congruence|discriminate]. }
    constructor; rewrite ?EN; auto.
    + rewrite mode_snoc, <- I1. exact A1.
    + rewrite read_snoc. exact RD.
    + intros X. rewrite A4. apply I3. auto.
    + rewrite A4. exact I4.
    + intros X. apply I5. destruct (MD ltac:(destruct X; congruence)) as [Y|Y]; rewrite Y in X; [destruct X; discriminate|exact X].
    + congruence.
  - injection FL as A1 A2 A3 A4.
    constructor; rewrite ?mode_snoc, ?read_snoc, ?end_snoc; cbn [mode_after read_after end_after is_stmt]; rewrite ?FE; try congruence; destruct (f_status g =? 0); auto; discriminate.
  - injection FL as A1 A2 A3 A4.
    destruct OR as [-> | ->].
    + assert (N10 : f_status g <> 10) by (intros X; specialize (T X); discriminate).
      constructor; rewrite ?mode_snoc, ?read_snoc, ?end_snoc; cbn [mode_after read_after end_after is_stmt]; rewrite ?FE; try congruence; destruct (f_status g =? 0); auto; try discriminate; rewrite (proj2 (Z.eqb_neq _ 10)) by exact N10; auto.
    + constructor; rewrite ?mode_snoc, ?read_snoc, ?end_snoc; cbn [mode_after read_after end_after is_stmt]; rewrite ?FE; try congruence; destruct (f_status g =? 0); auto; try discriminate; destruct (f_status g =? 10); auto.
      intros X. exfalso. destruct PR as [[PR _]|[[D _]|(D & _)]]; [cbn [prescribed] in PR; destruct X as [X|X]; rewrite X in PR; discriminate|destruct X; congruence|destruct X; congruence].
  - injection FL as A1 A2 A3 A4 A5.
    destruct o; try contradiction; constructor; rewrite ?mode_snoc, ?read_snoc, ?end_snoc; cbn [mode_after read_after end_after is_stmt]; try congruence; auto; rewrite A4; auto.
Qed.

Lemma refuse_runs : forall c h f o s, inv h f -> prescribed (f_access f) h o = Some s -> ~ departs h o -> exists g, run_op c f o = Ok g.
Proof.
  intros c h f o s IV P ND. destruct IV as [I1 I2 I3 I4 I5 I6].
  assert (LK : mode_of h = Locked -> match o with OOpen _ | ORewrite _ | ODelete => True | _ => False end).
  { intros M. destruct o; auto; apply ND; left; auto. }
  destruct o as [md|cl|cd| | |n w|n| | | |]; cbn [prescribed] in P; try discriminate P; cbn [run_op];
    [unfold ex_open|unfold ex_close|unfold ex_start|unfold ex_read|unfold ex_read|unfold ex_write|unfold ex_rewrite|unfold ex_delete]; fld; rewrite I1, ?I2, ?I6.
  - destruct (mode_of h) eqn:M; try discriminate P; eexists; reflexivity.
  - destruct (mode_of h) eqn:M; try discriminate P; try (exfalso; exact (LK eq_refl)); eexists; reflexivity.
  - destruct (mode_of h) eqn:M, (f_access f); try discriminate P; try (exfalso; exact (LK eq_refl)); eexists; reflexivity.
  - cbn [negb andb]. destruct (mode_of h) eqn:M; try discriminate P; try (exfalso; exact (LK eq_refl)); eexists; reflexivity.
  - cbn [negb andb]. destruct (f_eof f) eqn:E; [eexists; reflexivity|].
    destruct (mode_of h) eqn:M; try (exfalso; exact (LK eq_refl)); try (eexists; reflexivity).
    + rewrite <- I3 in P by congruence. discriminate.
    + rewrite <- I3 in P by congruence. discriminate.
  - destruct (f_access f), (mode_of h) eqn:M; try discriminate P; try (exfalso; exact (LK eq_refl)); eexists; reflexivity.
  - destruct (mode_of h) eqn:M; try (eexists; reflexivity). destruct (f_access f); try discriminate P. destruct (just_read h); [discriminate|]. eexists; reflexivity.
  - destruct (mode_of h) eqn:M; try (eexists; reflexivity). destruct (f_access f); try discriminate P. destruct (just_read h); [discriminate|]. eexists; reflexivity.
Qed.

Lemma effect_refused : forall c h f o g s, effect c h f o g -> prescribed (f_access f) h o = Some s -> ~ departs h o -> f_status g = s /\ same_file f g.
Proof.
  intros c h f o g s EF P ND.
  inversion EF as [o' g' S FL|o' g' s' S PR ST SF FL RD|md g' M ST FO FA FN FE FD|md g' M ST FO FA FN FE FD|md g' M OM|o' g' FL RD PR ST|cd g' PR FL FE|o' g' OR PR FL FE T|o' g' SH PR FL]; subst o' g' || subst g'; subst o || idtac; clear EF.
  - destruct o; discriminate.
  - split; auto. congruence.
  - cbn [prescribed] in P. rewrite M in P. discriminate.
  - cbn [prescribed] in P. rewrite M in P. discriminate.
  - cbn [prescribed] in P. rewrite M in P. discriminate.
  - destruct PR as [PR|PR]; [congruence|contradiction].
  - destruct PR as [[PR _]|PR]; [congruence|contradiction].
  - destruct PR as [[PR _]|PR]; [congruence|contradiction].
  - destruct PR as [[PR _]|PR]; [congruence|contradiction].
Qed.

Lemma effect_only : forall c h f o g, effect c h f o g -> is_stmt o = true -> ~ departs h o -> ~ opened_missing c (o, f_status g) -> In (f_status g) refusals -> prescribed (f_access f) h o = Some (f_status g).
Proof.
  intros c h f o g EF ST0 ND NM RF.
  inversion EF as [o' g' S FL|o' g' s' S PR ST SF FL RD|md g' M ST FO FA FN FE FD|md g' M ST FO FA FN FE FD|md g' M OM|o' g' FL RD PR ST|cd g' PR FL FE|o' g' OR PR FL FE T|o' g' SH PR FL]; subst o' g' || subst g'; subst o || idtac; clear EF.
  - congruence.
  - congruence.
  - exfalso. unfold refusals in RF. cbn [In] in RF. intuition lia.
  - exfalso. unfold refusals in RF. cbn [In] in RF. intuition lia.
  - contradiction.
  - exfalso. unfold refusals in RF. cbn [In] in RF. intuition lia.
  - destruct PR as [[_ PR]|PR]; [|contradiction]. exfalso. exact (plain_cases _ PR RF).
  - destruct PR as [[_ PR]|PR]; [|contradiction]. exfalso. exact (plain_cases _ PR RF).
  - destruct PR as [[_ PR]|PR]; contradiction.
Qed.

Lemma start_inv : forall f, untouched f -> inv [] f.
Proof. intros f [U1 U2 U3 U4]. constructor; auto; cbn; try congruence. Qed.

Lemma run_ops_inv : forall c ops h f g, inv h f -> Forall legal_op ops -> run_ops c f ops = Ok g -> Forall (fun e => ~ opened_missing c e) (observed c f ops) ->
  inv (h ++ observed c f ops) g /\ f_access g = f_access f.
Proof.
  intros c. induction ops as [|o ops IH]; intros h f g IV LG H NM.
  - injection H as <-. cbn [observed]. rewrite app_nil_r. auto.
  - cbn [run_ops] in H. apply bind_ok in H. destruct H as (f1 & E & H). cbn [observed] in *. rewrite E in NM |- *.
    inversion LG as [|? ? LG1 LG2]; inversion NM as [|? ? NM1 NM2]; subst.
    pose proof (step_inv c h f o f1 IV LG1 E NM1) as IV1.
    destruct (IH _ _ _ IV1 LG2 H NM2) as [IV2 A]. rewrite <- app_assoc in IV2. cbn [app] in IV2. split; auto. rewrite A.
    pose proof (run_effect c h f o f1 IV LG1 E) as EF.
    inversion EF as [o' g' S FL|o' g' s' S PR ST SF FL RD|md g' M ST FO FA FN FE FD|md g' M ST FO FA FN FE FD|md g' M OM|o' g' FL RD PR ST|cd g' PR FL FE|o' g' OR PR FL FE T|o' g' SH PR FL]; subst; try (injection FL; intros; congruence); try congruence; try contradiction.
Qed.
