(** C71: CALL, CANCEL, CANCEL ALL and EXIT PROGRAM. *)
From Verif Require Import Base Call SpecCall CallThm CallThm2 CallThm3 CallThm4.
Local Open Scope Z_scope.

(** For every set of programs and every history of statements, the run unit
    does what SpecCall says: the same program runs, the same CALLs take ON
    EXCEPTION, and each program that is entered finds its WORKING-STORAGE in
    the initial state exactly if it is entered for the first time, has been
    cancelled since it was entered last, or is INITIAL; else as it left it.
    How the programs are called (literal, identifier, library routines in
    between, names that collide in the hash table) makes no difference. *)
Theorem C71_call_cancel : forall sys env m h s0 s,
  good_env sys env -> (m < length env)%nat -> Forall (good_ev sys) h ->
  ~ In ECancelAll h \/
  (narrow (a_hist (a_steps sys env h (a_start env m))) /\
   forall p, (p < length env)%nat -> word (g_id (gprog env p))) ->
  start sys env m = Ok s0 -> run sys env h s0 = Ok s ->
  let a := a_steps sys env h (a_start env m) in
  s_run s = a_run a /\ s_exc s = a_exc a /\
  forall p, (p < length env)%nat -> p_ws (gpst s p) = a_ws a p.
Proof.
  intros sys env m h s0 s G Hm K A E0 E. cbv zeta.
  pose proof (whole_run sys env G m h s0 s Hm K A E0 E) as H.
  split; [apply (R_run _ _ _ _ H)|]. split; [apply (R_exc _ _ _ _ H)|].
  intros p Hp. apply (R_p _ _ _ _ H p Hp).
Qed.
Print Assumptions C71_call_cancel.

(** If no active program is called or cancelled, there is no undefined
    behaviour, the files of each program are open as they should be (CANCEL
    closes them), and the current module is always that of the running
    program. *)
Theorem C71_calm_run : forall sys env m h,
  good_env sys env -> (m < length env)%nat -> Forall (good_ev sys) h ->
  ~ In ECancelAll h \/
  (narrow (a_hist (a_steps sys env h (a_start env m))) /\
   forall p, (p < length env)%nat -> word (g_id (gprog env p))) ->
  calm_run sys env h (a_start env m) ->
  exists s0 s, start sys env m = Ok s0 /\ run sys env h s0 = Ok s /\
    s_mod s = hd_error (s_run s) /\
    forall p, (p < length env)%nat ->
      p_open (gpst s p) = a_open (a_steps sys env h (a_start env m)) p.
Proof.
  intros sys env m h G Hm K A C.
  destruct (start_RT sys env G m Hm) as (s0 & E0 & R0 & T0).
  pose proof (start_B sys env G m s0 Hm E0) as B0.
  assert (X : exists s, run sys env h s0 = Ok s /\ B env s (a_steps sys env h (a_start env m))).
  { destruct A as [A|[A1 A2]].
    - apply (run_B sys env G False h s0 (a_start env m)); auto; try tauto.
      destruct T0 as (lab & X1 & X2 & _). exists lab. split; [auto|]. split; [auto|intros []].
    - apply (run_B sys env G True h s0 (a_start env m)); auto. }
  destruct X as (s & E & Bs). exists s0, s. split; [auto|]. split; [auto|].
  pose proof (whole_run sys env G m h s0 s Hm K A E0 E) as H.
  rewrite (R_run _ _ _ _ H). split; [apply (B_mod _ _ _ Bs)|]. apply (B_open _ _ _ Bs).
Qed.
Print Assumptions C71_calm_run.

(** The statement does not call program [p]. *)
Definition no_call (env : list prog) (p : nat) (e : ev) : Prop :=
  match e with
  | ECallLit n => n <> g_id (gprog env p)
  | ECallId f => field_name f <> g_id (gprog env p)
  | _ => True
  end.
(** Nor does it cancel it. *)
Definition no_cancel (env : list prog) (p : nat) (e : ev) : Prop :=
  match e with
  | ECancel f => field_name f <> g_id (gprog env p)
  | ECancelAll => False
  | _ => True
  end.

Lemma a_call_other : forall sys env n p a, n <> g_id (gprog env p) ->
  a_used (a_call sys env n a) p = a_used a p /\ a_ws (a_call sys env n a) p = a_ws a p /\
  (~ In p (a_run a) -> ~ In p (a_run (a_call sys env n a))).
Proof.
  intros sys env n p a H. unfold a_call. destruct (in_names n sys); [auto|].
  destruct (callee env n) as [q|] eqn:E; [|auto].
  apply callee_some in E. destruct E as [_ E].
  assert (X : p <> q) by (intros ->; auto).
  unfold a_enter; cbn [a_used a_ws a_run]. unfold fupd. apply Nat.eqb_neq in X. rewrite X.
  split; [reflexivity|]. split; [reflexivity|]. apply Nat.eqb_neq in X.
  intros Y [Z|Z]; auto.
Qed.

Lemma used_stays_false : forall sys env p h a, Forall (no_call env p) h ->
  a_used a p = false -> a_used (a_steps sys env h a) p = false.
Proof.
  intros sys env p. unfold a_steps. induction h as [|e h IH]; intros a F U; cbn [fold_left]; auto.
  inversion F as [|? ? Fe Fh]; subst. apply IH; auto. unfold a_step. destruct (a_run a) as [|q r]; auto.
  destruct e; cbn [no_call] in Fe; cbn [a_used]; auto.
  - rewrite (proj1 (a_call_other sys env n p a Fe)); auto.
  - rewrite (proj1 (a_call_other sys env _ p a Fe)); auto.
  - unfold a_cancel; cbn [a_used]. destruct (_ && _); auto.
  - unfold a_cancel; cbn [a_used]. destruct (_ && _); auto.
Qed.

Lemma kept : forall sys env p h a, Forall (no_call env p) h -> Forall (no_cancel env p) h ->
  ~ In p (a_run a) ->
  let a' := a_steps sys env h a in
  a_used a' p = a_used a p /\ a_ws a' p = a_ws a p /\ ~ In p (a_run a').
Proof.
  intros sys env p. unfold a_steps. induction h as [|e h IH]; intros a F C U; cbn [fold_left]; auto.
  inversion F as [|? ? Fe Fh]; inversion C as [|? ? Ce Ch]; subst.
  destruct (IH (a_step sys env e a) Fh Ch) as (A & B & D).
  - unfold a_step. destruct (a_run a) as [|q r] eqn:Er; [rewrite Er; auto|].
    destruct e; cbn [no_call] in Fe; unfold a_cancel; cbn [a_run]; auto; try (rewrite Er; exact U).
    + apply (a_call_other sys env n p a Fe). rewrite Er; exact U.
    + apply (a_call_other sys env _ p a Fe). rewrite Er; exact U.
    + intros X; apply U; right; exact X.
  - cbv zeta in *. rewrite A, B. split; [|split; [|exact D]]; clear IH A B D.
    + unfold a_step. destruct (a_run a) as [|q r] eqn:Er; auto.
      destruct e; cbn [no_call no_cancel] in Fe, Ce; cbn [a_used]; auto.
      * apply (a_call_other sys env n p a Fe).
      * apply (a_call_other sys env _ p a Fe).
      * unfold a_cancel; cbn [a_used].
        replace (beq (g_id (gprog env p)) (field_name f)) with false; [reflexivity|].
        symmetry; apply beq_neq; auto.
      * destruct Ce.
    + unfold a_step. destruct (a_run a) as [|q r] eqn:Er; auto.
      assert (Q : Nat.eqb p q = false).
      { apply Nat.eqb_neq. intros ->. apply U. left; reflexivity. }
      destruct e; cbn [no_call no_cancel] in Fe, Ce; cbn [a_ws]; auto.
      * apply (a_call_other sys env n p a Fe).
      * apply (a_call_other sys env _ p a Fe).
      * unfold fupd. rewrite Q. reflexivity.
Qed.

Lemma a_steps_app : forall sys env h1 h2 a,
  a_steps sys env (h1 ++ h2) a = a_steps sys env h2 (a_steps sys env h1 a).
Proof. intros. unfold a_steps. apply fold_left_app. Qed.

Lemma run_app : forall sys env h1 h2 s s2, run sys env (h1 ++ h2) s = Ok s2 ->
  exists s1, run sys env h1 s = Ok s1 /\ run sys env h2 s1 = Ok s2.
Proof.
  induction h1 as [|e h1 IH]; intros h2 s s2 E; cbn [app run] in *; [eauto|].
  destruct (step sys env e s) as [s'| |]; try discriminate. cbn [obind] in *. eauto.
Qed.

(** A CANCEL of a program by its PROGRAM-ID, at any time: its next CALL finds
    the initial values, whatever happens in between. *)
Theorem C71_cancel_resets : forall sys env m h1 f h2 p s0 s1 s2 s,
  good_env sys env -> (m < length env)%nat -> (p < length env)%nat ->
  Forall (good_ev sys) h1 -> Forall (good_ev sys) h2 ->
  ~ In ECancelAll h1 -> ~ In ECancelAll h2 ->
  field_name f = g_id (gprog env p) -> g_main (gprog env p) = false ->
  Forall (no_call env p) h2 ->
  start sys env m = Ok s0 -> run sys env h1 s0 = Ok s1 -> s_run s1 <> [] ->
  run sys env (ECancel f :: h2) s1 = Ok s2 -> s_run s2 <> [] ->
  step sys env (ECallLit (g_id (gprog env p))) s2 = Ok s ->
  s_run s = p :: s_run s2 /\ p_ws (gpst s p) = g_ws0 (gprog env p).
Proof.
  intros sys env m h1 f h2 p s0 s1 s2 s G Hm Hp K1 K2 N1 N2 Ef Mn Nc E0 E1 Q1 E2 Q2 E3.
  set (a1 := a_steps sys env h1 (a_start env m)).
  assert (R1 : R sys env s1 a1).
  { apply (whole_run sys env G m h1 s0 s1); auto. left; auto. }
  set (a2 := a_steps sys env (ECancel f :: h2) a1).
  assert (E12 : run sys env (h1 ++ ECancel f :: h2) s0 = Ok s2).
  { clear - E1 E2. revert s0 E1. induction h1 as [|e h IH]; intros s0 E1; cbn [app run] in *.
    - inversion E1; subst; auto.
    - destruct (step sys env e s0) as [s'| |]; try discriminate. cbn [obind] in *. auto. }
  assert (R2 : R sys env s2 a2).
  { unfold a2, a1. rewrite <- a_steps_app.
    apply (whole_run sys env G m _ s0 s2); auto.
    - apply Forall_app; split; auto. constructor; auto. exact I.
    - left. rewrite in_app_iff. intros [X|[X|X]]; auto. discriminate. }
  assert (Gp : good_ev sys (ECallLit (g_id (gprog env p)))).
  { right. apply (id_good sys env G p Hp). }
  destruct (step_R sys env G s2 a2 _ s R2 Gp E3) as [R3 _].
  specialize (R3 ltac:(discriminate)).
  assert (U : a_used a2 p = false).
  { unfold a2, a_steps. cbn [fold_left]. apply used_stays_false; auto.
    unfold a_step. rewrite <- (R_run sys env s1 a1 R1).
    destruct (s_run s1) as [|q r]; [congruence|]. unfold a_cancel; cbn [a_used].
    rewrite Ef, beq_refl, Mn. reflexivity. }
  unfold a_step in R3. rewrite <- (R_run sys env s2 a2 R2) in R3.
  destruct (s_run s2) as [|q r] eqn:Er; [congruence|].
  unfold a_call in R3.
  destruct (in_names (g_id (gprog env p)) sys) eqn:Ei.
  { apply in_names_In in Ei. exfalso. apply (id_sys sys env G p Hp Ei). }
  assert (Ec := callee_id sys env G p Hp). cbv beta in Ec. rewrite Ec in R3.
  rewrite (R_run _ _ _ _ R3). rewrite (proj2 (R_p _ _ _ _ R3 p Hp)).
  unfold a_enter; cbn [a_run a_ws]. unfold fupd. rewrite Nat.eqb_refl, U. cbn [andb].
  rewrite <- (R_run sys env s2 a2 R2), Er. auto.
Qed.
Print Assumptions C71_cancel_resets.

(** A program that has been left keeps its WORKING-STORAGE over everything
    other programs do, and over CANCEL of other programs, and finds it at its
    next CALL. *)
Theorem C71_storage_kept : forall sys env m h1 h2 p s0 s1 s2 s,
  good_env sys env -> (m < length env)%nat -> (p < length env)%nat ->
  Forall (good_ev sys) h1 -> Forall (good_ev sys) h2 ->
  ~ In ECancelAll h1 ->
  Forall (no_call env p) h2 -> Forall (no_cancel env p) h2 ->
  g_initial (gprog env p) = false ->
  start sys env m = Ok s0 ->
  run sys env (h1 ++ [EExit]) s0 = Ok s1 ->
  (exists s1' r, run sys env h1 s0 = Ok s1' /\ s_run s1' = p :: r /\
     (* it was not cancelled while it was active *)
     a_used (a_steps sys env h1 (a_start env m)) p = true) ->
  ~ In p (s_run s1) ->
  run sys env h2 s1 = Ok s2 -> s_run s2 <> [] ->
  step sys env (ECallLit (g_id (gprog env p))) s2 = Ok s ->
  s_run s = p :: s_run s2 /\ p_ws (gpst s p) = p_ws (gpst s1 p).
Proof.
  intros sys env m h1 h2 p s0 s1 s2 s G Hm Hp K1 K2 N1 Nc Nx In0 E0 E1 (s1' & r & E1' & Er & U) Np E2 Q2 E3.
  set (a1 := a_steps sys env (h1 ++ [EExit]) (a_start env m)).
  assert (N2 : ~ In ECancelAll h2).
  { intros I. rewrite Forall_forall in Nx. apply (Nx _ I). }
  assert (K1' : Forall (good_ev sys) (h1 ++ [EExit])).
  { apply Forall_app; split; auto. constructor; auto. exact I. }
  assert (N1' : ~ In ECancelAll (h1 ++ [EExit])).
  { rewrite in_app_iff. intros [X|[X|[]]]; auto. discriminate. }
  assert (R1 : R sys env s1 a1) by (apply (whole_run sys env G m _ s0 s1); auto; left; auto).
  assert (E12 : run sys env ((h1 ++ [EExit]) ++ h2) s0 = Ok s2).
  { clear - E1 E2. revert s0 E1. induction (h1 ++ [EExit]) as [|e h IH]; intros s0 E1; cbn [app run] in *.
    - inversion E1; subst; auto.
    - destruct (step sys env e s0) as [s'| |]; try discriminate. cbn [obind] in *. auto. }
  set (a2 := a_steps sys env h2 a1).
  assert (R2 : R sys env s2 a2).
  { unfold a2, a1. rewrite <- a_steps_app.
    apply (whole_run sys env G m _ s0 s2); auto.
    - apply Forall_app; auto.
    - left. rewrite in_app_iff. intros [X|X]; auto. }
  assert (Gp : good_ev sys (ECallLit (g_id (gprog env p)))).
  { right. apply (id_good sys env G p Hp). }
  destruct (step_R sys env G s2 a2 _ s R2 Gp E3) as [R3 _].
  specialize (R3 ltac:(discriminate)).
  rewrite (R_run sys env s1 a1 R1) in Np.
  destruct (kept sys env p h2 a1 Nc Nx Np) as (A & B0 & C).
  fold a2 in A, B0, C.
  assert (U1 : a_used a1 p = true).
  { unfold a1. rewrite a_steps_app. unfold a_steps at 1. cbn [fold_left]. unfold a_step.
    destruct (a_run (a_steps sys env h1 (a_start env m))); exact U. }
  unfold a_step in R3. rewrite <- (R_run sys env s2 a2 R2) in R3.
  destruct (s_run s2) as [|q r'] eqn:Er'; [congruence|].
  unfold a_call in R3.
  destruct (in_names (g_id (gprog env p)) sys) eqn:Ei.
  { apply in_names_In in Ei. exfalso. apply (id_sys sys env G p Hp Ei). }
  assert (Ec := callee_id sys env G p Hp). cbv beta in Ec. rewrite Ec in R3.
  rewrite (R_run _ _ _ _ R3). rewrite (proj2 (R_p _ _ _ _ R3 p Hp)).
  rewrite (proj2 (R_p _ _ _ _ R1 p Hp)).
  unfold a_enter; cbn [a_run a_ws]. unfold fupd. rewrite Nat.eqb_refl, A, U1, In0. cbn [andb negb].
  rewrite <- (R_run sys env s2 a2 R2), Er'. auto.
Qed.
Print Assumptions C71_storage_kept.

(** CANCEL touches no other program. *)
Theorem C71_cancel_others : forall sys env m h s0 s f q s',
  good_env sys env -> (m < length env)%nat -> Forall (good_ev sys) h -> ~ In ECancelAll h ->
  start sys env m = Ok s0 -> run sys env h s0 = Ok s ->
  (q < length env)%nat -> g_id (gprog env q) <> field_name f \/ g_main (gprog env q) = true ->
  step sys env (ECancel f) s = Ok s' -> gpst s' q = gpst s q.
Proof.
  intros sys env m h s0 s f q s' G Hm K N0 E0 E Hq D E'.
  pose proof (whole_run sys env G m h s0 s Hm K (or_introl N0) E0 E) as H.
  unfold step in E'. destruct (s_run s) as [|x r] eqn:Er; inversion E'; subst s'; [reflexivity|].
  destruct (cancel_R sys env s _ (field_name f) H) as (_ & _ & _ & P).
  rewrite (P q Hq). destruct D as [D| ->].
  - apply beq_neq in D. rewrite D. reflexivity.
  - rewrite andb_false_r. reflexivity.
Qed.
Print Assumptions C71_cancel_others.

(** Different names without underscores have different entry points. *)
Theorem C71_entry_points_distinct : forall a b,
  Forall (fun c => 1 <= c <= 255 /\ c <> 95) a -> Forall (fun c => 1 <= c <= 255 /\ c <> 95) b ->
  encode a = encode b -> a = b.
Proof. exact encode_inj. Qed.
Print Assumptions C71_entry_points_distinct.

(** An identifier in CALL or CANCEL may be padded with spaces or NULs. *)
Theorem C71_name_padding : forall n pad, ~ In 0 n ->
  Forall (fun c => c = 32 \/ c = 0) pad -> (forall i c, n = i ++ [c] -> c <> 32) ->
  field_name (n ++ pad) = n.
Proof. exact field_name_pad. Qed.
Print Assumptions C71_name_padding.

(** CANCEL ALL always ends, whatever the shape of the calls. *)
Theorem C71_cancel_all_ends : forall sys env m h s0 s,
  good_env sys env -> (m < length env)%nat -> Forall (good_ev sys) h -> ~ In ECancelAll h ->
  start sys env m = Ok s0 -> run sys env h s0 = Ok s ->
  exists s', step sys env ECancelAll s = Ok s'.
Proof.
  intros sys env m h s0 s G Hm K N0 E0 E.
  destruct (start_RT sys env G m Hm) as (s0' & E0' & R0 & T0). rewrite E0 in E0'. inversion E0'; subst s0'.
  destruct (run_RT sys env G False h s0 (a_start env m) s) as [_ T]; auto; try tauto.
  { destruct T0 as (lab & X1 & X2 & _). exists lab. split; [auto|]. split; [auto|intros []]. }
  destruct T as (lab & T1 & _).
  destruct (all_names_ok env (s_tree s) lab T1) as (l & El & _).
  unfold step. destruct (s_run s); [eauto|]. rewrite El. cbn [obind]. eauto.
Qed.
Print Assumptions C71_cancel_all_ends.

(** *** Examples *)
(* MAIN, SUB, A-B, LIB as a library routine *)
Definition nMAIN := [77;65;73;78].
Definition nSUB := [83;85;66].
Definition nAB := [65;45;66].
Definition nAuuB := [65;95;95;66].
Definition nLIB := [76;73;66].
Definition nT := [84].
Definition exenv : list prog :=
  [mkProg nMAIN false true true [0]; mkProg nSUB false false true [1]; mkProg nAB false false true [2];
   mkProg nT true false true [3]].
Definition exsys : list (list Z) := [nLIB].

Definition get (o : outcome st) (p : nat) : option (list Z) :=
  match o with Ok s => Some (p_ws (gpst s p)) | _ => None end.
Definition go (env : list prog) (h : list ev) : outcome st :=
  do s <- start exsys env 0; run exsys env h s.

Lemma ex_good : good_env exsys exenv.
Proof.
  split.
  - intros p Hp. cbn in Hp.
    assert (C : p = 0%nat \/ p = 1%nat \/ p = 2%nat \/ p = 3%nat) by lia.
    destruct C as [-> | [-> | [-> | ->]]]; (split;
      [split; [repeat (constructor; [lia|]); constructor|cbn; lia]
      |intros [X|[]]; discriminate]).
  - intros p q Hp Hq. cbn in Hp, Hq.
    assert (C : p = 0%nat \/ p = 1%nat \/ p = 2%nat \/ p = 3%nat) by lia.
    assert (D : q = 0%nat \/ q = 1%nat \/ q = 2%nat \/ q = 3%nat) by lia.
    destruct C as [-> | [-> | [-> | ->]]], D as [-> | [-> | [-> | ->]]]; intros E;
      try reflexivity; discriminate.
Qed.

(** SUB is called, stores, is left, another is called and cancelled; SUB finds
    its value; it is cancelled and finds the initial value. *)
Definition ex_h1 : list ev :=
  [ECallLit nSUB; EStore [7]; EArith; EExit; ECallId (nAB ++ [32; 32]); EExit; ECancel nAB;
   ECallId (nSUB ++ [32])].
Example ex_kept : get (go exenv ex_h1) 1 = Some [7].
Proof. vm_compute. reflexivity. Qed.
Definition ex_h2 : list ev :=
  [ECallLit nSUB; EStore [7]; EOpen; EExit; ECancel (nSUB ++ [32]); ECallLit nLIB; ECallLit nSUB; EArith].
Example ex_reset : get (go exenv ex_h2) 1 = Some [1].
Proof. vm_compute. reflexivity. Qed.
Example ex_h2_hyps : Forall (good_ev exsys) ex_h2 /\ ~ In ECancelAll ex_h2 /\
  calm_run exsys exenv ex_h2 (a_start exenv 0).
Proof.
  assert (G1 : good_name nSUB) by (apply (proj1 ex_good 1%nat); cbn; lia).
  split; [|split].
  - unfold ex_h2. repeat (apply Forall_cons; [first [exact I | right; exact G1 | left; left; reflexivity]|]). constructor.
  - cbn. intros X. decompose [or] X; try discriminate; auto.
  - cbn. repeat split; auto; try (right; intros p [<-|[]]; discriminate);
      try (intros p [<-|[]]; discriminate); left; left; reflexivity.
Qed.
(** CANCEL ALL with two callees. *)
Definition ex_h3 : list ev :=
  [ECallLit nSUB; EStore [7]; ECallLit nT; EExit; EExit; ECallLit nT; EExit; ECancelAll; ECallLit nSUB].
Example ex_all : get (go exenv ex_h3) 1 = Some [1] /\ get (go exenv ex_h1) 1 <> get (go exenv ex_h3) 1.
Proof. vm_compute. split; [reflexivity|discriminate]. Qed.
Definition exenv3 : list prog :=
  [mkProg nMAIN false true true [0]; mkProg nSUB false false true [1]; mkProg nT true false true [3]].
Example ex_h3_narrow : narrow (a_hist (a_steps exsys exenv3 ex_h3 (a_start exenv3 0))) /\
  forall p, (p < length exenv3)%nat -> word (g_id (gprog exenv3 p)).
Proof.
  split.
  - cbv [a_hist]. cbn. intros c p q r H1 H2 H3. cbn [In] in H1, H2, H3.
    repeat match goal with
    | H : _ \/ _ |- _ => destruct H
    | H : False |- _ => destruct H
    | H : _ :: _ = _ :: _ |- _ => inversion H; clear H; subst
    end; auto; try discriminate.
  - intros p Hp. cbn in Hp. assert (C : p = 0%nat \/ p = 1%nat \/ p = 2%nat) by lia.
    destruct C as [-> | [-> | ->]]; (split; [repeat (constructor; [lia|]); constructor|cbn; lia]).
Qed.

(** *** What does not hold *)

(** CALL "A-B" enters a program whose PROGRAM-ID is A__B. *)
Theorem C71_alias_refuted : exists env h s,
  go env h = Ok s /\ h = [ECallLit nAB] /\ s_run s = [1%nat; 0%nat] /\
  g_id (gprog env 1) = nAuuB /\ nAuuB <> nAB.
Proof.
  exists [mkProg nMAIN false true true [0]; mkProg nAuuB false false true [1]], [ECallLit nAB].
  eexists. split; [vm_compute; reflexivity|]. vm_compute. repeat split; discriminate.
Qed.
Print Assumptions C71_alias_refuted.

(** A program called by such a name is not cancelled by that name. *)
Theorem C71_cancel_by_called_name_refuted : exists h s,
  h = [ECallLit nAuuB; EStore [7]; EExit; ECancel nAuuB; ECallLit nAuuB] /\
  go exenv h = Ok s /\ s_run s = [2%nat; 0%nat] /\ p_ws (gpst s 2) = [7].
Proof. eexists; eexists. split; [reflexivity|]. split; [vm_compute; reflexivity|]. vm_compute. auto. Qed.
Print Assumptions C71_cancel_by_called_name_refuted.

(** CANCEL ALL does not cancel a program with a hyphen in its name. *)
Theorem C71_cancel_all_hyphen_refuted : exists s,
  go exenv [ECallLit nAB; EStore [7]; EExit; ECancelAll; ECallLit nAB] = Ok s /\
  p_ws (gpst s 2) = [7] /\
  a_ws (a_steps exsys exenv [ECallLit nAB; EStore [7]; EExit; ECancelAll; ECallLit nAB]
          (a_start exenv 0)) 2%nat = [2].
Proof. eexists. split; [vm_compute; reflexivity|]. vm_compute. auto. Qed.
Print Assumptions C71_cancel_all_hyphen_refuted.

(** CANCEL ALL does not cancel the third program that was called. *)
Definition nU := [85].
Definition nV := [86].
Definition env4 : list prog :=
  [mkProg nMAIN false true true [0]; mkProg nSUB false false true [1]; mkProg nU false false true [2];
   mkProg nV false false true [3]].
Definition third : list ev :=
  [ECallLit nSUB; EExit; ECallLit nU; EExit; ECallLit nV; EStore [7]; EExit; ECancelAll; ECallLit nV].
Theorem C71_cancel_all_third_refuted : exists s,
  go env4 third = Ok s /\ p_ws (gpst s 3) = [7] /\
  a_ws (a_steps exsys env4 third (a_start env4 0)) 3%nat = [3].
Proof. eexists. split; [vm_compute; reflexivity|]. vm_compute. auto. Qed.
Print Assumptions C71_cancel_all_third_refuted.

(** A program that cancels itself and then computes: its decimal registers
    have been freed. *)
Theorem C71_cancel_active_refuted :
  go exenv [ECallLit nSUB; ECancel nSUB; EArith] = UB.
Proof. vm_compute. reflexivity. Qed.
Print Assumptions C71_cancel_active_refuted.

(** Files opened by a program that was cancelled while it was active stay open
    when it is cancelled again. *)
Theorem C71_cancel_close_refuted : exists s,
  go exenv [ECallLit nSUB; ECancel nSUB; EOpen; EExit; ECancel nSUB] = Ok s /\
  p_open (gpst s 1) = true.
Proof. eexists. split; [vm_compute; reflexivity|]. vm_compute. reflexivity. Qed.
Print Assumptions C71_cancel_close_refuted.

(** After a recursive CALL the current module is not given back to the
    caller. *)
Theorem C71_recursive_module_refuted : exists s,
  go exenv [ECallLit nSUB; ECallLit nSUB; EExit; EExit] = Ok s /\
  s_run s = [0%nat] /\ s_mod s = Some 1%nat.
Proof. eexists. split; [vm_compute; reflexivity|]. vm_compute. auto. Qed.
Print Assumptions C71_recursive_module_refuted.

(** CALL of an identifier that holds 342 full stops overruns a buffer. *)
Theorem C71_long_name_refuted : go exenv [ECallId (repeat 46 342)] = UB.
Proof. vm_compute. reflexivity. Qed.
Print Assumptions C71_long_name_refuted.

(** A trailing space counts in a literal but not in an identifier. *)
Theorem C71_literal_space_refuted : exists s s',
  go exenv [ECallLit (nSUB ++ [32])] = Ok s /\ s_exc s = true /\ s_run s = [0%nat] /\
  go exenv [ECallId (nSUB ++ [32])] = Ok s' /\ s_exc s' = false /\ s_run s' = [1%nat; 0%nat].
Proof.
  eexists; eexists. split; [vm_compute; reflexivity|]. split; [reflexivity|]. split; [reflexivity|].
  split; [vm_compute; reflexivity|]. split; reflexivity.
Qed.
Print Assumptions C71_literal_space_refuted.
