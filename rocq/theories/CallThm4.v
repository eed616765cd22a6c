(** Whole runs. *)
From Verif Require Import Base Call SpecCall CallThm CallThm2 CallThm3.
Local Open Scope Z_scope.

Section Runs.
Variable sys : list (list Z).
Variable env : list prog.
Hypothesis G : good_env sys env.
Notation N := (length env).
Notation id := (fun p => g_id (gprog env p)).
Notation la lab i := (nth i lab (@nil nat)).

Lemma ends_with_spec : forall r s, ends_with r s = true <-> exists d, s = d ++ r.
Proof.
  intros r. induction s as [|x s IH]; cbn [ends_with].
  - destruct (list_eq_dec Nat.eq_dec r []) as [->|X]; split; intros H; auto.
    + exists []; reflexivity.
    + discriminate.
    + destruct H as ([|d ds] & H); [|discriminate]. cbn [app] in H. congruence.
  - destruct (list_eq_dec Nat.eq_dec r (x :: s)) as [->|X].
    + split; auto. intros _. exists []; reflexivity.
    + rewrite IH. split.
      * intros (d & ->). exists (x :: d); reflexivity.
      * intros ([|y d] & H); cbn [app] in H; [congruence|]. inversion H; subst. eauto.
Qed.
Lemma below_spec : forall a q, called_below a q = true <-> exists d, In (q :: d ++ a_run a) (a_hist a).
Proof.
  intros a q. unfold called_below. rewrite existsb_exists. split.
  - intros ([|p c] & I & E); [discriminate|]. apply andb_true_iff in E. destruct E as [E1 E2].
    apply Nat.eqb_eq in E1; subst p. apply ends_with_spec in E2. destruct E2 as (d & ->). eauto.
  - intros (d & I). exists (q :: d ++ a_run a). split; [exact I|]. rewrite Nat.eqb_refl.
    cbn [andb]. apply ends_with_spec. eauto.
Qed.

Lemma word_field : forall n, word n -> field_name n = n.
Proof.
  intros n [F _]. rewrite <- (app_nil_r n) at 1. apply field_name_pad; auto.
  - intros I. rewrite Forall_forall in F. specialize (F 0 I). lia.
  - intros i c E ->. rewrite Forall_forall in F. specialize (F 32).
    assert (X : In 32 n) by (rewrite E; apply in_or_app; right; left; reflexivity).
    specialize (F X). lia.
Qed.

Lemma hist_step : forall e a c, In c (a_hist a) -> In c (a_hist (a_step sys env e a)).
Proof.
  intros e a c I. unfold a_step. destruct (a_run a) as [|q r]; [auto|].
  assert (Call : forall n, In c (a_hist (a_call sys env n a))).
  { intros n. unfold a_call. destruct (in_names n sys); [exact I|].
    destruct (callee env n); [right; exact I|exact I]. }
  destruct e; auto.
Qed.
Lemma hist_steps : forall h a c, In c (a_hist a) -> In c (a_hist (a_steps sys env h a)).
Proof.
  unfold a_steps. induction h as [|e h IH]; intros a c I; cbn [fold_left]; auto.
  apply IH. apply hist_step; auto.
Qed.
Lemma narrow_mono : forall h a, narrow (a_hist (a_steps sys env h a)) -> narrow (a_hist a).
Proof.
  intros h a H c p q r I1 I2 I3. apply (H c); apply hist_steps; auto.
Qed.

(** CANCEL ALL may occur only where the call tree is exact. *)
Definition all_ok (h : list ev) (a : abs) : Prop :=
  ~ In ECancelAll h \/
  (narrow (a_hist (a_steps sys env h a)) /\ forall p, (p < N)%nat -> word (id p)).

(** The tree part of the invariant. *)
Definition TR (exact : Prop) (t : tree) (a : abs) : Prop :=
  exists lab, TI env t lab /\ (length (a_run a) <= length (la lab (t_cur t)))%nat /\
    (exact -> NI t lab (a_run a) (a_hist a)).

Lemma TR_enter : forall (ex : Prop) t a p, TR ex t a -> (p < N)%nat ->
  (ex -> narrow ((p :: a_run a) :: a_hist a)) ->
  exists t', push_tree (encode (id p)) t = Ok t' /\ TR ex t' (a_enter env p a).
Proof.
  intros ex t a p (lab & T & L & X) Hp Nw.
  destruct (push_ok sys env G t lab p T Hp) as (t' & lab' & E & T' & L' & X').
  exists t'. split; [exact E|]. exists lab'. unfold a_enter; cbn [a_run a_hist].
  split; [exact T'|]. split; [cbn [length]; lia|]. intros Y. apply X'; auto.
Qed.
Lemma TR_same : forall (ex : Prop) t a b, TR ex t a -> a_run a = a_run b -> a_hist a = a_hist b -> TR ex t b.
Proof. intros ex t a b (lab & T & L & X) E1 E2. exists lab. rewrite <- E1, <- E2. auto. Qed.
Lemma TR_exit : forall (ex : Prop) t a q r, TR ex t a -> a_run a = q :: r ->
  exists t', pop_tree t = Ok t' /\
    forall ws us op exc, TR ex t' (mkAbs r ws us op exc (a_hist a)).
Proof.
  intros ex t a q r (lab & T & L & X) E. rewrite E in *. cbn [length] in L.
  destruct (pop_ok env t lab T) as (t' & E' & T' & L' & X').
  { intros Y. rewrite Y in L. cbn [length] in L. lia. }
  exists t'. split; [exact E'|]. intros. exists lab. cbn [a_run a_hist].
  split; [auto|]. split; [lia|]. intros Y. eapply X'; eauto.
Qed.

(** One step keeps the tree part. *)
Lemma step_TR : forall (ex : Prop) s a e s', R sys env s a -> good_ev sys e ->
  TR ex (s_tree s) a -> (ex -> narrow (a_hist (a_step sys env e a))) ->
  step sys env e s = Ok s' -> TR ex (s_tree s') (a_step sys env e a).
Proof.
  intros ex s a e s' H K T Nw E.
  unfold a_step in *. destruct (a_run a) as [|q r] eqn:Er.
  { unfold step in E. rewrite (R_run sys env s a H), Er in E. inversion E; subst; auto. }
  assert (Es : s_run s = q :: r) by (rewrite (R_run sys env s a H); exact Er).
  assert (Call : forall n, (e = ECallLit n \/ (exists f, e = ECallId f /\ n = field_name f)) ->
     In n sys \/ good_name n -> (ex -> narrow (a_hist (a_call sys env n a))) ->
     TR ex (s_tree s') (a_call sys env n a)).
  { intros n K1 K2 Nw'. destruct (call_invoke sys env G s a e n H ltac:(rewrite Es; discriminate) K1 K2)
      as (s1 & R1 & (F1 & F2 & F3 & F4) & E1). rewrite E1 in E. unfold a_call in *.
    destruct (in_names n sys).
    - cbn [invoke] in E. inversion E; subst s'. unfold set_exc; cbn [s_tree]. rewrite F4.
      eapply TR_same; [exact T| |]; reflexivity.
    - destruct (callee env n) as [p|] eqn:Ep; cbn [invoke] in E.
      + apply (callee_some env) in Ep.
        destruct (enter_R sys env G s1 a p s' R1 (proj1 Ep) E) as (_ & _ & Pu & _).
        destruct (TR_enter ex (s_tree s1) a p) as (t' & E' & T'); auto.
        * rewrite F4; exact T.
        * apply Ep.
        * rewrite E' in Pu. inversion Pu. subst t'. exact T'.
      + inversion E; subst s'. unfold set_exc; cbn [s_tree]. rewrite F4.
        eapply TR_same; [exact T| |]; reflexivity. }
  destruct e as [n|f|f| |v| | | ]; unfold step in E; rewrite ?Es in E.
  - apply Call; auto.
  - apply Call; auto. right; eauto.
  - inversion E; subst s'. destruct (cancel_R sys env s a (field_name f) H) as (_ & -> & _).
    eapply TR_same; [exact T| |]; reflexivity.
  - destruct (all_names (s_tree s)) as [l| |]; try discriminate. cbn [obind] in E.
    inversion E; subst s'. destruct (cancels_R sys env l s a H) as (_ & -> & _).
    eapply TR_same; [exact T| |]; reflexivity.
  - inversion E; subst s'. eapply TR_same; [exact T| |]; auto.
  - destruct (g_dec (gprog env q) && negb (p_decok (gpst s q))); [discriminate|].
    inversion E; subst s'. exact T.
  - inversion E; subst s'. eapply TR_same; [exact T| |]; auto.
  - destruct (TR_exit ex (s_tree s) a q r T Er) as (t' & E' & T').
    rewrite E' in E. cbn [obind] in E. destruct (s_mod s); [|discriminate].
    inversion E; subst s'. apply T'.
Qed.

(** CANCEL ALL where the tree is exact. *)
Lemma all_exact : forall s a l, TR True (s_tree s) a ->
  (forall p, (p < N)%nat -> word (id p)) -> all_names (s_tree s) = Ok l ->
  forall p, (p < N)%nat -> in_names (id p) (map field_name l) = called_below a p.
Proof.
  intros s a l (lab & T & _ & X) W E p Hp.
  destruct (all_names_ok env (s_tree s) lab T) as (l' & E' & Y).
  rewrite E in E'. inversion E'; subst l'. specialize (Y _ _ (X Logic.I)).
  apply eq_true_iff_eq. rewrite below_spec, in_names_In, in_map_iff. split.
  - intros (n & E1 & I1). apply Y in I1. destruct I1 as (q & d & I & -> & Hq).
    pose proof (W q Hq) as Wq. cbv beta in Wq. rewrite (encode_word _ Wq) in E1.
    rewrite (word_field _ Wq) in E1. assert (q = p) by (apply (id_inj sys env G); auto). subst q. eauto.
  - intros (d & I). exists (encode (id p)). pose proof (W p Hp) as Wp. split.
    + rewrite (encode_word _ Wp). apply word_field; auto.
    + apply Y. exists p, d. auto.
Qed.

Lemma step_RT : forall (ex : Prop) s a e s', R sys env s a -> good_ev sys e ->
  TR ex (s_tree s) a -> (ex -> narrow (a_hist (a_step sys env e a))) ->
  (e = ECancelAll -> ex /\ forall p, (p < N)%nat -> word (id p)) ->
  step sys env e s = Ok s' ->
  R sys env s' (a_step sys env e a) /\ TR ex (s_tree s') (a_step sys env e a).
Proof.
  intros ex s a e s' H K T Nw W E. split; [|eapply step_TR; eauto].
  destruct (step_R sys env G s a e s' H K E) as [A B].
  assert (D : e = ECancelAll \/ e <> ECancelAll) by (destruct e; auto; right; discriminate).
  destruct D as [->|D]; [|auto].
  unfold a_step. destruct (a_run a) as [|q r] eqn:Er.
  { unfold step in E. rewrite (R_run sys env s a H), Er in E. inversion E; subst; auto. }
  destruct (B eq_refl ltac:(discriminate)) as (l & E1 & R1).
  eapply R_ext; [exact R1| | |]; try reflexivity.
  intros p Hp. split; [|reflexivity]. unfold a_cancel; cbn [a_used].
  destruct (W eq_refl) as [Ex Wd].
  rewrite (all_exact s a l); auto.
  destruct T as (lab & T1 & T2 & T3). exists lab. auto.
Qed.

Lemma run_RT : forall (ex : Prop) h s a s', R sys env s a -> Forall (good_ev sys) h ->
  TR ex (s_tree s) a -> (ex -> narrow (a_hist (a_steps sys env h a))) ->
  (In ECancelAll h -> ex /\ forall p, (p < N)%nat -> word (id p)) ->
  run sys env h s = Ok s' ->
  R sys env s' (a_steps sys env h a) /\ TR ex (s_tree s') (a_steps sys env h a).
Proof.
  intros ex. induction h as [|e h IH]; intros s a s' H K T Nw W E; cbn [run] in E.
  - inversion E; subst. auto.
  - inversion K; subst. destruct (step sys env e s) as [s1| |] eqn:E1; try discriminate.
    cbn [obind] in E.
    destruct (step_RT ex s a e s1 H) as [R1 T1]; auto.
    + intros X. apply (narrow_mono h). apply Nw; auto.
    + intros ->. apply W. left; reflexivity.
    + apply (IH s1); auto. intros I. apply W. right; exact I.
Qed.

Lemma start_RT : forall m, (m < N)%nat -> exists s, start sys env m = Ok s /\
  R sys env s (a_start env m) /\ TR True (s_tree s) (a_start env m).
Proof.
  intros m Hm.
  assert (T0 : TR True tree0 (mkAbs [] (fun _ => []) (fun _ => false) (fun _ => false) false [])).
  { exists [[]]. destruct (tree0_ok env). cbn [a_run a_hist length]. split; [auto|]. split; [lia|auto]. }
  destruct (TR_enter True tree0 _ m T0 Hm) as (t' & E & T).
  { intros _. intros c p q r. cbn [a_run a_hist In].
    intros [A|[]] [B|[]] [C|[]]. inversion A; inversion B; inversion C. left; congruence. }
  destruct (start sys env m) as [s| |] eqn:Es.
  - exists s. split; [reflexivity|]. destruct (start_R sys env G m s Hm Es) as (R1 & _ & P & _).
    split; [exact R1|]. rewrite E in P. inversion P as [P1]. rewrite <- P1. exact T.
  - exfalso. unfold start, enter in Es. cbn [s_tree] in Es. rewrite E in Es. discriminate.
  - exfalso. unfold start, enter in Es. cbn [s_tree] in Es. rewrite E in Es. discriminate.
Qed.

(** *** Theorem A *)
Lemma whole_run : forall m h s0 s, (m < N)%nat -> Forall (good_ev sys) h ->
  all_ok h (a_start env m) ->
  start sys env m = Ok s0 -> run sys env h s0 = Ok s ->
  R sys env s (a_steps sys env h (a_start env m)).
Proof.
  intros m h s0 s Hm K A E0 E.
  destruct (start_RT m Hm) as (s0' & E' & R0 & T0). rewrite E0 in E'. inversion E'; subst s0'.
  destruct A as [A|[A B]].
  - apply (run_RT False h s0 (a_start env m) s); auto; try tauto.
    destruct T0 as (lab & X1 & X2 & _). exists lab. split; [auto|]. split; [auto|intros []].
  - apply (run_RT True h s0 (a_start env m) s); auto.
Qed.

(** *** Calm runs *)
Fixpoint linked (s : st) (r : list nat) : Prop :=
  match r with
  | [] => True
  | p :: r' => p_next (gpst s p) = hd_error r' /\ linked s r'
  end.

Record B (s : st) (a : abs) : Prop := mkB {
  B_nd : NoDup (a_run a);
  B_hist : forall c, In c (a_hist a) -> NoDup c;
  B_mod : s_mod s = hd_error (a_run a);
  B_link : linked s (a_run a);
  B_open : forall p, (p < N)%nat -> p_open (gpst s p) = a_open a p;
  B_ou : forall p, (p < N)%nat -> a_open a p = true -> a_used a p = true;
  B_act : forall p, In p (a_run a) -> a_used a p = true;
  B_dec : forall p, (p < N)%nat -> a_used a p = true -> p_decok (gpst s p) = true }.

Lemma linked_ext : forall s s' r, (forall p, In p r -> p_next (gpst s' p) = p_next (gpst s p)) ->
  linked s r -> linked s' r.
Proof.
  induction r as [|p r IH]; intros H L; [exact Logic.I|]. destruct L as [A L]. split.
  - rewrite H by (left; reflexivity). exact A.
  - apply IH; auto. intros q I. apply H; right; exact I.
Qed.

Lemma cancel_B : forall s s' a c, R sys env s a -> B s a ->
  s_mod s' = s_mod s ->
  (forall p, (p < N)%nat -> gpst s' p = if c p && negb (g_main (gprog env p)) then cleared (gpst s p) else gpst s p) ->
  (forall p, In p (a_run a) -> c p = false) ->
  B s' (a_cancel env c a).
Proof.
  intros s s' a c H [H1 H2 H3 H4 H5 H6 H7 H8] Em Ep Ha.
  constructor; unfold a_cancel; cbn [a_run a_used a_open a_hist]; auto.
  - congruence.
  - revert H4. apply linked_ext. intros p I. rewrite Ep by (apply (R_lt sys env s a H); auto).
    destruct (c p && negb (g_main (gprog env p))); [|reflexivity].
    unfold cleared. destruct (p_inited (gpst s p)); reflexivity.
  - intros p Hp. rewrite (Ep p Hp). destruct (c p && negb (g_main (gprog env p))); [|auto].
    unfold cleared. destruct (p_inited (gpst s p)) eqn:Ei; [reflexivity|].
    rewrite (H5 p Hp). destruct (a_open a p) eqn:Eo; [|reflexivity].
    rewrite (proj1 (R_p sys env s a H p Hp)), (H6 p Hp Eo) in Ei. discriminate.
  - intros p Hp. destruct (c p && negb (g_main (gprog env p))); [discriminate|auto].
  - intros p I. rewrite (Ha p I). cbn [andb]. auto.
  - intros p Hp. rewrite (Ep p Hp). destruct (c p && negb (g_main (gprog env p))); [discriminate|auto].
Qed.

Lemma B_same : forall s s' a b, B s a -> s_mod s' = s_mod s -> s_progs s' = s_progs s ->
  a_run b = a_run a -> a_hist b = a_hist a -> a_open b = a_open a -> a_used b = a_used a -> B s' b.
Proof.
  intros s s' a b [H1 H2 H3 H4 H5 H6 H7 H8] E1 E2 E3 E4 E5 E6.
  assert (Ep : forall p, gpst s' p = gpst s p) by (intros p; unfold gpst; rewrite E2; reflexivity).
  constructor; rewrite ?E1, ?E3, ?E4, ?E5, ?E6; auto.
  - revert H4. apply linked_ext. intros p _. rewrite Ep. reflexivity.
  - intros p Hp. rewrite Ep. auto.
  - intros p Hp. rewrite Ep. auto.
Qed.

Lemma step_B : forall (ex : Prop) s a e, R sys env s a -> good_ev sys e -> B s a ->
  TR ex (s_tree s) a -> (ex -> narrow (a_hist (a_step sys env e a))) ->
  (e = ECancelAll -> ex /\ forall p, (p < N)%nat -> word (id p)) ->
  calm sys env e a ->
  exists s', step sys env e s = Ok s' /\ B s' (a_step sys env e a).
Proof.
  intros ex s a e H K Hb T Nw W Cm.
  unfold a_step in *. destruct (a_run a) as [|q r] eqn:Er.
  { unfold step. rewrite (R_run sys env s a H), Er. eauto. }
  assert (Es : s_run s = q :: r) by (rewrite (R_run sys env s a H); exact Er).
  assert (Hq : (q < N)%nat) by (apply (R_lt sys env s a H); rewrite Er; left; reflexivity).
  assert (Call : forall n, (e = ECallLit n \/ (exists f, e = ECallId f /\ n = field_name f)) ->
     In n sys \/ good_name n -> (ex -> narrow (a_hist (a_call sys env n a))) ->
     (In n sys \/ forall p, In p (a_run a) -> id p <> n) ->
     exists s', step sys env e s = Ok s' /\ B s' (a_call sys env n a)).
  { intros n K1 K2 Nw' Cm'. destruct (call_invoke sys env G s a e n H ltac:(rewrite Es; discriminate) K1 K2)
      as (s1 & R1 & (F1 & F2 & F3 & F4) & E1). rewrite E1. unfold a_call in *.
    destruct (in_names n sys) eqn:Ei.
    - cbn [invoke]. eexists. split; [reflexivity|].
      eapply B_same; [exact Hb| | | | | |]; auto.
    - destruct (callee env n) as [p|] eqn:Ep; cbn [invoke].
      + apply (callee_some env) in Ep. destruct Ep as [Hp Ip].
        assert (Np : ~ In p (a_run a)).
        { intros I. destruct Cm' as [X|X]; [apply in_names_In in X; congruence|].
          apply (X p I). exact Ip. }
        destruct (TR_enter ex (s_tree s1) a p) as (t' & E' & T'); auto.
        { rewrite F4; exact T. }
        destruct (enter env p s1) as [s'| |] eqn:En.
        2-3: exfalso; unfold enter in En; rewrite E' in En; discriminate.
        exists s'. split; [reflexivity|].
        destruct (enter_R sys env G s1 a p s' R1 Hp En) as (R' & M' & _ & P').
        destruct Hb as [H1 H2 H3 H4 H5 H6 H7 H8].
        assert (Pe : forall x, gpst s1 x = gpst s x) by (intros x; unfold gpst; rewrite F1; reflexivity).
        constructor; unfold a_enter; cbn [a_run a_used a_open a_hist]; auto.
        * constructor; auto.
        * intros c [<-|I]; [constructor; auto|auto].
        * split.
          -- rewrite (P' p Hp), Nat.eqb_refl. cbn [p_next]. rewrite F3. exact H3.
          -- revert H4. apply linked_ext. intros x I.
             rewrite (P' x) by (apply (R_lt sys env s a H); auto).
             destruct (Nat.eqb_spec x p) as [->|]; [contradiction|]. rewrite Pe. reflexivity.
        * intros x Hx. rewrite (P' x Hx). destruct (Nat.eqb_spec x p) as [->|].
          -- cbn [p_open]. rewrite Pe. auto.
          -- rewrite Pe. auto.
        * intros x Hx O. unfold fupd. destruct (Nat.eqb x p); auto.
        * intros x [<-|I]; unfold fupd; [rewrite Nat.eqb_refl; reflexivity|].
          destruct (Nat.eqb x p); auto.
        * intros x Hx U. rewrite (P' x Hx). unfold fupd in U.
          destruct (Nat.eqb_spec x p) as [->|].
          -- cbn [p_decok]. rewrite Pe.
             destruct (p_inited (gpst s p)) eqn:Ii; [|rewrite orb_true_r; reflexivity].
             rewrite H8; auto. rewrite <- (proj1 (R_p sys env s a H p Hp)). exact Ii.
          -- rewrite Pe. auto.
      + eexists. split; [reflexivity|].
        eapply B_same; [exact Hb| | | | | |]; auto. }
  destruct e as [n|f|f| |v| | | ].
  - apply (Call n); auto.
  - apply (Call (field_name f)); auto. right; eauto.
  - unfold step; rewrite Es. eexists. split; [reflexivity|].
    destruct (cancel_R sys env s a (field_name f) H) as (_ & _ & M & P).
    eapply cancel_B; eauto. intros p I. apply beq_neq. apply Cm. exact I.
  - unfold step; rewrite Es. destruct T as (lab & T1 & T2 & T3).
    destruct (all_names_ok env (s_tree s) lab T1) as (l & El & _). rewrite El. cbn [obind].
    eexists. split; [reflexivity|].
    destruct (cancels_R sys env l s a H) as (_ & _ & M & P).
    destruct (W eq_refl) as [Ex Wd].
    assert (Q : forall p, (p < N)%nat -> in_names (id p) (map field_name l) = called_below a p).
    { apply (all_exact s a l); auto. exists lab. auto. }
    eapply cancel_B; eauto.
    + intros p Hp. rewrite (P p Hp), (Q p Hp). reflexivity.
    + intros p I. destruct (called_below a p) eqn:Eb; [|reflexivity]. exfalso.
      apply below_spec in Eb. destruct Eb as (d & I'). apply (B_hist s a Hb) in I'.
      inversion I'; subst. apply H2. apply in_or_app; right; exact I.
  - unfold step; rewrite Es. cbv zeta. eexists. split; [reflexivity|].
    destruct Hb as [H1 H2 H3 H4 H5 H6 H7 H8]. rewrite Er in *.
    set (x := mkPst _ _ _ _ _).
    assert (Pe : forall y, (y < N)%nat -> gpst (set_pst q x s) y = if Nat.eqb y q then x else gpst s y).
    { intros y Hy. apply gpst_set. rewrite (R_len sys env s a H). auto. }
    constructor; cbn [a_run a_used a_open a_hist]; auto.
    + revert H4. apply linked_ext. intros y I.
      rewrite Pe by (apply (R_lt sys env s a H); rewrite Er; auto).
      destruct (Nat.eqb_spec y q) as [->|]; reflexivity.
    + intros y Hy. rewrite (Pe y Hy). destruct (Nat.eqb_spec y q) as [->|]; [apply H5; auto|auto].
    + intros y Hy U. rewrite (Pe y Hy). destruct (Nat.eqb_spec y q) as [->|]; [apply H8; auto|auto].
  - unfold step; rewrite Es.
    rewrite (B_dec s a Hb q Hq) by (apply (B_act s a Hb); rewrite Er; left; reflexivity).
    cbn [negb]. rewrite andb_false_r. eauto.
  - unfold step; rewrite Es. cbv zeta. eexists. split; [reflexivity|].
    destruct Hb as [H1 H2 H3 H4 H5 H6 H7 H8]. rewrite Er in *.
    set (x := mkPst _ _ _ _ _).
    assert (Pe : forall y, (y < N)%nat -> gpst (set_pst q x s) y = if Nat.eqb y q then x else gpst s y).
    { intros y Hy. apply gpst_set. rewrite (R_len sys env s a H). auto. }
    constructor; cbn [a_run a_used a_open a_hist]; auto.
    + revert H4. apply linked_ext. intros y I.
      rewrite Pe by (apply (R_lt sys env s a H); rewrite Er; auto).
      destruct (Nat.eqb_spec y q) as [->|]; reflexivity.
    + intros y Hy. rewrite (Pe y Hy). unfold fupd. destruct (Nat.eqb_spec y q) as [->|]; [reflexivity|auto].
    + intros y Hy. unfold fupd. destruct (Nat.eqb_spec y q) as [->|]; [|auto].
      intros _. apply H7. left; reflexivity.
    + intros y Hy U. rewrite (Pe y Hy). destruct (Nat.eqb_spec y q) as [->|]; [apply H8; auto|auto].
  - unfold step; rewrite Es. destruct (TR_exit ex (s_tree s) a q r T Er) as (t' & E' & _).
    rewrite E'. cbn [obind]. destruct Hb as [H1 H2 H3 H4 H5 H6 H7 H8]. rewrite Er in *.
    rewrite H3. cbn [hd_error]. eexists. split; [reflexivity|].
    destruct H4 as [L1 L2]. inversion H1; subst.
    constructor; cbn [a_run a_used a_open a_hist s_mod]; auto.
    + revert L2. apply linked_ext. reflexivity.
    + intros p I. apply H7. right; exact I.
Qed.

Lemma run_B : forall (ex : Prop) h s a, R sys env s a -> Forall (good_ev sys) h -> B s a ->
  TR ex (s_tree s) a -> (ex -> narrow (a_hist (a_steps sys env h a))) ->
  (In ECancelAll h -> ex /\ forall p, (p < N)%nat -> word (id p)) ->
  calm_run sys env h a ->
  exists s', run sys env h s = Ok s' /\ B s' (a_steps sys env h a).
Proof.
  intros ex. induction h as [|e h IH]; intros s a H K Hb T Nw W C; cbn [run].
  - exists s. auto.
  - inversion K; subst. destruct C as [C1 C2].
    assert (Nw1 : ex -> narrow (a_hist (a_step sys env e a))).
    { intros X. apply (narrow_mono h). apply Nw; auto. }
    assert (W1 : e = ECancelAll -> ex /\ forall p, (p < N)%nat -> word (id p)).
    { intros ->. apply W. left; reflexivity. }
    destruct (step_B ex s a e H H2 Hb T Nw1 W1 C1) as (s1 & E1 & B1).
    destruct (step_RT ex s a e s1 H H2 T Nw1 W1 E1) as [R1 T1].
    destruct (IH s1 (a_step sys env e a)) as (s' & E' & B'); auto.
    { intros I. apply W. right; exact I. }
    exists s'. rewrite E1. cbn [obind]. auto.
Qed.

Lemma start_B : forall m s, (m < N)%nat -> start sys env m = Ok s -> B s (a_start env m).
Proof.
  intros m s Hm E. destruct (start_R sys env G m s Hm E) as (R1 & M & _ & P).
  assert (U : forall p, a_used (a_start env m) p = Nat.eqb p m).
  { intros p. unfold a_start, a_enter; cbn [a_used]. unfold fupd. destruct (Nat.eqb p m); reflexivity. }
  constructor.
  - constructor; [intros []|constructor].
  - intros c [<-|[]]. constructor; [intros []|constructor].
  - exact M.
  - split; [|exact Logic.I]. apply (P m Hm).
  - intros p Hp. apply (P p Hp).
  - intros p _ X. discriminate.
  - intros p [<-|[]]. rewrite U. apply Nat.eqb_refl.
  - intros p Hp X. apply (P p Hp). rewrite (proj1 (R_p sys env s _ R1 p Hp)). exact X.
Qed.

End Runs.
