(** C35: file status discipline, for every history of statements. *)
From Verif Require Import Base Stdio FileIO SpecStatus StatusProofs.

(** Whatever was done before, a statement that the open mode does not allow
    returns the prescribed status and leaves the file, the position, the record
    area and the key and length items as they were - for every organization,
    every access mode, every option. *)
Theorem C35_refused : forall c f ops f1 o s, untouched f -> Forall legal_op ops -> run_ops c f ops = Ok f1 ->
  Forall (fun e => ~ opened_missing c e) (observed c f ops) ->
  prescribed (f_access f) (observed c f ops) o = Some s -> ~ departs (observed c f ops) o ->
  exists f2, run_op c f1 o = Ok f2 /\ f_status f2 = s /\ same_file f1 f2.
Proof.
  intros c f ops f1 o s U LG R NM P ND.
  destruct (run_ops_inv c ops [] f f1 (start_inv f U) LG R NM) as [IV A]. cbn [app] in IV.
  rewrite <- A in P. destruct (refuse_runs c _ f1 o s IV P ND) as (f2 & E).
  assert (LG1 : legal_op o \/ exists m, o = OOpen m) by (destruct o; cbn [legal_op]; eauto).
  assert (EF : effect c (observed c f ops) f1 o f2).
  { destruct o as [md| | | | | | | | | |]; try (apply run_effect; auto; exact I).
    destruct md; try (apply run_effect; auto; exact I).
    all: apply ef_refused with (s := s); auto.
    all: clear LG1; cbn [prescribed] in P; cbn [run_op] in E; unfold ex_open in E; cbn [set_done f_open] in E; rewrite (iv_open _ _ IV) in E;
      destruct (mode_of (observed c f ops)); try discriminate P; injection E as <-; injection P as <-; try reflexivity; constructor; reflexivity. }
  destruct (effect_refused _ _ _ _ _ _ EF P ND) as [X Y]. eauto.
Qed.
Print Assumptions C35_refused.

(** And these statuses are returned in no other case. *)
Theorem C35_only : forall c f ops f1 o f2, untouched f -> Forall legal_op ops -> legal_op o -> run_ops c f ops = Ok f1 ->
  Forall (fun e => ~ opened_missing c e) (observed c f ops) -> is_stmt o = true -> ~ departs (observed c f ops) o ->
  run_op c f1 o = Ok f2 -> ~ opened_missing c (o, f_status f2) -> In (f_status f2) refusals ->
  prescribed (f_access f) (observed c f ops) o = Some (f_status f2).
Proof.
  intros c f ops f1 o f2 U LG LGo R NM ST ND E NMo RF.
  destruct (run_ops_inv c ops [] f f1 (start_inv f U) LG R NM) as [IV A]. cbn [app] in IV.
  rewrite <- A. eapply effect_only; eauto. eapply run_effect; eauto.
Qed.
Print Assumptions C35_only.

(** In particular: after a READ that found the end of the file (status 10),
    every further READ NEXT returns 46 and changes nothing, whatever WRITE,
    REWRITE, DELETE or refused READ comes between. *)
Definition keeps_end (o : op) : Prop :=
  match o with OWrite _ _ | ORewrite _ | ODelete | OSet _ | OKey _ | ODep _ | OReadNext => True | _ => False end.
Lemma end_stays : forall c mid h f g, inv h f -> at_end h = true -> (mode_of h = Input \/ mode_of h = InOut) -> Forall keeps_end mid -> run_ops c f mid = Ok g ->
  exists h', inv h' g /\ at_end h' = true /\ (mode_of h' = Input \/ mode_of h' = InOut).
Proof.
  intros c. induction mid as [|o mid IH]; intros h f g IV AE MI FM R.
  - injection R as <-. eauto.
  - cbn [run_ops] in R. apply bind_ok in R. destruct R as (f1 & E & R). inversion FM as [|? ? K FM']; subst.
    assert (LG : legal_op o) by (destruct o; try contradiction; exact I).
    assert (NM : ~ opened_missing c (o, f_status f1)) by (intros [_ X]; destruct o; try contradiction; cbn [fst] in X; destruct X as [X|[X _]]; discriminate).
    pose proof (step_inv c h f o f1 IV LG E NM) as IV1.
    apply (IH (h ++ [(o, f_status f1)]) f1 g IV1); auto.
    + rewrite end_snoc. destruct o; try contradiction; cbn [end_after]; auto.
      pose proof (run_effect c h f OReadNext f1 IV I E) as EF.
      destruct (effect_refused _ _ _ _ _ 46 EF) as [X _]; [cbn [prescribed]; rewrite AE; destruct MI as [-> | ->]; reflexivity| |rewrite X; auto].
      intros [[D _]|(D & _)]; destruct MI; congruence.
    + rewrite mode_snoc. destruct o; try contradiction; exact MI.
Qed.
Lemma run_split : forall c l1 l2 f g, run_ops c f (l1 ++ l2) = Ok g -> exists m, run_ops c f l1 = Ok m /\ run_ops c m l2 = Ok g.
Proof.
  intros c. induction l1 as [|x l1 IH]; intros l2 f0 g0 H; [exists f0; auto|]. cbn [app run_ops] in *. apply bind_ok in H. destruct H as (m & E & H). rewrite E.
  destruct (IH _ _ _ H) as (m' & A1 & A2). exists m'. auto.
Qed.
Theorem C35_after_end : forall c f ops g mid f1, untouched f -> Forall legal_op ops -> Forall (fun e => ~ opened_missing c e) (observed c f ops) ->
  mode_of (observed c f ops) = Input \/ mode_of (observed c f ops) = InOut ->
  run_ops c f (ops ++ [OReadNext]) = Ok g -> f_status g = 10 ->
  Forall keeps_end mid -> run_ops c g mid = Ok f1 ->
  exists f2, run_op c f1 OReadNext = Ok f2 /\ f_status f2 = 46 /\ same_file f1 f2.
Proof.
  intros c f ops g mid f1 U LG NM MI RG SG FM R.
  destruct (run_split _ _ _ _ _ RG) as (m & R1 & R2). cbn [run_ops] in R2. apply bind_ok in R2. destruct R2 as (g' & R2 & X). injection X as ->.
  destruct (run_ops_inv c ops [] f m (start_inv f U) LG R1 NM) as [IV A]. cbn [app] in IV.
  assert (IVg : inv (observed c f ops ++ [(OReadNext, f_status g)]) g).
  { apply (step_inv c _ m OReadNext g IV I R2). intros [_ [X|[X _]]]; discriminate. }
  destruct (end_stays c mid _ g f1 IVg) as (h' & IV' & AE & MI'); auto.
  { rewrite end_snoc, SG. reflexivity. }
  { rewrite mode_snoc. exact MI. }
  assert (P : prescribed (f_access f1) h' OReadNext = Some 46) by (cbn [prescribed]; rewrite AE; destruct MI' as [-> | ->]; reflexivity).
  assert (ND : ~ departs h' OReadNext) by (intros [[D _]|(D & _)]; destruct MI'; congruence).
  destruct (refuse_runs c h' f1 OReadNext 46 IV' P ND) as (f2 & E).
  destruct (effect_refused _ _ _ _ _ _ (run_effect c h' f1 OReadNext f2 IV' I E) P ND). eauto.
Qed.
Print Assumptions C35_after_end.

(** Non-vacuity. *)
Definition st_file (o : organization) (a : access_mode) (opt : bool) (disk : option (list Z)) : cfile :=
  mkFile o a opt 3 3 None (Some (mkItem 0 4)) [65;66;67] 3 Closed false false false 0 false false None disk 0.
Definition st_io : iocfg := mkIO 0 false false false false.
Ltac steps := repeat (match goal with |- _ /\ _ => split; [vm_compute; reflexivity|] end); vm_compute; reflexivity.
Example C35_hyp : untouched (st_file OrgSequential AccSequential false None).
Proof. constructor; reflexivity. Qed.
Example C35_ex_history : forall o, In o [(OOpen Input, 41); (OReadNext, 47); (OStart EQ, 47); (ORewrite 3, 49); (ODelete, 49)] ->
  prescribed AccSequential (observed st_io (st_file OrgSequential AccSequential false None) [OOpen Output; OWrite 3 WNone]) (fst o) = Some (snd o).
Proof. intros o I. cbn [In] in I. repeat destruct I as [<-|I]; try reflexivity. contradiction. Qed.
Example C35_ex_observed :
  observed st_io (st_file OrgSequential AccSequential false None)
    [OReadNext; OOpen Input; OOpen Output; OWrite 3 WNone; OReadNext; OClose CloseNormal; OClose CloseNormal; OOpen InOut; ORewrite 3; OReadNext; OWrite 3 WNone; ORewrite 3; OReadNext; OSet [1;2;3]; ORewrite 3; OReadNext; OReadNext; OClose CloseLock; OOpen Input] =
    [(OReadNext, 47); (OOpen Input, 35); (OOpen Output, 0); (OWrite 3 WNone, 0); (OReadNext, 47); (OClose CloseNormal, 0); (OClose CloseNormal, 42); (OOpen InOut, 0); (ORewrite 3, 43); (OReadNext, 0); (OWrite 3 WNone, 48); (ORewrite 3, 43); (OReadNext, 10); (OSet [1;2;3], 10); (ORewrite 3, 43); (OReadNext, 46); (OReadNext, 46); (OClose CloseLock, 0); (OOpen Input, 38)].
Proof. vm_compute. reflexivity. Qed.

(** ** Departures *)

(** A file closed WITH LOCK: READ, WRITE and CLOSE use the closed stream
    (undefined) instead of returning 47, 48 and 42. *)
Theorem C35_lock_refuted : forall o, In o [OReadNext; OWrite 3 WNone; OClose CloseNormal] ->
  run_ops st_io (st_file OrgSequential AccSequential false None) ([OOpen Output; OWrite 3 WNone; OClose CloseLock; o]) = UB.
Proof. intros o I. cbn [In] in I. repeat destruct I as [<-|I]; try reflexivity. contradiction. Qed.
Theorem C35_lock_start_refuted :
  run_ops st_io (st_file OrgRelative AccDynamic false None) [OOpen Output; OClose CloseLock; OStart EQ] = UB.
Proof. reflexivity. Qed.

(** READ NEXT of a file closed after its end had been reached returns 46, not 47. *)
Theorem C35_closed_at_end_refuted : exists g,
  run_ops st_io (st_file OrgSequential AccSequential false (Some [])) [OOpen Input; OReadNext; OClose CloseNormal; OReadNext] = Ok g /\ f_status g = 46.
Proof. eexists. steps. Qed.

(** An OPTIONAL file that does not exist, opened INPUT: the first READ returns
    10, the second 23 instead of 46; even a READ by key returns 10 first; after
    CLOSE a READ returns 23 instead of 47. *)
Theorem C35_optional_refuted : exists g1 g2 g3 g4,
  run_ops st_io (st_file OrgRelative AccDynamic true None) [OOpen Input; OReadNext] = Ok g1 /\ f_status g1 = 10 /\
  run_ops st_io g1 [OReadNext] = Ok g2 /\ f_status g2 = 23 /\
  run_ops st_io (st_file OrgRelative AccDynamic true None) [OOpen Input; OKey 1; ORead] = Ok g3 /\ f_status g3 = 10 /\
  run_ops st_io g3 [OClose CloseNormal; OReadNext] = Ok g4 /\ f_status g4 = 23.
Proof. do 4 eexists. steps. Qed.
(** Opened I-O, a WRITE uses the missing stream. *)
Theorem C35_optional_write_refuted :
  run_ops st_io (st_file OrgRelative AccDynamic true None) [OOpen InOut; OKey 1; OWrite 3 WNone] = UB.
Proof. reflexivity. Qed.
Print Assumptions C35_lock_refuted.
Print Assumptions C35_lock_start_refuted.
Print Assumptions C35_closed_at_end_refuted.
Print Assumptions C35_optional_refuted.
Print Assumptions C35_optional_write_refuted.
