(** C58: results of functions stay intact while at most seven more are made. *)
From Verif Require Import Base BaseFacts Field FuncRing.

Definition call_req := (fattr * nat * list Z)%type.
Definition req_ok (c : call_req) : Prop := (length (snd c) <= snd (fst c))%nat.

(** Calls one after the other; the indices of their results. *)
Fixpoint run_calls (cs : list call_req) (g : ring) : outcome (ring * list nat) :=
  match cs with
  | [] => Ok (g, [])
  | (a, n, d) :: r =>
    do x <- func_call a n d g;
    do y <- run_calls r (fst x);
    Ok (fst y, snd x :: snd y)
  end.

Definition ring_ok (g : ring) : Prop :=
  length (r_entries g) = DEPTH_LEVEL /\ (r_cur g < DEPTH_LEVEL)%nat /\
  Forall (fun e => length (e_block e) = e_calc e /\ (e_size e <= e_calc e)%nat) (r_entries g).

Lemma upd_nth_len : forall A i (x : A) l, length (upd_nth i x l) = length l.
Proof. intros A. induction i; destruct l; cbn; auto. Qed.
Lemma upd_nth_same : forall A i (x : A) l, (i < length l)%nat -> nth_error (upd_nth i x l) i = Some x.
Proof. intros A. induction i; destruct l; cbn; intros; try lia; auto. apply IHi. lia. Qed.
Lemma upd_nth_other : forall A i j (x : A) l, i <> j -> nth_error (upd_nth i x l) j = nth_error l j.
Proof. intros A. induction i; destruct l, j; cbn; intros; try congruence; auto. Qed.
Lemma upd_nth_all : forall A (P : A -> Prop) i x l, P x -> Forall P l -> Forall P (upd_nth i x l).
Proof. intros A P. induction i; destruct l; cbn; intros X F; inversion F; subst; constructor; auto. Qed.

Lemma call_spec : forall a n d g, ring_ok g -> (length d <= n)%nat ->
  exists g', func_call a n d g = Ok (g', r_cur g) /\ ring_ok g' /\
    r_cur g' = (S (r_cur g) mod DEPTH_LEVEL)%nat /\
    entry_field g' (r_cur g) = Some (mkField a d) /\
    (forall j, j <> r_cur g -> entry_field g' j = entry_field g j).
Proof.
  intros a n d g (L & C & F) HD. unfold func_call, make_entry.
  destruct (nth_error (r_entries g) (r_cur g)) as [e|] eqn:NE; [|apply nth_error_None in NE; lia].
  pose proof (proj1 (Forall_forall _ _) F e (nth_error_In _ _ NE)) as (E1 & E2).
  set (next := if (DEPTH_LEVEL <=? S (r_cur g))%nat then 0%nat else S (r_cur g)).
  assert (NX : next = (S (r_cur g) mod DEPTH_LEVEL)%nat).
  { subst next. unfold DEPTH_LEVEL in *. destruct (Nat.leb_spec 8 (S (r_cur g))).
    - replace (S (r_cur g)) with 8%nat by lia. reflexivity.
    - rewrite Nat.mod_small by lia. reflexivity. }
  assert (NB : (next < DEPTH_LEVEL)%nat) by (rewrite NX; apply Nat.mod_upper_bound; unfold DEPTH_LEVEL; lia).
  assert (G : forall blk calc, length blk = calc -> (n <= calc)%nat ->
    let g1 := mkRing next (upd_nth (r_cur g) (mkE a n calc blk) (r_entries g)) in
    exists g', write_entry (r_cur g) d g1 = Ok g' /\ ring_ok g' /\ r_cur g' = next /\
      entry_field g' (r_cur g) = Some (mkField a d) /\ (forall j, j <> r_cur g -> entry_field g' j = entry_field g j)).
  { intros blk calc HB HC g1. unfold write_entry. cbn [g1 r_entries r_cur]. rewrite upd_nth_same by lia. cbn [e_block e_attr e_calc].
    destruct (Nat.ltb_spec (length blk) (length d)); [lia|]. eexists. split; [reflexivity|]. split; [|split; [reflexivity|split]].
    - split; [cbn [r_entries]; now rewrite !upd_nth_len|]. split; [exact NB|]. cbn [r_entries]. apply upd_nth_all.
      + cbn [e_block e_calc e_size]. rewrite app_length, skipn_length. split; lia.
      + apply upd_nth_all; [cbn [e_block e_calc e_size]; lia|exact F].
    - unfold entry_field. cbn [r_entries]. rewrite upd_nth_same by (rewrite upd_nth_len; lia). cbn [e_attr e_size e_block].
      rewrite firstn_app, Nat.sub_diag, firstn_O, app_nil_r, firstn_all. reflexivity.
    - intros j HJ. unfold entry_field. cbn [r_entries]. rewrite !upd_nth_other by auto. reflexivity. }
  destruct (Nat.ltb_spec (e_calc e) n).
  - cbn [obind fst snd]. destruct (G (repeat 0 (S n)) (S n)) as (g' & E & R & CU & EF & O); [apply repeat_length|lia|].
    cbv zeta in E. rewrite E. cbn [obind]. exists g'. rewrite <- NX. auto.
  - destruct (Nat.ltb_spec (length (e_block e)) n); [lia|]. cbn [obind fst snd].
    destruct (G (repeat 0 n ++ skipn n (e_block e)) (e_calc e)) as (g' & E & R & CU & EF & O);
      [rewrite app_length, repeat_length, skipn_length; lia|lia|].
    cbv zeta in E. rewrite E. cbn [obind]. exists g'. rewrite <- NX. auto.
Qed.

Lemma run_calls_spec : forall cs g, ring_ok g -> Forall req_ok cs ->
  exists g' is, run_calls cs g = Ok (g', is) /\ ring_ok g' /\ length is = length cs /\
    (forall k i, nth_error is k = Some i -> i = ((r_cur g + k) mod DEPTH_LEVEL)%nat) /\
    (forall j, (forall k, (k < length cs)%nat -> j <> ((r_cur g + k) mod DEPTH_LEVEL)%nat) -> entry_field g' j = entry_field g j).
Proof.
  induction cs as [|[[a n] d] r IH]; intros g OK F; cbn [run_calls].
  - exists g, []. split; auto. split; auto. split; auto. split; auto. intros k i H. destruct k; discriminate H.
  - inversion F as [|? ? H1 H2]; subst. destruct (call_spec a n d g OK H1) as (g1 & E & OK1 & CU & EF & O). rewrite E. cbn [obind fst snd].
    destruct (IH g1 OK1 H2) as (g' & is & E' & OK' & L & IX & KEEP). rewrite E'. cbn [obind fst snd].
    pose proof OK as (_ & CB & _).
    assert (STEP : forall k, ((r_cur g1 + k) mod DEPTH_LEVEL = (r_cur g + S k) mod DEPTH_LEVEL)%nat).
    { intros k. rewrite CU. rewrite Nat.add_mod_idemp_l by (unfold DEPTH_LEVEL; lia). f_equal. lia. }
    exists g', (r_cur g :: is). split; auto. split; auto. split; [cbn; lia|]. split.
    + intros [|k] i; cbn [nth_error].
      * intros X. injection X as <-. rewrite Nat.add_0_r. now rewrite Nat.mod_small.
      * intros X. rewrite <- STEP. auto.
    + intros j HJ. rewrite KEEP.
      * apply O. specialize (HJ 0%nat ltac:(cbn; lia)). rewrite Nat.add_0_r, Nat.mod_small in HJ by auto. exact HJ.
      * intros k HK. rewrite STEP. apply HJ. cbn [length]. lia.
Qed.

Lemma ring0_ok : ring_ok ring0.
Proof. split; [reflexivity|]. split; [unfold ring0, DEPTH_LEVEL; cbn [r_cur]; lia|]. unfold ring0. cbn [r_entries].
  apply Forall_forall. intros e H. apply repeat_spec in H. subst e. unfold init_entry. cbn [e_block e_calc e_size]. rewrite repeat_length. lia. Qed.

(** After any history of calls (results of any sizes): every further call works
    inside its block, and its result is still intact after up to seven more. *)
Theorem C58_results_kept : forall before a n d more, Forall req_ok before -> (length d <= n)%nat -> Forall req_ok more ->
  (length more <= 7)%nat ->
  exists g0 i0 g1 i g2 is, run_calls before ring0 = Ok (g0, i0) /\ func_call a n d g0 = Ok (g1, i) /\
    run_calls more g1 = Ok (g2, is) /\ entry_field g2 i = Some (mkField a d).
Proof.
  intros before a n d more FB HD FM LM.
  destruct (run_calls_spec before ring0 ring0_ok FB) as (g0 & i0 & E0 & OK0 & _).
  destruct (call_spec a n d g0 OK0 HD) as (g1 & E1 & OK1 & CU & EF & _).
  destruct (run_calls_spec more g1 OK1 FM) as (g2 & is & E2 & OK2 & _ & _ & KEEP).
  exists g0, i0, g1, (r_cur g0), g2, is. repeat split; auto. rewrite KEEP; auto.
  intros k HK. rewrite CU, Nat.add_mod_idemp_l by (unfold DEPTH_LEVEL; lia). destruct OK0 as (_ & CB & _). unfold DEPTH_LEVEL in *.
  intros X. assert (r_cur g0 < 8)%nat by auto. 
  destruct (Nat.lt_ge_cases (S (r_cur g0) + k) 8).
  - rewrite Nat.mod_small in X by lia. lia.
  - replace (S (r_cur g0) + k)%nat with ((S (r_cur g0) + k - 8) + 1 * 8)%nat in X by lia. rewrite Nat.mod_add in X by lia.
    rewrite Nat.mod_small in X by lia. lia.
Qed.
Print Assumptions C58_results_kept.
Definition one (c : Z) : call_req := (no_attr, 1%nat, [c]).
Example C58_ex : exists g is, run_calls (map one [1;2;3;4;5;6;7;8]%Z) ring0 = Ok (g, is) /\
  entry_field g 0 = Some (mkField no_attr [1%Z]) /\ entry_field g 7 = Some (mkField no_attr [8%Z]).
Proof. do 2 eexists. split; [vm_compute; reflexivity|split; vm_compute; reflexivity]. Qed.
(** A ninth result overwrites the first: the arguments of a function with nine
    function arguments are not all intact when it is called. *)
Theorem C58_ninth_refuted : exists g is, run_calls (map one [1;2;3;4;5;6;7;8;9]%Z) ring0 = Ok (g, is) /\
  nth_error is 0 = Some 0%nat /\ entry_field g 0 = Some (mkField no_attr [9%Z]).
Proof. do 2 eexists. split; [vm_compute; reflexivity|split; vm_compute; reflexivity]. Qed.
Print Assumptions C58_ninth_refuted.
