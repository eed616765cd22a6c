(** SEQUENTIAL and LINE SEQUENTIAL files: C33, C34. *)
From Verif Require Import Base BaseFacts Stdio StdioProofs FileIO SpecFile SpecSeq RelHist RelNext SeqHist SeqInst LineInst.

Lemma Forall2_len : forall A B (R : A -> B -> Prop) l m, Forall2 R l m -> length l = length m.
Proof. intros A B R l m H. induction H; cbn [length]; auto. Qed.

(** ** Consequences of the rules: writing records and reading them back *)
Section Cycle.
Variables (lo hi : nat) (cr ex : bool) (keeps : list Z -> list Z -> Prop) (fetch : list Z -> list Z -> list Z).
Notation steps := (seq_steps lo hi cr ex keeps fetch).
Notation step := (seq_step lo hi cr ex keeps fetch).

Lemma steps_app : forall xs ys s s'', steps s (xs ++ ys) s'' -> exists s', steps s xs s' /\ steps s' ys s''.
Proof.
  induction xs as [|x xs IH]; intros ys s s'' H; cbn [app] in H.
  - exists s. split; [constructor|exact H].
  - inversion H as [|? ? s1 ? ? S1 S2]; subst. destruct (IH ys s1 s'' S2) as (s' & A & B). exists s'. split; [econstructor; eauto|exact B].
Qed.
Lemma steps_one : forall s o os s'', steps s (o :: os) s'' -> exists s', step s o s' /\ steps s' os s''.
Proof. intros s o os s'' H. inversion H; subst. eauto. Qed.
Lemma steps_nil : forall s s'', steps s [] s'' -> s'' = s.
Proof. intros s s'' H. inversion H; auto. Qed.

Definition put_rec (x : wopt) (r : nat * list Z) : list op := [ODep (Z.of_nat (fst r)); OSet (snd r); OWrite (fst r) x].

Lemma write_one : forall x r p e w a l s n d st, steps (mkQ Output (Some r) p e w a l s) (put_rec x (n, d)) st ->
  (lo <= n <= hi)%nat -> exists t, keeps (firstn n d) t /\ st = mkQ Output (Some (r ++ [t])) p e false d (set_len l (Z.of_nat n)) 0.
Proof.
  intros x r p e w a l s n d st H N. unfold put_rec in H. cbn [fst snd] in H.
  apply steps_one in H. destruct H as (s1 & S1 & H). inversion S1; subst. clear S1.
  apply steps_one in H. destruct H as (s2 & S2 & H). inversion S2; subst. clear S2.
  apply steps_one in H. destruct H as (s3 & S3 & H). apply steps_nil in H. subst.
  assert (WL : wlen (set_len l (Z.of_nat n)) n = Z.of_nat n) by (destruct l; reflexivity).
  inversion S3; subst; rewrite ?WL in *; try discriminate; try lia.
  exists t. rewrite Nat2Z.id in *. auto.
Qed.
Lemma write_all : forall x recs r p e w a l s st, steps (mkQ Output (Some r) p e w a l s) (flat_map (put_rec x) recs) st ->
  Forall (fun q => (lo <= fst q <= hi)%nat) recs ->
  exists ts w' a' l' s', Forall2 (fun q t => keeps (firstn (fst q) (snd q)) t) recs ts /\ st = mkQ Output (Some (r ++ ts)) p e w' a' l' s' /\ (l = None -> l' = None) /\ (l <> None -> l' <> None).
Proof.
  induction recs as [|[n d] recs IH]; intros r p e w a l s st H F.
  - apply steps_nil in H. subst. exists [], w, a, l, s. rewrite app_nil_r. auto.
  - apply Forall_cons_iff in F. destruct F as [F1 F]. change (flat_map (put_rec x) ((n, d) :: recs)) with (put_rec x (n, d) ++ flat_map (put_rec x) recs) in H.
    apply steps_app in H. destruct H as (s1 & H1 & H2). destruct (write_one x r p e w a l s n d s1 H1 F1) as (t & K & ->).
    destruct (IH _ _ _ _ _ _ _ _ H2 F) as (ts & w' & a' & l' & s' & A & B & C & D). exists (t :: ts), w', a', l', s'.
    rewrite <- app_assoc in B. split; [constructor; auto|]. split; [exact B|]. split; intros X.
    + apply C. subst l. reflexivity.
    + apply D. destruct l; [discriminate|contradiction].
Qed.
Lemma read_all : forall k r p w a l s st, steps (mkQ Input (Some r) p false w a l s) (repeat OReadNext (S k)) st -> (p + k <= length r)%nat ->
  match nth_error r (p + k) with
  | Some t => q_status st = 0 /\ (exists a', q_area st = fetch a' t /\ (k = 0%nat -> a' = a)) /\ q_len st = set_len l (Z.of_nat (length t))
  | None => q_status st = 10
  end.
Proof.
  induction k as [|k IH]; intros r p w a l s st H B.
  - rewrite Nat.add_0_r. cbn [repeat] in H. apply steps_one in H. destruct H as (s1 & S1 & H). apply steps_nil in H. subst.
    inversion S1; subst; try discriminate.
    + match goal with E : nth_error r p = Some _ |- _ => rewrite E end. cbn [q_status q_area q_len]. eauto.
    + match goal with E : nth_error r p = None |- _ => rewrite E end. reflexivity.
  - cbn [repeat] in H. apply steps_one in H. destruct H as (s1 & S1 & H). inversion S1; subst; try discriminate.
    + specialize (IH _ _ _ _ _ _ _ H ltac:(lia)). replace (p + S k)%nat with (S p + k)%nat by lia.
      destruct (nth_error r (S p + k)) as [u|]; auto. destruct IH as (A & (a' & B1 & B2) & C). split; auto. split; [exists a'; split; [auto|discriminate]|]. rewrite C. destruct l; reflexivity.
    + match goal with E : nth_error r p = None |- _ => apply nth_error_None in E; lia end.
Qed.

(** OPEN OUTPUT, WRITE every record, CLOSE, OPEN INPUT, READ k+1 times. *)
Definition cycle_ops (x : wopt) (recs : list (nat * list Z)) (k : nat) : list op :=
  OOpen Output :: flat_map (put_rec x) recs ++ OClose CloseNormal :: OOpen Input :: repeat OReadNext (S k).
Lemma cycle : forall x recs k f p e w a l s st, steps (mkQ Closed f p e w a l s) (cycle_ops x recs k) st ->
  Forall (fun q => (lo <= fst q <= hi)%nat) recs -> (k <= length recs)%nat ->
  exists ts, Forall2 (fun q t => keeps (firstn (fst q) (snd q)) t) recs ts /\
  match nth_error ts k with
  | Some t => q_status st = 0 /\ (exists a', q_area st = fetch a' t) /\ q_len st = set_len l (Z.of_nat (length t))
  | None => q_status st = 10
  end.
Proof.
  intros x recs k f p e w a l s st H F K. unfold cycle_ops in H. apply steps_one in H. destruct H as (s1 & S1 & H).
  inversion S1; subst; try discriminate; try congruence.
  2:{ exfalso; intuition discriminate. }
  2:{ exfalso; intuition discriminate. }
  apply steps_app in H. destruct H as (s2 & H1 & H2). destruct (write_all x recs [] _ _ _ _ _ _ _ H1 F) as (ts & w' & a' & l' & s' & A & B & C & D).
  subst s2. cbn [app] in H2. exists ts. split; auto.
  apply steps_one in H2. destruct H2 as (s3 & S3 & H2). inversion S3; subst.
  apply steps_one in H2. destruct H2 as (s4 & S4 & H2). inversion S4; subst; try congruence.
  pose proof (Forall2_len _ _ _ _ _ A) as LA. pose proof (read_all k _ 0 _ _ _ _ _ H2 ltac:(lia)) as R. cbn [Nat.add] in R.
  destruct (nth_error ts k) as [t|]; auto. destruct R as (R1 & (a2 & R2 & _) & R3). split; auto. split; [eauto|]. rewrite R3.
  destruct l as [v|]; [destruct l'; [reflexivity|exfalso; apply D; [discriminate|auto]]|rewrite C; auto].
Qed.
End Cycle.

Lemma start_view : forall org lo hi ld l0 disk f enc valid (okarea : list Z -> Prop) sized recs,
  seq_declared org lo hi ld l0 disk f -> okarea (f_data f) -> disk = option_map (encs enc) recs -> (forall r, recs = Some r -> Forall valid r) ->
  (lo = hi \/ sized = true -> forall v, l0 = Some v -> v <= Z.of_nat hi) -> (lo = hi -> sized = false -> l0 = None) ->
  seq_view org lo hi ld enc valid okarea sized f (mkQ Closed recs 0 false false (f_data f) l0 (f_status f)).
Proof.
  intros org lo hi ld l0 disk f enc valid okarea sized recs [D1 D2 D3 D4 D5 D6 D7 D8 D9 D10 D11 D12 D13 D14 D15] OK DK FV LM FX.
  constructor; cbn [q_open q_file q_next q_eof q_done q_area q_len q_status]; auto; try discriminate.
  unfold stream_ok. cbn [q_open q_file]. congruence.
Qed.

(** ** C34: SEQUENTIAL files *)

Lemma seq_hist : forall c lo hi ld f st ops, (1 <= lo <= hi)%nat -> Z.of_nat hi < prefix_max (io_varseq c) -> Z.of_nat hi < 10 ^ ld ->
  seq_view OrgSequential lo hi ld (enc_rec c lo hi) (valid_rec lo hi) (fun _ => True) false f st -> Forall (seq_op lo hi ld) ops ->
  exists f' st', run_ops c f ops = Ok f' /\ seq_steps lo hi (io_creates c) (io_ext_creates c) seq_keeps seq_fetch st ops st' /\
    seq_view OrgSequential lo hi ld (enc_rec c lo hi) (valid_rec lo hi) (fun _ => True) false f' st'.
Proof.
  intros c lo hi ld f st ops LO PM LD V FO.
  apply (seq_history c OrgSequential lo hi ld seq_keeps seq_fetch (enc_rec c lo hi) (valid_rec lo hi) (fun _ => True) (seq_op lo hi ld) false); auto.
  - intros. eapply seq_write_ok; eauto.
  - intros f0 t A B H1 H2 H3 H4 H5 H6 H7 H8. exact (seq_read_ok c lo hi LO PM f0 t A B H1 H2 H3 H4 H5 H6 H7 H8).
  - intros. eapply seq_end_ok; eauto.
  - intros. eapply seq_rewrite_ok; eauto.
  - intros o O. destruct o; cbn [seq_op] in O; auto.
    + destruct O as [_ O]. split; [intros [X|X]; [rewrite (O X); lia|discriminate]|auto].
    + split; [auto|discriminate].
  - intros t VT. unfold valid_rec in VT. lia.
  - discriminate.
Qed.

(** Every history of OPEN, CLOSE, READ, WRITE, REWRITE behaves as the rules of
    a list of records say; another program that uses the file afterwards finds
    that list. *)
Theorem C34_history : forall c lo hi ld l0 f ops, seq_declared OrgSequential lo hi ld l0 None f ->
  (1 <= lo <= hi)%nat -> Z.of_nat hi < prefix_max (io_varseq c) -> Z.of_nat hi < 10 ^ ld -> (lo = hi -> l0 = None) ->
  Forall (seq_op lo hi ld) ops ->
  exists f' st', run_ops c f ops = Ok f' /\
    seq_steps lo hi (io_creates c) (io_ext_creates c) seq_keeps seq_fetch (mkQ Closed None 0 false false (f_data f) l0 (f_status f)) ops st' /\
    sees ld f' st' /\
    (q_open st' = Closed -> forall ld1 l1 g ops1, seq_declared OrgSequential lo hi ld1 l1 (f_disk f') g -> Z.of_nat hi < 10 ^ ld1 -> (lo = hi -> l1 = None) ->
       Forall (seq_op lo hi ld1) ops1 ->
       exists g' st1, run_ops c g ops1 = Ok g' /\
         seq_steps lo hi (io_creates c) (io_ext_creates c) seq_keeps seq_fetch (mkQ Closed (q_file st') 0 false false (f_data g) l1 (f_status g)) ops1 st1 /\
         sees ld1 g' st1).
Proof.
  intros c lo hi ld l0 f ops D LO PM LD FX FO.
  destruct (seq_hist c lo hi ld f (mkQ Closed None 0 false false (f_data f) l0 (f_status f)) ops) as (f' & st' & E & S & V); auto.
  { eapply start_view; eauto; [discriminate|]. intros [X|X]; [rewrite (FX X); discriminate|discriminate]. }
  exists f', st'. split; [exact E|]. split; [exact S|].
  split; [destruct V; unfold sees; auto|].
  intros QO ld1 l1 g ops1 D1 LD1 FX1 FO1.
  destruct (seq_hist c lo hi ld1 g (mkQ Closed (q_file st') 0 false false (f_data g) l1 (f_status g)) ops1) as (g' & st1 & E1 & S1 & V1); auto.
  { eapply start_view; eauto.
    - destruct V. unfold stream_ok in w_file. rewrite QO in w_file. exact w_file.
    - destruct V. exact w_valid.
    - intros [X|X]; [rewrite (FX1 X); discriminate|discriminate]. }
  exists g', st1. split; [exact E1|]. split; [exact S1|]. destruct V1; unfold sees; auto.
Qed.
Print Assumptions C34_history.

(** In particular every sequence of records survives a write/read cycle. *)
Theorem C34_cycle : forall c lo hi ld l0 f (recs : list (nat * list Z)) k, seq_declared OrgSequential lo hi ld l0 None f ->
  (1 <= lo <= hi)%nat -> Z.of_nat hi < prefix_max (io_varseq c) -> Z.of_nat hi < 10 ^ ld -> (lo = hi -> l0 = None) ->
  Forall (fun r => (lo <= fst r <= hi)%nat /\ length (snd r) = hi) recs -> (k <= length recs)%nat ->
  exists f', run_ops c f (cycle_ops WNone recs k) = Ok f' /\
    match nth_error recs k with
    | Some (n, d) => f_status f' = 0 /\ (exists rest, f_data f' = firstn n d ++ rest) /\
                     f_dep f' = (match l0 with Some _ => Some (mkItem (Z.of_nat n) ld) | None => None end)
    | None => f_status f' = 10
    end.
Proof.
  intros c lo hi ld l0 f recs k D LO PM LD FX FR K.
  assert (FO : Forall (seq_op lo hi ld) (cycle_ops WNone recs k)).
  { constructor; [cbn; auto|]. apply Forall_app. split.
    - apply Forall_forall. intros o O. apply in_flat_map in O. destruct O as ([n d] & I1 & I2). pose proof (proj1 (Forall_forall _ _) FR _ I1) as [R1 R2]. cbn [fst snd] in *.
      destruct I2 as [<-|[<-|[<-|[]]]]; cbn [seq_op fst snd]; try lia. split; [auto|lia].
    - constructor; [reflexivity|]. constructor; [cbn; auto|]. apply Forall_forall. intros o O. apply repeat_spec in O. subst. exact I. }
  destruct (C34_history c lo hi ld l0 f _ D LO PM LD FX FO) as (f' & st' & E & S & (A1 & A2 & A3 & A4) & _).
  exists f'. split; [exact E|].
  destruct (cycle lo hi _ _ seq_keeps seq_fetch WNone recs k _ _ _ _ _ _ _ _ S) as (ts & T & R); [eapply Forall_impl; [|exact FR]; intros r [X _]; exact X|exact K|].
  pose proof (Forall2_len _ _ _ _ _ T) as LT. destruct (nth_error recs k) as [[n d]|] eqn:N.
  - assert (NT : nth_error ts k = Some (firstn n d)).
    { clear - T N. revert k N. induction T as [|q t recs ts KP T IH]; intros k N; [destruct k; discriminate|]. destruct k as [|k].
      - injection N as ->. cbn [fst snd] in KP. cbn [nth_error]. f_equal. exact KP.
      - exact (IH k N). }
    rewrite NT in R. destruct R as (R1 & (a' & R2) & R3). split; [congruence|]. split; [exists (skipn (length (firstn n d)) a'); rewrite A2; exact R2|].
    rewrite A4, R3. pose proof (proj1 (Forall_forall _ _) FR _ (nth_error_In _ _ N)) as [X1 X2]. cbn [fst snd] in X1, X2.
    rewrite firstn_length. replace (Nat.min n (length d)) with n by lia. destruct l0; reflexivity.
  - assert (NT : nth_error ts k = None) by (apply nth_error_None; apply nth_error_None in N; lia). rewrite NT in R. congruence.
Qed.
Print Assumptions C34_cycle.

(** Concrete files: records of [lo] to 3 bytes. *)
Ltac steps := repeat (match goal with |- _ /\ _ => split; [vm_compute; reflexivity|] end); vm_compute; reflexivity.
Definition io_v (v : nat) : iocfg := mkIO v false false false false.
Definition sq_file (org : organization) (lo hi : nat) (dep : option item) (disk : option (list Z)) : cfile :=
  mkFile org AccSequential false lo hi dep None (repeat 32 hi) hi Closed false false false 0 false false None disk 0.
Example C34_hyp : seq_declared OrgSequential 1 3 2 (Some 0) None (sq_file OrgSequential 1 3 (Some (mkItem 0 2)) None).
Proof. constructor; try reflexivity. intros v E. injection E as <-. lia. Qed.
(** Two records of different lengths; REWRITE of the first; a third appended. *)
Example C34_ex : exists f1 f2 f3 f4,
  run_ops (io_v 0) (sq_file OrgSequential 1 3 (Some (mkItem 0 2)) None)
    [OOpen Output; ODep 2; OSet [65;66;32]; OWrite 2 WNone; ODep 3; OSet [67;68;69]; OWrite 3 WNone; OClose CloseNormal;
     OOpen Extend; ODep 1; OSet [70;32;32]; OWrite 1 WNone; OClose CloseNormal;
     OOpen InOut; OReadNext; OSet [88;89;32]; ORewrite 2; OReadNext; OReadNext] = Ok f1 /\ f_data f1 = [70;68;69] /\ f_dep f1 = Some (mkItem 1 2) /\
  run_ops (io_v 0) f1 [OReadNext] = Ok f2 /\ f_status f2 = 10 /\
  run_ops (io_v 0) f2 [OReadNext] = Ok f3 /\ f_status f3 = 46 /\
  run_ops (io_v 0) f3 [OClose CloseNormal; OOpen Input; OReadNext] = Ok f4 /\ f_data f4 = [88;89;69].
Proof. do 4 eexists. steps. Qed.

(** The bound on the record length is needed: with the default prefix a record
    of 65536 bytes is written with status 00 and read back, with status 00, as
    a record of length 0. *)
Theorem C34_prefix_refuted : let hi := Z.to_nat 65536 in
  (do f1 <- run_ops (io_v 0) (sq_file OrgSequential 1 hi (Some (mkItem 65536 5)) None) [OOpen Output; OWrite hi WNone];
   do f2 <- run_ops (io_v 0) f1 [OClose CloseNormal; OOpen Input; OReadNext];
   Ok (f_status f1, f_status f2, f_dep f2)) = Ok (0, 0, Some (mkItem 0 5)).
Proof. vm_compute. reflexivity. Qed.
(** A record of length 0: WRITE reports an error (status 30), but the record is
    in the file. *)
Theorem C34_zero_refuted : exists f1 f2,
  run_ops (io_v 0) (sq_file OrgSequential 0 3 (Some (mkItem 0 2)) None) [OOpen Output; OWrite 3 WNone] = Ok f1 /\ f_status f1 = 30 /\
  run_ops (io_v 0) f1 [OClose CloseNormal; OOpen Input; OReadNext] = Ok f2 /\ f_status f2 = 0 /\ f_dep f2 = Some (mkItem 0 2).
Proof. do 2 eexists. steps. Qed.
(** A file of another program with longer records: READ writes past the end of
    the record area. *)
Theorem C34_longer_record_refuted : exists f1,
  run_ops (io_v 0) (sq_file OrgSequential 1 5 (Some (mkItem 5 2)) None) [OOpen Output; OWrite 5 WNone; OClose CloseNormal] = Ok f1 /\ f_status f1 = 0 /\
  run_ops (io_v 0) (sq_file OrgSequential 1 3 (Some (mkItem 0 2)) (f_disk f1)) [OOpen Input; OReadNext] = UB.
Proof. eexists. steps. Qed.
Print Assumptions C34_prefix_refuted.
Print Assumptions C34_zero_refuted.
Print Assumptions C34_longer_record_refuted.

(** ** C33: LINE SEQUENTIAL files *)

Lemma line_hist : forall c hi ld f st ops, Z.of_nat hi < 10 ^ ld ->
  seq_view OrgLineSequential 0 hi ld (enc_line c) (valid_line c hi) (line_text (io_nulls c)) true f st -> Forall (line_op (io_nulls c) hi ld) ops ->
  exists f' st', run_ops c f ops = Ok f' /\ seq_steps 0 hi (io_creates c) (io_ext_creates c) (line_keeps (io_fixed c)) line_fetch st ops st' /\
    seq_view OrgLineSequential 0 hi ld (enc_line c) (valid_line c hi) (line_text (io_nulls c)) true f' st'.
Proof.
  intros c hi ld f st ops LD V FO.
  apply (seq_history c OrgLineSequential 0 hi ld (line_keeps (io_fixed c)) line_fetch (enc_line c) (valid_line c hi) (line_text (io_nulls c)) (line_op (io_nulls c) hi ld) true); auto.
  - intros. eapply line_write_ok; eauto.
  - intros f0 t A B H1 H2 H3 H4 H5 H6 H7 H8. exact (line_read_ok c hi f0 t A B H1 H2 H3 H4 H5 H6 H7 H8).
  - intros. eapply line_end_ok; eauto.
  - intros f0 A t B n X. cbn [line_op] in X. contradiction.
  - split; [auto|]. split; [intros n X; exact X|]. cbn. intuition discriminate.
  - intros o O. destruct o; cbn [line_op] in O; auto; try tauto.
    + destruct O as [O1 O2]. split; [intros _; exact O2|discriminate].
  - intros t [VT _]. exact VT.
Qed.

(** Every history of OPEN, CLOSE, READ, WRITE behaves as the rules of a list of
    lines say, whatever COB_LS_NULLS and COB_LS_FIXED are. *)
Theorem C33_history : forall c hi ld l0 f ops, seq_declared OrgLineSequential 0 hi ld l0 None f -> Z.of_nat hi < 10 ^ ld ->
  (forall v, l0 = Some v -> v <= Z.of_nat hi) -> line_text (io_nulls c) (f_data f) -> Forall (line_op (io_nulls c) hi ld) ops ->
  exists f' st', run_ops c f ops = Ok f' /\
    seq_steps 0 hi (io_creates c) (io_ext_creates c) (line_keeps (io_fixed c)) line_fetch (mkQ Closed None 0 false false (f_data f) l0 (f_status f)) ops st' /\
    sees ld f' st' /\
    (q_open st' = Closed -> forall ld1 l1 g ops1, seq_declared OrgLineSequential 0 hi ld1 l1 (f_disk f') g -> Z.of_nat hi < 10 ^ ld1 ->
       (forall v, l1 = Some v -> v <= Z.of_nat hi) -> line_text (io_nulls c) (f_data g) -> Forall (line_op (io_nulls c) hi ld1) ops1 ->
       exists g' st1, run_ops c g ops1 = Ok g' /\
         seq_steps 0 hi (io_creates c) (io_ext_creates c) (line_keeps (io_fixed c)) line_fetch (mkQ Closed (q_file st') 0 false false (f_data g) l1 (f_status g)) ops1 st1 /\
         sees ld1 g' st1).
Proof.
  intros c hi ld l0 f ops D LD LM TX FO.
  destruct (line_hist c hi ld f (mkQ Closed None 0 false false (f_data f) l0 (f_status f)) ops) as (f' & st' & E & S & V); auto.
  { eapply start_view; eauto; discriminate. }
  exists f', st'. split; [exact E|]. split; [exact S|].
  split; [destruct V; unfold sees; auto|].
  intros QO ld1 l1 g ops1 D1 LD1 LM1 TX1 FO1.
  destruct (line_hist c hi ld1 g (mkQ Closed (q_file st') 0 false false (f_data g) l1 (f_status g)) ops1) as (g' & st1 & E1 & S1 & V1); auto.
  { eapply start_view; eauto; [| |discriminate].
    - destruct V. unfold stream_ok in w_file. rewrite QO in w_file. exact w_file.
    - destruct V. exact w_valid. }
  exists g', st1. split; [exact E1|]. split; [exact S1|]. destruct V1; unfold sees; auto.
Qed.
Print Assumptions C33_history.

(** In particular every sequence of records survives a write/read cycle,
    trailing spaces aside. *)
Theorem C33_cycle : forall c hi ld l0 f (recs : list (nat * list Z)) k, seq_declared OrgLineSequential 0 hi ld l0 None f -> Z.of_nat hi < 10 ^ ld ->
  (forall v, l0 = Some v -> v <= Z.of_nat hi) -> line_text (io_nulls c) (f_data f) ->
  Forall (fun r => (fst r <= hi)%nat /\ length (snd r) = hi /\ line_text (io_nulls c) (snd r)) recs -> (k <= length recs)%nat ->
  exists f', run_ops c f (cycle_ops (WBefore (AdvLines 1)) recs k) = Ok f' /\
    match nth_error recs k with
    | Some (n, d) => f_status f' = 0 /\ f_data f' = firstn n d ++ repeat 32 (hi - n)
    | None => f_status f' = 10
    end.
Proof.
  intros c hi ld l0 f recs k D LD LM TX FR K.
  assert (FO : Forall (line_op (io_nulls c) hi ld) (cycle_ops (WBefore (AdvLines 1)) recs k)).
  { constructor; [cbn; auto|]. apply Forall_app. split.
    - apply Forall_forall. intros o O. apply in_flat_map in O. destruct O as ([n d] & I1 & I2). pose proof (proj1 (Forall_forall _ _) FR _ I1) as (R1 & R2 & R3). cbn [fst snd] in *.
      destruct I2 as [<-|[<-|[<-|[]]]]; cbn [line_op fst snd]; auto; lia.
    - constructor; [reflexivity|]. constructor; [cbn; auto|]. apply Forall_forall. intros o O. apply repeat_spec in O. subst. exact I. }
  destruct (C33_history c hi ld l0 f _ D LD LM TX FO) as (f' & st' & E & S & (A1 & A2 & A3 & A4) & _).
  exists f'. split; [exact E|].
  assert (LA : length (q_area st') = hi).
  { destruct (line_hist c hi ld f (mkQ Closed None 0 false false (f_data f) l0 (f_status f)) (cycle_ops (WBefore (AdvLines 1)) recs k)) as (f2 & st2 & E2 & S2 & V2); auto.
    { eapply start_view; eauto; discriminate. }
    rewrite E in E2. injection E2 as <-. destruct V2. rewrite <- A2. congruence. }
  destruct (cycle 0 hi _ _ (line_keeps (io_fixed c)) line_fetch (WBefore (AdvLines 1)) recs k _ _ _ _ _ _ _ _ S) as (ts & T & R); [eapply Forall_impl; [|exact FR]; intros r (X & _ & _); lia|exact K|].
  pose proof (Forall2_len _ _ _ _ _ T) as LT. destruct (nth_error recs k) as [[n d]|] eqn:N.
  - assert (NT : exists t, nth_error ts k = Some t /\ line_keeps (io_fixed c) (firstn n d) t).
    { clear - T N. revert k N. induction T as [|q t recs ts KP T IH]; intros k N; [destruct k; discriminate|]. destruct k as [|k].
      - injection N as ->. cbn [fst snd] in KP. exists t. split; [reflexivity|exact KP].
      - exact (IH k N). }
    destruct NT as (t & NT & KP). rewrite NT in R. destruct R as (R1 & (a' & R2) & R3). split; [congruence|]. rewrite A2, R2.
    pose proof (proj1 (Forall_forall _ _) FR _ (nth_error_In _ _ N)) as (X1 & X2 & _). cbn [fst snd] in X1, X2.
    rewrite R2 in LA. unfold line_fetch in *. rewrite app_length, repeat_length in LA.
    assert (LN : length (firstn n d) = n) by (rewrite firstn_length; lia).
    assert (KE : exists j, firstn n d = t ++ repeat 32 j).
    { unfold line_keeps in KP. destruct (io_fixed c); [exists 0%nat; rewrite app_nil_r; auto|]. destruct KP as [KP _]. exact KP. }
    destruct KE as (j & KE). rewrite KE. rewrite KE, app_length, repeat_length in LN. rewrite <- app_assoc, <- repeat_app. do 2 f_equal. lia.
  - assert (NT : nth_error ts k = None) by (apply nth_error_None; apply nth_error_None in N; lia). rewrite NT in R. congruence.
Qed.
Print Assumptions C33_cycle.

Example C33_hyp : seq_declared OrgLineSequential 0 3 2 None None (sq_file OrgLineSequential 0 3 None None).
Proof. constructor; try reflexivity. discriminate. Qed.
Definition line1 : wopt := WBefore (AdvLines 1).
Example C33_ex : exists f1 f2 f3,
  run_ops (io_v 0) (sq_file OrgLineSequential 0 3 None None) [OOpen Output; OSet [65;66;32]; OWrite 3 line1; OSet [32;32;32]; OWrite 3 line1; OClose CloseNormal] = Ok f1 /\
  f_disk f1 = Some [65;66;10;10] /\
  run_ops (io_v 0) f1 [OOpen Input; OReadNext] = Ok f2 /\ f_data f2 = [65;66;32] /\
  run_ops (io_v 0) f2 [OReadNext; OReadNext] = Ok f3 /\ f_status f3 = 10.
Proof. do 3 eexists. steps. Qed.

(** Without COB_LS_NULLS a record containing a line feed is read back as two
    records, and a carriage return is lost. *)
Theorem C33_control_refuted : exists f1 f2 f3,
  run_ops (io_v 0) (sq_file OrgLineSequential 0 3 None None) [OOpen Output; OSet [65;10;66]; OWrite 3 line1; OSet [13;67;68]; OWrite 3 line1; OClose CloseNormal; OOpen Input; OReadNext] = Ok f1 /\
  f_status f1 = 0 /\ f_data f1 = [65;32;32] /\
  run_ops (io_v 0) f1 [OReadNext] = Ok f2 /\ f_status f2 = 0 /\ f_data f2 = [66;32;32] /\
  run_ops (io_v 0) f2 [OReadNext] = Ok f3 /\ f_status f3 = 0 /\ f_data f3 = [67;68;32].
Proof. do 3 eexists. steps. Qed.
(** WRITE ... AFTER ADVANCING 1 LINE puts an empty line before every record:
    two records are read back as four. *)
Theorem C33_after_refuted : exists f1 f2,
  run_ops (io_v 0) (sq_file OrgLineSequential 0 3 None None) [OOpen Output; OSet [65;66;67]; OWrite 3 (WAfter (AdvLines 1)); OWrite 3 (WAfter (AdvLines 1)); OClose CloseNormal; OOpen Input; OReadNext] = Ok f1 /\
  f_status f1 = 0 /\ f_data f1 = [32;32;32] /\
  run_ops (io_v 0) f1 [OReadNext; OReadNext; OReadNext] = Ok f2 /\ f_status f2 = 0.
Proof. do 2 eexists. steps. Qed.
(** After a WRITE refused for its length (status 44) the length stays in the
    file: a later READ of a line longer than the record writes past the record
    area.  Without the refused WRITE the line is truncated. *)
Theorem C33_refused_refuted :
  run_ops (io_v 0) (sq_file OrgLineSequential 0 3 (Some (mkItem 0 2)) (Some [65;66;67;68;69;10])) [OOpen Extend; ODep 9; OWrite 3 line1; OClose CloseNormal; OOpen Input; OReadNext] = UB /\
  exists f1 f2, run_ops (io_v 0) (sq_file OrgLineSequential 0 3 (Some (mkItem 0 2)) (Some [65;66;67;68;69;10])) [OOpen Extend; ODep 9; OWrite 3 line1] = Ok f1 /\ f_status f1 = 44 /\
    run_ops (io_v 0) (sq_file OrgLineSequential 0 3 (Some (mkItem 0 2)) (Some [65;66;67;68;69;10])) [OOpen Input; OReadNext] = Ok f2 /\ f_data f2 = [65;66;67].
Proof. split; [vm_compute; reflexivity|]. do 2 eexists. steps. Qed.
Print Assumptions C33_control_refuted.
Print Assumptions C33_after_refuted.
Print Assumptions C33_refused_refuted.
