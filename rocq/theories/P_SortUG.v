(** C76: SORT ... USING ... GIVING. *)
From Coq Require Import Sorting.Permutation Sorting.Sorted.
From Verif Require Import Base Field Numeric Compare MoveAll BaseFacts Stdio StdioProofs FileIO FileSort SpecFile SpecSeq RelHist RelNext SeqHist SeqInst LineInst P_Seq
  SpecCmp SpecSort SpecFileSort SortProofs SortFiles SortHist P_FileSort SortUG SpecSortUG SortUGThm.

Lemma start_inv : forall K size memory area, (4 <= memory / (size + 32))%nat -> sort_rec K size area ->
  SortHist.inv K size (memory / (size + 32)) 1 (sort_init K size memory area None) (mkS [] None area None 0 0).
Proof.
  intros K size m area M A.
  left. exists [], [], [], []. split; [|discriminate]. constructor; try reflexivity; try solve [constructor]; try solve [left; auto]; try (cbn [length]; lia).
  - constructor; try reflexivity; auto. intros _. constructor.
  - unfold holds, wok, done_of, new_stream. cbn. repeat split; auto.
  - unfold holds, wok, done_of, new_stream. cbn. repeat split; auto.
Qed.

Section Main.
Variables (c : iocfg) (K : sortkeys) (size cob_sort_memory : nat) (area : list Z) (k : nat -> kind) (rs : nat -> option (list (list Z))).
Variables (inputs outputs : list nat) (fs : world) (fuel : nat).

(** SORT, whatever the sizes, kinds and number of files and records: the
    statement succeeds and every GIVING file contains exactly the records of
    the USING files, in order by the keys and, for equal keys, in the order in
    which they were read; each record is truncated or filled with spaces to the
    sort file's record and then to the file's record.  The USING files are as
    before; a USING file that does not exist counts as empty.  A file may be
    named in both phrases, and several times after USING. *)
Theorem C76_sort_statement :
  (4 <= cob_sort_memory / (size + 32))%nat -> sort_rec K size area ->
  (forall i, In i inputs -> contains c (k i) (rs i) (fs i)) ->
  (forall i, In i outputs -> contains c (k i) (rs i) (fs i) /\ whole (k i) /\ f_dep (fs i) = None) -> NoDup outputs ->
  Forall (sort_rec K size) (all_records size rs inputs) -> Z.of_nat (length (all_records size rs inputs)) + 1 < 2 ^ 64 ->
  (forall i r, In i outputs -> In r (all_records size rs inputs) -> text_ok c (k i) r) ->
  (length (all_records size rs inputs) < fuel)%nat ->
  exists fs' out,
    sort_statement fuel c K size cob_sort_memory area inputs outputs fs = Ok (0, 0, fs') /\
    in_order K (map (fun r => (Z.of_nat size, r)) (all_records size rs inputs)) out /\
    (forall i, In i outputs -> exists ts, contains c (k i) (Some ts) (fs' i) /\ f_status (fs' i) = 0 /\
       Forall2 (fun x t => k_keeps c (k i) (fit (longest (k i)) (snd x)) t) out ts) /\
    (forall i, In i inputs -> ~ In i outputs -> contains c (k i) (rs i) (fs' i) /\ f_status (fs' i) = match rs i with None => 42 | Some _ => 0 end) /\
    (forall i, ~ In i inputs -> ~ In i outputs -> fs' i = fs i).
Proof.
  intros MEM AR IN OUT ND SR N TX FU. unfold sort_statement.
  assert (LA : length (all_records size rs inputs) = length (flat_map (fun i => records (rs i)) inputs)) by (unfold all_records; apply map_length).
  destruct (use_ok K size _ MEM c k rs fuel inputs _ _ fs IN ltac:(lia) (start_inv K size cob_sort_memory area MEM AR) eq_refl eq_refl eq_refl eq_refl SR)
    as (h1 & fs1 & st1 & E1 & I1 & A1 & A2 & A3 & A4 & A5 & A6 & A7 & A8); [exact N|].
  cbn [s_in app] in A1. rewrite E1. cbn [obind]. unfold sort_giving.
  assert (OUT1 : forall i, In i outputs -> contains c (k i) (rs i) (fs1 i) /\ f_dep (fs1 i) = None).
  { intros i J. destruct (OUT i J) as (C & _ & D). split; [|exact (A8 i D)].
    destruct (in_dec Nat.eq_dec i inputs) as [J'|J']; [exact (proj1 (A6 i J'))|]. rewrite (A7 i J'). exact C. }
  assert (OPN : forall i, In i outputs -> exists f, run_op c (fs1 i) (OOpen Output) = Ok f /\ giving_state c (k i) [] f).
  { intros i J. destruct (OUT1 i J) as ((ld & l & A) & D). pose proof (ar_good _ _ _ _ _ _ A) as G. pose proof (ar_dep _ _ _ _ _ _ A) as DP.
    rewrite D in DP. destruct l as [v|]; [discriminate|].
    destruct (k_one c (k i) ld (fs1 i) _ (OOpen Output) G (rest_view _ _ _ _ _ _ A)) as (f & st & E & S & V).
    { destruct (k i); cbn; auto. }
    exists f. split; [exact E|]. unfold k_step in S. inversion S; subst; try discriminate; try congruence.
    - unfold giving_state. exists ld, []. do 5 eexists. split; [exact G|]. split; [exact V|]. constructor.
    - exfalso. match goal with H : _ \/ _ |- _ => destruct H as [[? ?]|[? ?]]; discriminate end.
    - exfalso. match goal with H : _ \/ _ |- _ => destruct H as [H|[[? ?]|[? ?]]]; discriminate end. }
  destruct (each_ok (fun f => run_op c f (OOpen Output)) outputs fs1 ND) as (fs2 & E2 & B1 & B2).
  { intros i J. destruct (OPN i J) as (f & E & _). eauto. }
  rewrite E2. cbn [obind].
  assert (LS : length (s_in st1) = length (all_records size rs inputs)) by (rewrite A1; apply map_length).
  destruct (give_all K size _ MEM c k outputs fuel st1 h1 fs2 [] ND) as (h3 & fs3 & out & E3 & C1 & C2 & C3 & C4 & C5 & C6); auto.
  { intros i J. apply OUT. exact J. }
  { intros i J. destruct (OPN i J) as (f & E & S). specialize (B1 i J). cbv beta in B1. rewrite B1 in E. injection E as <-. exact S. }
  { intros o X. congruence. }
  { intros _. lia. }
  { lia. }
  { intros i o x J [X|[_ X]] IX; [congruence|]. apply (TX i (snd x) J). rewrite A1 in X.
    pose proof (Permutation_in x (Permutation_sym (C24_permutation _ _ _ X)) IX) as P. apply in_map_iff in P. destruct P as (r & <- & P). exact P. }
  rewrite E3. cbn [obind].
  assert (CLS : forall i, In i outputs -> exists f, run_op c (fs3 i) (OClose CloseNormal) = Ok f /\ f_status f = 0 /\ exists ts, contains c (k i) (Some ts) f /\
     Forall2 (fun x t => k_keeps c (k i) (fit (longest (k i)) (snd x)) t) out ts).
  { intros i J. destruct (C5 i J) as (ld & ts & p & e & w & a & s & G & V & F).
    destruct (k_one c (k i) ld (fs3 i) _ (OClose CloseNormal) G V) as (f & st & E & S & V'); [destruct (k i); reflexivity|].
    exists f. split; [exact E|]. unfold k_step in S. inversion S; subst. split; [exact (proj1 (view_facts _ _ _ _ _ V'))|].
    exists ts. split; [|exact F]. exists ld, None. exact (view_rest _ _ _ _ _ G V' eq_refl eq_refl). }
  destruct (each_ok (fun f => run_op c f (OClose CloseNormal)) outputs fs3 ND) as (fs4 & E4 & D1 & D2).
  { intros i J. destruct (CLS i J) as (f & E & _). eauto. }
  rewrite E4. cbn [obind]. rewrite C3. exists fs4, out. split; [reflexivity|]. split; [rewrite <- A1; apply C1; exact A2|]. split; [|split].
  - intros i J. destruct (CLS i J) as (f & E & ST & ts & CT & F). specialize (D1 i J). cbv beta in D1. rewrite D1 in E. injection E as <-. eauto.
  - intros i J NJ. rewrite D2, C6, B2 by exact NJ. exact (A6 i J).
  - intros i NJ NJ'. rewrite D2, C6, B2 by exact NJ'. exact (A7 i NJ).
Qed.
End Main.
Print Assumptions C76_sort_statement.

Lemma unread : forall lo hi cr ex keeps fetch s os s', seq_steps lo hi cr ex keeps fetch s os s' ->
  (q_open s = Closed -> q_done s = false) -> q_open s' = Closed -> q_done s' = false.
Proof.
  intros lo hi cr ex keeps fetch s os s' H. induction H as [|s o s1 os s2 S H IH]; [auto|].
  intros D. apply IH. inversion S; subst; cbn [q_open q_done] in *; auto; try (intros; reflexivity); subst; intros X; subst; discriminate.
Qed.

(** What a file contains is what any program reads from it and adds to it: from
    a file at rest every history follows the rules for a list of records, and
    leaves the file with the resulting list. *)
Theorem C76_contents : forall c k ld l rs f ops, at_rest c k ld l rs f -> Forall (k_op c k ld) ops ->
  exists f' st', run_ops c f ops = Ok f' /\ k_steps c k (mkQ Closed rs 0 (f_eof f) false (f_data f) l (f_status f)) ops st' /\
    sees ld f' st' /\ (q_open st' = Closed -> contains c k (q_file st') f').
Proof.
  intros c k ld l rs f ops A F. pose proof (ar_good _ _ _ _ _ _ A) as G.
  destruct (k_hist c k ld f _ ops G (rest_view _ _ _ _ _ _ A) F) as (f' & st' & E & S & V).
  exists f', st'. split; [exact E|]. split; [exact S|]. split.
  - destruct (view_facts _ _ _ _ _ V) as (F1 & F2 & F3 & _ & _ & F6 & _). unfold sees. auto.
  - intros QO. exists ld, (q_len st'). apply view_rest; auto. exact (unread _ _ _ _ _ _ _ _ _ S (fun _ => eq_refl) QO).
Qed.
Print Assumptions C76_contents.

(** ** The hypotheses are met *)
(** Files 0: variable-length; 1: LINE SEQUENTIAL; 2: does not exist; 3: fixed
    length; the key is the first two characters. *)
Definition ex1_K : sortkeys := mkKeys default_cfg None [mkKey true (mkAttr TAlnum 0 0 false false false false false false false []) 2 0].
Definition ex_kind (i : nat) : kind := match i with 0%nat => Seq 1 5 | 1%nat => Line 4 | 2%nat => Seq 2 3 | _ => Seq 5 5 end.
Definition ex_rs (i : nat) : option (list (list Z)) :=
  match i with 0%nat => Some [[66;65]; [65;66;67;68;69]; [90]] | 1%nat => Some [[65;66]; [66;65;88]] | 2%nat => None | _ => Some [] end.
Definition ex_file (c : iocfg) (k : kind) (rs : option (list (list Z))) : cfile :=
  sq_file (k_org k) (shortest k) (longest k) None (option_map (flat_map (stored c k)) rs).
Definition ex_world (i : nat) : cfile := ex_file (io_v 0) (ex_kind i) (ex_rs i).
Lemma ex_rest : forall i, at_rest (io_v 0) (ex_kind i) 2 None (ex_rs i) (ex_world i).
Proof.
  assert (T : line_text false [65;66] /\ line_text false [66;65;88] /\ line_text false [32;32;32;32]).
  { split; [|split]; right; split; cbn; intuition discriminate. }
  intros [|[|[|i]]]; unfold ex_world, ex_file, sq_file; cbn [ex_kind ex_rs];
    (constructor; [split; [vm_compute; reflexivity|first [exact I|split; [lia|vm_compute; reflexivity]]]|try reflexivity..]);
    cbn [whole text_ok legal f_data repeat]; try discriminate; try exact I; try tauto.
  all: intros r E; injection E as <-; apply Forall_forall; intros x J; cbn [In] in J; unfold legal; cbn [shortest longest text_ok];
    repeat (destruct J as [<-|J]; [split; [cbn [length]; lia|first [exact I|tauto]]|]); destruct J.
Qed.
Example C76_hyps : (4 <= 300 / (4 + 32))%nat /\ sort_rec ex1_K 4 [32;32;32;32] /\ (forall i, contains (io_v 0) (ex_kind i) (ex_rs i) (ex_world i)) /\
  (forall i, In i [3%nat; 1%nat] -> whole (ex_kind i) /\ f_dep (ex_world i) = None) /\ NoDup [3%nat; 1%nat] /\
  all_records 4 ex_rs [0%nat; 1%nat; 2%nat] = [[66;65;32;32]; [65;66;67;68]; [90;32;32;32]; [65;66;32;32]; [66;65;88;32]] /\
  Forall (sort_rec ex1_K 4) (all_records 4 ex_rs [0%nat; 1%nat; 2%nat]) /\
  (forall i r, In r (all_records 4 ex_rs [0%nat; 1%nat; 2%nat]) -> text_ok (io_v 0) (ex_kind i) r).
Proof.
  assert (SR : forall a b c d, sort_rec ex1_K 4 [a;b;c;d]).
  { intros. split; [reflexivity|]. constructor; [|constructor]. split; [cbn; lia|]. cbn. left. reflexivity. }
  split; [vm_compute; lia|]. split; [apply SR|]. split; [intros i; exists 2, None; apply ex_rest|].
  split; [intros i [<-|[<-|[]]]; split; reflexivity|]. split; [repeat constructor; cbn; intuition discriminate|].
  split; [reflexivity|]. change (all_records 4 ex_rs [0%nat; 1%nat; 2%nat]) with [[66;65;32;32]; [65;66;67;68]; [90;32;32;32]; [65;66;32;32]; [66;65;88;32]].
  split; [repeat constructor; apply SR|]. intros i r J.
  assert (line_text false r) as T. { right. cbn [In] in J. repeat (destruct J as [<-|J]; [cbn; intuition discriminate|]). destruct J. }
  destruct i as [|[|[|i]]]; cbn [text_ok ex_kind]; auto.
Qed.
Example C76_ex :
  (do x <- sort_statement 9 (io_v 0) ex1_K 4 300 [32;32;32;32] [0%nat; 1%nat; 2%nat] [3%nat; 1%nat] ex_world;
   let '(rc, st, fs') := x in Ok (rc, st, f_disk (fs' 3%nat), f_disk (fs' 1%nat), f_disk (fs' 0%nat), f_status (fs' 2%nat))) =
  Ok (0, 0, Some [65;66;67;68;32; 65;66;32;32;32; 66;65;32;32;32; 66;65;88;32;32; 90;32;32;32;32],
      Some [65;66;67;68;10; 65;66;10; 66;65;10; 66;65;88;10; 90;10], f_disk (ex_world 0%nat), 42).
Proof. vm_compute. reflexivity. Qed.

(** ** Refuted *)
(** Sorting a file with variable-length records in place (the file after USING
    and after GIVING): every record is cut to the length of the last record
    read.  Here "CA", "AB", "B" become "A", "B", "C". *)
Theorem C76_in_place_refuted : exists f g,
  contains (io_v 0) (Seq 1 5) (Some [[67;65]; [65;66]; [66]]) f /\
  (do x <- sort_statement 9 (io_v 0) ex1_K 5 300 [32;32;32;32;32] [0%nat] [0%nat] (fun _ => f);
   let '(rc, st, fs') := x in Ok (rc, st, fs' 0%nat)) = Ok (0, 0, g) /\
  contains (io_v 0) (Seq 1 5) (Some [[65]; [66]; [67]]) g.
Proof.
  exists (ex_file (io_v 0) (Seq 1 5) (Some [[67;65]; [65;66]; [66]])). eexists. split; [|split; [vm_compute; reflexivity|]].
  - exists 2, None. constructor; cbn; try reflexivity; try discriminate; try lia; try exact I.
    + split; [cbn; lia|]. split; [lia|]. vm_compute. reflexivity.
    + intros r E. injection E as <-. apply Forall_forall. intros x J. cbn [In] in J. repeat (destruct J as [<-|J]; [split; [cbn; lia|exact I]|]). destruct J.
  - exists 2, None. constructor; cbn; try reflexivity; try discriminate; try lia; try exact I.
    + split; [cbn; lia|]. split; [lia|]. vm_compute. reflexivity.
    + intros r E. injection E as <-. apply Forall_forall. intros x J. cbn [In] in J. repeat (destruct J as [<-|J]; [split; [cbn; lia|exact I]|]). destruct J.
Qed.
Print Assumptions C76_in_place_refuted.
(** Sorting variable-length records to another variable-length file: every
    record is written with the greatest length. *)
Theorem C76_lengths_refuted : exists f g g',
  contains (io_v 0) (Seq 1 5) (Some [[67;65]; [65;66]]) f /\ contains (io_v 0) (Seq 1 5) None g /\
  (do x <- sort_statement 9 (io_v 0) ex1_K 5 300 [32;32;32;32;32] [0%nat] [1%nat] (fun i => match i with 0%nat => f | _ => g end);
   let '(rc, st, fs') := x in Ok (rc, st, fs' 1%nat)) = Ok (0, 0, g') /\
  contains (io_v 0) (Seq 1 5) (Some [[65;66;32;32;32]; [67;65;32;32;32]]) g'.
Proof.
  exists (ex_file (io_v 0) (Seq 1 5) (Some [[67;65]; [65;66]])), (ex_file (io_v 0) (Seq 1 5) None). eexists. split; [|split; [|split; [vm_compute; reflexivity|]]].
  all: exists 2, None; constructor; cbn; try reflexivity; try discriminate; try lia; try exact I;
    try (split; [cbn; lia|]; split; [lia|]; vm_compute; reflexivity);
    intros r E; try discriminate; injection E as <-; apply Forall_forall; intros x J; cbn [In] in J; repeat (destruct J as [<-|J]; [split; [cbn; lia|exact I]|]); destruct J.
Qed.
Print Assumptions C76_lengths_refuted.
