(** RELATIVE files: C30, C31, C32. *)
From Verif Require Import Base BaseFacts Stdio StdioProofs FileIO SpecFile RelProofs RelHist RelNext RelScan RelStart RelDyn.

(** ** C30: a relative file is a map *)

(** A program declaring a RELATIVE file with ACCESS DYNAMIC or RANDOM. *)
Definition by_number (lo hi : nat) (kd ld k0 : Z) (l0 : option Z) (f : cfile) : Prop :=
  f_access f <> AccSequential /\ f_min f = lo /\ f_key f = Some (mkItem k0 kd) /\ 0 <= k0 < 10 ^ kd /\
  f_dep f = (match l0 with Some v => Some (mkItem v ld) | None => None end) /\ (forall v, l0 = Some v -> 0 <= v).

Theorem C30_history : forall c lo hi kd ld k0 l0 f ops, declared hi None f -> by_number lo hi kd ld k0 l0 f ->
  (1 <= lo <= hi)%nat -> Z.of_nat hi < 256 ^ 8 -> Z.of_nat hi < 10 ^ ld ->
  Forall (rel_op hi kd ld) ops ->
  exists f' st', run_ops c f ops = Ok f' /\
    rel_steps lo hi (io_creates c) (mkR Closed false empty_map k0 (f_data f) l0 (f_status f)) ops st' /\
    f_status f' = r_status st' /\ f_data f' = r_area st' /\ f_key f' = Some (mkItem (r_key st') kd) /\
    f_dep f' = match r_len st' with Some v => Some (mkItem v ld) | None => None end.
Proof.
  intros c lo hi kd ld k0 l0 f ops [D1 D2 D3 D4 D5 D6 D7] (B1 & B2 & B3 & B4 & B5 & B6) LO HI LD OPS.
  assert (V : rel_view lo hi kd ld f (mkR Closed false empty_map k0 (f_data f) l0 (f_status f)) (mkPl 1 (f_eof f) (negb (f_first f =? 0)))).
  { constructor; cbn [r_open r_exists r_map r_key r_area r_len r_status]; auto.
    exists []. split; [split; [constructor|split; [constructor|cbn [length]; lia]]|]. split.
    - intros q. unfold empty_map, map_of. destruct (q <? 1); auto. now destruct (Z.to_nat (q - 1)).
    - cbn [file_of]. split; auto. }
  destruct (history c lo hi kd ld LO HI LD ops f _ _ V OPS) as (f' & st' & p' & E & S & V').
  exists f', st'. split; [exact E|]. split; [exact S|]. destruct V'. auto.
Qed.
Print Assumptions C30_history.

Ltac steps := repeat (match goal with |- _ /\ _ => split; [vm_compute; reflexivity|] end); vm_compute; reflexivity.
(** The runtime settings of the examples, and a file: records of [lo] to 3
    bytes, RELATIVE KEY PIC 9(4). *)
Definition io0 : iocfg := mkIO 0 false false false false.
Definition ex_file (a : access_mode) (lo : nat) (dep : option item) : cfile :=
  mkFile OrgRelative a false lo 3 dep (Some (mkItem 0 4)) [32;32;32] 3 Closed false false false 0 false false None None 0.
Example C30_hyp : declared 3 None (ex_file AccDynamic 3 None) /\ by_number 3 3 4 4 0 None (ex_file AccDynamic 3 None).
Proof. split; [constructor; reflexivity|]. repeat split; try reflexivity; try discriminate. Qed.
Definition ex_build (a : access_mode) : list op :=
  [OOpen Output; OKey 2; OSet [65;66;67]; OWrite 3 WNone; OKey 5; OSet [68;69;70]; OWrite 3 WNone; OWrite 3 WNone].
(** A duplicate, a record that is not there, one that is. *)
Example C30_ex : exists f1 f2 f3 f4,
  run_ops io0 (ex_file AccDynamic 3 None) (ex_build AccDynamic) = Ok f1 /\ f_status f1 = 22 /\
  run_ops io0 f1 [OClose CloseNormal; OOpen InOut; OKey 3; ORead] = Ok f2 /\ f_status f2 = 23 /\
  run_ops io0 f2 [OKey 2; ORead] = Ok f3 /\ f_status f3 = 0 /\ f_data f3 = [65;66;67] /\
  run_ops io0 f3 [ODelete; ORead] = Ok f4 /\ f_status f4 = 23.
Proof. do 4 eexists. steps. Qed.

(** The same with READ NEXT anywhere in the history: each takes the least number
    not below the place where the last operation left off. *)
Theorem C31_dynamic : forall c lo hi kd ld k0 l0 f ops, declared hi None f -> by_number lo hi kd ld k0 l0 f -> f_eof f = false ->
  (1 <= lo <= hi)%nat -> Z.of_nat hi < 256 ^ 8 -> Z.of_nat hi < 10 ^ ld ->
  Forall (dyn_op hi kd ld) ops ->
  exists f' st' p', run_ops c f ops = Ok f' /\
    dyn_steps lo hi (io_creates c) (mkR Closed false empty_map k0 (f_data f) l0 (f_status f), mkPl 1 false (negb (f_first f =? 0))) ops (st', p') /\
    f_status f' = r_status st' /\ f_data f' = r_area st' /\ f_key f' = Some (mkItem (r_key st') kd) /\
    f_dep f' = match r_len st' with Some v => Some (mkItem v ld) | None => None end.
Proof.
  intros c lo hi kd ld k0 l0 f ops [D1 D2 D3 D4 D5 D6 D7] (B1 & B2 & B3 & B4 & B5 & B6) NE LO HI LD OPS.
  assert (V : rel_view lo hi kd ld f (mkR Closed false empty_map k0 (f_data f) l0 (f_status f)) (mkPl 1 (f_eof f) (negb (f_first f =? 0)))).
  { constructor; cbn [r_open r_exists r_map r_key r_area r_len r_status]; auto.
    exists []. split; [split; [constructor|split; [constructor|cbn [length]; lia]]|]. split.
    - intros q. unfold empty_map, map_of. destruct (q <? 1); auto. now destruct (Z.to_nat (q - 1)).
    - cbn [file_of]. split; auto. }
  rewrite NE in V. destruct (dyn_history c lo hi kd ld LO HI LD ops f _ _ V OPS) as (f' & st' & p' & E & S & V').
  exists f', st', p'. split; [exact E|]. split; [exact S|]. destruct V'. auto.
Qed.
Print Assumptions C31_dynamic.
(** READ, READ NEXT, a WRITE that fails because the record is there, READ NEXT. *)
Example C31_dynamic_ex : exists f1 f2 f3 f4,
  run_ops io0 (ex_file AccDynamic 3 None) (ex_build AccDynamic ++ [OKey 7; OWrite 3 WNone; OClose CloseNormal; OOpen InOut; OKey 2; ORead; OReadNext]) = Ok f1 /\
    f_status f1 = 0 /\ f_key f1 = Some (mkItem 5 4) /\
  run_ops io0 f1 [OKey 2; OWrite 3 WNone] = Ok f2 /\ f_status f2 = 22 /\
  run_ops io0 f2 [OReadNext] = Ok f3 /\ f_key f3 = Some (mkItem 2 4) /\ f_data f3 = [65;66;67] /\
  run_ops io0 f3 [OReadNext; OReadNext; OReadNext; OReadNext] = Ok f4 /\ f_status f4 = 46.
Proof. do 4 eexists. steps. Qed.
(** By the standard, WRITE and REWRITE do not change what READ NEXT reads: after
    READ of record 2 it should be 5; a WRITE of record 6 in between makes it 7. *)
Theorem C31_write_moves_refuted : exists f1 f2,
  run_ops io0 (ex_file AccDynamic 3 None) (ex_build AccDynamic ++ [OKey 7; OWrite 3 WNone; OClose CloseNormal; OOpen InOut; OKey 2; ORead]) = Ok f1 /\
  run_ops io0 f1 [OKey 6; OWrite 3 WNone; OReadNext] = Ok f2 /\ f_status f2 = 0 /\ f_key f2 = Some (mkItem 7 4).
Proof. do 2 eexists. steps. Qed.
Print Assumptions C31_write_moves_refuted.
(** OPEN I-O, DELETE of record 2, READ NEXT: record 5 should be number 5; with a
    record 3 present READ NEXT reads it and says it is number 1. *)
Theorem C31_key_after_open_refuted : exists f1 f2,
  run_ops io0 (ex_file AccDynamic 3 None) (ex_build AccDynamic ++ [OKey 3; OSet [71;72;73]; OWrite 3 WNone; OClose CloseNormal; OOpen InOut; OKey 2; ODelete]) = Ok f1 /\
  f_status f1 = 0 /\
  run_ops io0 f1 [OReadNext] = Ok f2 /\ f_status f2 = 0 /\ f_data f2 = [71;72;73] /\ f_key f2 = Some (mkItem 1 4).
Proof. do 2 eexists. steps. Qed.
Print Assumptions C31_key_after_open_refuted.

(** REWRITE and DELETE of a record that does not exist report success when the
    number is below one already used. *)
Theorem C30_rewrite_absent_refuted : exists f1 f2,
  run_ops io0 (ex_file AccDynamic 3 None) (ex_build AccDynamic ++ [OClose CloseNormal; OOpen InOut; OKey 3; ORewrite 3]) = Ok f1 /\ f_status f1 = 0 /\
  run_ops io0 f1 [ORead] = Ok f2 /\ f_status f2 = 23.
Proof. do 2 eexists. steps. Qed.
Theorem C30_delete_absent_refuted : exists f1 f2,
  run_ops io0 (ex_file AccDynamic 3 None) (ex_build AccDynamic ++ [OClose CloseNormal; OOpen InOut; OKey 2; ODelete; ODelete]) = Ok f1 /\ f_status f1 = 0 /\
  run_ops io0 f1 [OKey 9; ODelete] = Ok f2 /\ f_status f2 = 23.
Proof. do 2 eexists. steps. Qed.
(** REWRITE of a variable record keeps the old length: the record of 1 byte
    replaced by one of 3 bytes is still read as a record of 1 byte. *)
Theorem C30_rewrite_length_refuted : exists f1 f2,
  run_ops io0 (ex_file AccDynamic 1 (Some (mkItem 0 2))) [OOpen Output; OKey 1; ODep 1; OSet [65;32;32]; OWrite 1 WNone;
     OClose CloseNormal; OOpen InOut; ODep 3; OSet [65;66;67]; ORewrite 3] = Ok f1 /\ f_status f1 = 0 /\
  run_ops io0 f1 [ORead] = Ok f2 /\ f_status f2 = 0 /\ f_dep f2 = Some (mkItem 1 2).
Proof. do 2 eexists. steps. Qed.
(** A record of length 0 is written with status 00 and is not there. *)
Theorem C30_zero_length_refuted : exists f1 f2,
  run_ops io0 (ex_file AccDynamic 0 (Some (mkItem 0 2))) [OOpen Output; OKey 1; OWrite 3 WNone] = Ok f1 /\ f_status f1 = 0 /\
  run_ops io0 f1 [OClose CloseNormal; OOpen Input; ORead] = Ok f2 /\ f_status f2 = 23.
Proof. do 2 eexists. steps. Qed.
Print Assumptions C30_rewrite_absent_refuted.
Print Assumptions C30_delete_absent_refuted.
Print Assumptions C30_rewrite_length_refuted.
Print Assumptions C30_zero_length_refuted.

(** ** C31: sequential reading *)

(** A history of writing by record number, and what it makes. *)
Lemma wrote : forall c lo hi kd ld k0 l0 f ops, declared hi None f -> by_number lo hi kd ld k0 l0 f ->
  (1 <= lo <= hi)%nat -> Z.of_nat hi < 256 ^ 8 -> Z.of_nat hi < 10 ^ ld ->
  Forall (rel_op hi kd ld) ops ->
  exists fw st', run_ops c f ops = Ok fw /\
    rel_steps lo hi (io_creates c) (mkR Closed false empty_map k0 (f_data f) l0 (f_status f)) ops st' /\
    (r_open st' = Closed -> r_exists st' = true -> exists slots, good hi kd slots /\ (forall k, r_map st' k = map_of slots k) /\ f_disk fw = Some (flat slots)).
Proof.
  intros c lo hi kd ld k0 l0 f ops [D1 D2 D3 D4 D5 D6 D7] (B1 & B2 & B3 & B4 & B5 & B6) LO HI LD OPS.
  assert (V : rel_view lo hi kd ld f (mkR Closed false empty_map k0 (f_data f) l0 (f_status f)) (mkPl 1 (f_eof f) (negb (f_first f =? 0)))).
  { constructor; cbn [r_open r_exists r_map r_key r_area r_len r_status]; auto.
    exists []. split; [split; [constructor|split; [constructor|cbn [length]; lia]]|]. split.
    - intros q. unfold empty_map, map_of. destruct (q <? 1); auto. now destruct (Z.to_nat (q - 1)).
    - cbn [file_of]. split; auto. }
  destruct (history c lo hi kd ld LO HI LD ops f _ _ V OPS) as (f' & st' & p' & E & S & V').
  exists f', st'. split; [exact E|]. split; [exact S|]. intros RO RE. destruct V' as [_ _ _ _ _ _ _ _ _ _ _ _ _ _ _ _ (slots & GD & M & FO)].
  exists slots. split; [exact GD|]. split; [exact M|]. rewrite RO in FO. cbn [file_of] in FO. rewrite RE in FO. exact (proj1 FO).
Qed.
Lemma records_ext : forall m m' recs, (forall k, m k = m' k) -> records_of m recs -> records_of m' recs.
Proof. intros m m' recs E [S H]. split; auto. intros k r. rewrite <- E. apply H. Qed.
Lemma key_fits_fits : forall kd k n, key_fits kd k -> 0 <= kd -> Z.of_nat n < 10 ^ kd -> fits k n.
Proof.
  intros kd k n K P H. unfold fits, key_fits in *. destruct k as [i|]; auto.
  eapply Z.lt_le_trans; [exact H|]. apply Z.pow_le_mono_r; lia.
Qed.
Lemma pow_pos_exp : forall kd k, 0 <= k < 10 ^ kd -> 0 <= kd.
Proof. intros kd k H. destruct (Z.le_gt_cases 0 kd); auto. rewrite Z.pow_neg_r in H by auto. lia. Qed.

(** READ NEXT returns every record of the file once, in ascending order. *)
Definition scans (c : iocfg) (g : cfile) (md : open_mode) (recs : list (Z * frec)) : Prop :=
  (forall i k r, nth_error recs i = Some (k, r) ->
     exists g', run_ops c g (OOpen md :: repeat OReadNext (S i)) = Ok g' /\ got g g' k r) /\
  (exists g1 g2, run_ops c g (OOpen md :: repeat OReadNext (S (length recs))) = Ok g1 /\ f_status g1 = 10 /\
     run_op c g1 OReadNext = Ok g2 /\ f_status g2 = 46).

Lemma scan_file : forall c hi slots g md, (1 <= hi)%nat -> Forall (slot_ok hi) slots -> Forall (fun r : slot => (fst r <= hi)%nat) slots ->
  declared hi (Some (flat slots)) g -> (md = Input \/ md = InOut) -> fits (f_key g) (length slots) -> dep_fits hi (f_dep g) -> scans c g md (recs_of slots).
Proof.
  intros c hi slots g md H1 F G DC MD FT DF.
  destruct (scan_slots c hi slots g md H1 F G DC MD FT DF) as (g0 & E0 & _ & K0 & D0 & _ & R0 & _ & _).
  rewrite <- K0 in FT. rewrite <- D0 in DF.
  destruct (scan_from c hi slots H1 F G (present_from slots 0) g0 0 eq_refl FT DF R0 (or_intror eq_refl)) as [S1 (g1 & g2 & S2 & S3 & S4)].
  split.
  - intros i k r N. unfold recs_of in N. rewrite nth_error_map in N. destruct (nth_error (present_from slots 0) i) as [x|] eqn:X; [|discriminate].
    cbn [option_map] in N. destruct (S1 i x X) as (n & d & g' & Y1 & Y2 & Y3). rewrite Y1 in N. injection N as <- <-.
    exists g'. change (run_ops c g (OOpen md :: repeat OReadNext (S i))) with (do f' <- run_op c g (OOpen md); run_ops c f' (repeat OReadNext (S i))). rewrite E0. cbn [obind]. split; [exact Y2|eapply got_from; eauto].
  - exists g1, g2. unfold recs_of. rewrite map_length.
    change (run_ops c g (OOpen md :: repeat OReadNext (S (length (present_from slots 0))))) with (do f' <- run_op c g (OOpen md); run_ops c f' (repeat OReadNext (S (length (present_from slots 0))))).
    rewrite E0. cbn [obind]. auto.
Qed.

(** Whatever the history of writing that made the file, a program that opens
    it afterwards reads exactly its records. *)
Theorem C31_scan : forall c lo hi kd ld k0 l0 f ops, declared hi None f -> by_number lo hi kd ld k0 l0 f ->
  (1 <= lo <= hi)%nat -> Z.of_nat hi < 256 ^ 8 -> Z.of_nat hi < 10 ^ ld -> Forall (rel_op hi kd ld) ops ->
  exists fw st', run_ops c f ops = Ok fw /\
    rel_steps lo hi (io_creates c) (mkR Closed false empty_map k0 (f_data f) l0 (f_status f)) ops st' /\
    (r_open st' = Closed -> r_exists st' = true ->
     exists recs, records_of (r_map st') recs /\
       forall c' g md, declared hi (f_disk fw) g -> (md = Input \/ md = InOut) -> key_fits kd (f_key g) -> dep_fits hi (f_dep g) ->
         scans c' g md recs).
Proof.
  intros c lo hi kd ld k0 l0 f ops D B LO HI LD OPS.
  destruct (wrote c lo hi kd ld k0 l0 f ops D B LO HI LD OPS) as (fw & st' & E & S & W). exists fw, st'. split; [exact E|]. split; [exact S|].
  intros RO RE. destruct (W RO RE) as (slots & (F & G & LK) & M & FD). exists (recs_of slots).
  split; [eapply records_ext; [intros k; symmetry; apply M|apply recs_of_spec]|].
  intros c' g md DG MD KF DF. rewrite FD in DG. apply (scan_file c' hi); auto; try lia.
  destruct B as (_ & _ & _ & K0 & _). apply (key_fits_fits kd); auto. eapply pow_pos_exp; eauto.
Qed.
Print Assumptions C31_scan.

Lemma filter_all : forall A (P : A -> bool) l, (forall x, In x l -> P x = true) -> filter P l = l.
Proof. intros A P. induction l as [|a l IH]; intros H; cbn [filter]; auto. rewrite (H a (or_introl eq_refl)), IH; auto. intros x X. apply H. right. auto. Qed.

(** Records written sequentially get the numbers 1, 2, 3, ... *)
Theorem C31_sequential_write : forall c lo hi f (recs : list frec), declared hi None f -> f_access f = AccSequential -> f_min f = lo ->
  (1 <= lo <= hi)%nat -> Z.of_nat hi < 256 ^ 8 -> dep_fits hi (f_dep f) ->
  Forall (fun r : frec => (lo <= fst r <= hi)%nat /\ length (snd r) = hi) recs ->
  exists fw, run_ops c f (OOpen Output :: flat_map (fun r => [ODep (Z.of_nat (fst r)); OSet (snd r); OWrite (fst r) WNone]) recs ++ [OClose CloseNormal]) = Ok fw /\
    f_status fw = 0 /\ f_open fw = Closed /\
    forall c' g md kd, declared hi (f_disk fw) g -> (md = Input \/ md = InOut) -> key_fits kd (f_key g) -> Z.of_nat (length recs) < 10 ^ kd -> dep_fits hi (f_dep g) ->
      scans c' g md (combine (map Z.of_nat (seq 1 (length recs))) recs).
Proof.
  intros c lo hi f recs [D1 D2 D3 D4 D5 D6 D7] AC MN LO HI DF FR.
  cbn [run_ops run_op]. unfold ex_open at 1. ffields. rewrite D2, D7. cbn [andb negb]. unfold file_open. ffields. unfold ret. cbn [obind].
  match goal with |- context [run_ops c ?h _] => set (f0 := h) end.
  destruct (seq_write_all c recs f0 []) as (fw & E & S1 & O1 & DK); unfold f0; ffields; rewrite ?D5; auto; try lia.
  { rewrite MN. exact FR. }
  exists fw. fold f0 in E. split; [exact E|]. split; [exact S1|]. split; [exact O1|]. cbn [app] in DK.
  assert (F : Forall (slot_ok hi) recs) by (eapply Forall_impl; [|exact FR]; intros r [R1 R2]; split; [exact R2|lia]).
  assert (G : Forall (fun r : slot => (fst r <= hi)%nat) recs) by (eapply Forall_impl; [|exact FR]; intros r [R1 R2]; lia).
  intros c' g md kd DG MD KF NF DFG. rewrite DK in DG.
  assert (ER : recs_of recs = combine (map Z.of_nat (seq 1 (length recs))) recs).
  { unfold recs_of. assert (EP : forall p, (p <= length recs)%nat -> present_from recs p = seq p (length recs - p)).
    { intros p _. unfold present_from. apply filter_all. intros x X. apply in_seq in X.
      apply Nat.ltb_lt. unfold size_at. destruct (nth_error recs x) as [[n d]|] eqn:N; [|apply nth_error_None in N; lia].
      pose proof (proj1 (Forall_forall _ _) FR _ (nth_error_In _ _ N)) as [X1 _]. cbn [fst] in X1. change (list slot) with (list frec) in *; cbv beta; match goal with |- context [@nth_error ?T recs x] => change (@nth_error T recs x) with (@nth_error frec recs x) end; replace (@nth_error frec recs x) with (Some (n, d)) by (symmetry; exact N); lia. }
    rewrite EP by lia. rewrite Nat.sub_0_r. clear. rewrite <- seq_shift, map_map.
    assert (GEN : forall (pre l : list slot), map (fun i => (Z.of_nat i + 1, match nth_error (pre ++ l) i with Some r => r | None => (0%nat, []) end)) (seq (length pre) (length l)) =
       combine (map (fun x => Z.of_nat (S x)) (seq (length pre) (length l))) l).
    { intros pre l. revert pre. induction l as [|r l IH]; intros pre; [reflexivity|]. cbn [length seq map combine].
      f_equal; [|specialize (IH (pre ++ [r])); rewrite app_length in IH; cbn [length] in IH; replace (length pre + 1)%nat with (S (length pre)) in IH by lia; rewrite <- IH; now rewrite <- app_assoc].
      rewrite nth_error_app2 by lia. rewrite Nat.sub_diag. cbn [nth_error]. f_equal. lia. }
    exact (GEN [] recs). }
  rewrite <- ER. apply (scan_file c' hi); auto; try lia. apply (key_fits_fits kd); auto. apply (pow_pos_exp kd (Z.of_nat (length recs))). lia.
Qed.
Print Assumptions C31_sequential_write.

(** Concrete cases. *)
Definition ex_reader (a : access_mode) (disk : option (list Z)) : cfile :=
  mkFile OrgRelative a false 3 3 None (Some (mkItem 0 4)) [32;32;32] 3 Closed false false false 0 false false None disk 0.
Example C31_ex : exists fw g1 g2 g3,
  run_ops io0 (ex_file AccDynamic 3 None) (ex_build AccDynamic ++ [OClose CloseNormal]) = Ok fw /\
  run_ops io0 (ex_reader AccSequential (f_disk fw)) [OOpen Input; OReadNext] = Ok g1 /\ f_data g1 = [65;66;67] /\ f_key g1 = Some (mkItem 2 4) /\
  run_ops io0 g1 [OReadNext] = Ok g2 /\ f_data g2 = [68;69;70] /\ f_key g2 = Some (mkItem 5 4) /\
  run_ops io0 g2 [OReadNext] = Ok g3 /\ f_status g3 = 10.
Proof. do 4 eexists. steps. Qed.

(** ** C32: START *)

(** After any history of reading, START finds the nearest record, READ NEXT
    returns it; status 23 exactly when there is none, where START is served. *)
Theorem C32_start : forall c lo hi kd ld k0 l0 f ops, declared hi None f -> by_number lo hi kd ld k0 l0 f ->
  (1 <= lo <= hi)%nat -> Z.of_nat hi < 256 ^ 8 -> Z.of_nat hi < 10 ^ ld -> Forall (rel_op hi kd ld) ops ->
  exists fw st', run_ops c f ops = Ok fw /\
    rel_steps lo hi (io_creates c) (mkR Closed false empty_map k0 (f_data f) l0 (f_status f)) ops st' /\
    (r_open st' = Closed -> r_exists st' = true ->
       forall c' g md i pre g0 cd n, declared hi (f_disk fw) g -> (md = Input \/ md = InOut) ->
         f_access g <> AccRandom -> f_key g = Some i -> kd <= i_digits i -> dep_fits hi (f_dep g) ->
         Forall (browse_op hi) pre -> run_ops c' g (OOpen md :: pre) = Ok g0 -> 0 <= n < 10 ^ i_digits i ->
         exists g1, run_ops c' g0 [OKey n; OStart cd] = Ok g1 /\
           ((forall k, ~ nearest cd (r_map st') n k) -> f_status g1 = 23) /\
           (served cd (r_map st') n -> f_status g1 = 23 -> forall k, ~ nearest cd (r_map st') n k) /\
           (f_status g1 <> 23 -> f_status g1 = 0 /\ exists k r g2, nearest cd (r_map st') n k /\ r_map st' k = Some r /\
               f_key g1 = Some (mkItem k (i_digits i)) /\
               run_op c' g1 OReadNext = Ok g2 /\ f_status g2 = 0 /\ f_data g2 = snd r /\
               (forall d, f_dep g0 = Some d -> f_dep g2 = Some (mkItem (Z.of_nat (fst r)) (i_digits d))))).
Proof.
  intros c lo hi kd ld k0 l0 f ops D B LO HI LD OPS.
  destruct (wrote c lo hi kd ld k0 l0 f ops D B LO HI LD OPS) as (fw & st' & E & S & W). exists fw, st'. split; [exact E|]. split; [exact S|].
  intros RO RE. destruct (W RO RE) as (slots & (F & G & LK) & M & FD).
  intros c' g md i pre g0 cd n DG MD AC KE KD DF FP RP N. rewrite FD in DG.
  destruct B as (_ & _ & _ & K0 & _). assert (KP := pow_pos_exp kd k0 K0).
  assert (FT : Z.of_nat (length slots) < 10 ^ i_digits i) by (eapply Z.lt_le_trans; [exact LK|]; apply Z.pow_le_mono_r; lia).
  destruct (scan_slots c' hi slots g md ltac:(lia) F G DG MD ltac:(rewrite KE; exact FT) DF) as (gg & EG & _ & KG & DGG & AG & [R1 R2 R3 R4 R5 R6 R7] & _ & _).
  cbn [run_ops] in RP. rewrite EG in RP. cbn [obind] in RP.
  assert (BR : browsing hi (flat slots) gg) by (constructor; auto; eauto).
  assert (INV : browsing hi (flat slots) g0 /\ like (f_key gg) (f_key g0) /\ like (f_dep gg) (f_dep g0) /\ f_access g0 = f_access gg).
  { clear - BR FP RP. revert gg BR RP. induction pre as [|o pre IH]; intros gg BR RP.
    - injection RP as <-. split; auto. split; [apply like_refl|]. split; [apply like_refl|auto].
    - apply Forall_cons_iff in FP. destruct FP as [FO FP]. cbn [run_ops] in RP. destruct (run_op c' gg o) as [h| |] eqn:EO; cbn [obind] in RP; try discriminate.
      destruct (browse_op_inv c' hi (flat slots) gg o h BR FO EO) as (B1 & B2 & B3 & B4). destruct (IH FP h B1 RP) as (I1 & I2 & I3 & I4).
      split; auto. split; [eapply like_trans; eauto|]. split; [eapply like_trans; eauto|congruence]. }
  destruct INV as (BR0 & LK0 & LD0 & AC0). rewrite KG, KE in LK0. cbn [like] in LK0. destruct (f_key g0) as [j|] eqn:KJ; [|contradiction].
  rewrite LK0 in *.
  destruct (start_at c' hi slots g0 cd n j ltac:(lia) F BR0 KJ FT ltac:(congruence) N) as (g1 & E1 & R). exists g1. split; [exact E1|].
  assert (NE : forall k, nearest cd (map_of slots) n k <-> nearest cd (r_map st') n k).
  { intros k. unfold nearest. rewrite M. split; intros (A1 & A2 & A3); (split; [auto|split; [auto|intros q Q1 Q2; apply A3; auto; rewrite M in *; auto]]). }
  assert (SV : served cd (r_map st') n -> served cd (map_of slots) n).
  { destruct cd; cbn [served]; auto; intros (q & Q1 & Q2); exists q; rewrite <- M; auto. }
  destruct R as [(S1 & k & K1 & K2 & K3 & K4) | (S1 & R)]; rewrite S1.
  - split; [intros X; exfalso; apply (X k); apply NE; exact K1|]. split; [intros _ X; discriminate|]. intros _. split; auto.
    assert (DF1 : dep_fits hi (f_dep g1)). { rewrite K4. rewrite DGG in LD0. unfold dep_fits, like in *. destruct (f_dep g), (f_dep g0); auto; congruence || contradiction. }
    assert (KP1 : 1 <= k /\ (0 < size_at slots (Z.to_nat (k - 1)))%nat) by (apply map_size; exact (proj1 (proj2 K1))).
    destruct (read_next_step c' hi slots g1 (Z.to_nat (k - 1)) ltac:(lia) F G ltac:(rewrite K2; exact FT) DF1 K3) as (g2 & E2 & [(x & m & d & X1 & X2 & X3 & X4 & X5 & X6 & X7 & X8) | (X1 & _)]).
    + assert (x = Z.to_nat (k - 1)).
      { rewrite (present_step slots (Z.to_nat (k - 1)) (Z.to_nat (k - 1))) in X2 by (try lia; intros; lia). injection X2 as X2 _. auto. }
      subst x. exists k, (m, d), g2. split; [apply NE; auto|]. split.
      { rewrite M. rewrite (map_of_in slots k m d) by (auto; lia). unfold size_at in KP1. rewrite X1 in KP1. destruct (Nat.ltb_spec 0 m); [auto|lia]. }
      split; [auto|]. split; [auto|]. split; [auto|]. split; [auto|]. intros dd DD. rewrite X8, K4, DD. reflexivity.
    + rewrite (present_step slots (Z.to_nat (k - 1)) (Z.to_nat (k - 1))) in X1 by (try lia; intros; lia). discriminate.
  - split; [auto|]. split; [|intros X; congruence]. intros SE _ k K. destruct R as [R|R]; [apply (R k); apply NE; auto|apply R; auto].
Qed.
Print Assumptions C32_start.

(** The file of the examples: records 2 and 5. *)
Definition ex_25 : option (list Z) :=
  match run_ops io0 (ex_file AccDynamic 3 None) (ex_build AccDynamic ++ [OClose CloseNormal]) with Ok f => f_disk f | _ => None end.
Example C32_ex : exists g1 g2 g3,
  run_ops io0 (ex_reader AccDynamic ex_25) [OOpen Input; OKey 2; OStart GT] = Ok g1 /\ f_status g1 = 0 /\ f_key g1 = Some (mkItem 5 4) /\
  run_ops io0 g1 [OReadNext] = Ok g2 /\ f_data g2 = [68;69;70] /\
  run_ops io0 g2 [OKey 5; OStart GT] = Ok g3 /\ f_status g3 = 23.
Proof. do 3 eexists. steps. Qed.

(** START < 9 and START <= 9 report that there is no such record, though
    records 2 and 5 exist. *)
Theorem C32_beyond_refuted : exists g1 g2,
  run_ops io0 (ex_reader AccDynamic ex_25) [OOpen Input; OKey 9; OStart LT] = Ok g1 /\ f_status g1 = 23 /\
  run_ops io0 (ex_reader AccDynamic ex_25) [OOpen Input; OKey 9; OStart LE] = Ok g2 /\ f_status g2 = 23.
Proof. do 2 eexists. steps. Qed.
(** START >= 0 fails. *)
Theorem C32_zero_refuted : exists g1,
  run_ops io0 (ex_reader AccDynamic ex_25) [OOpen Input; OKey 0; OStart GE] = Ok g1 /\ f_status g1 = 23.
Proof. eexists. steps. Qed.
(** READ NEXT after START stores 1 in the RELATIVE KEY item, whatever record it
    returns; ... *)
Theorem C32_key_after_start_refuted : exists g1,
  run_ops io0 (ex_reader AccDynamic ex_25) [OOpen Input; OKey 2; OStart GT; OReadNext] = Ok g1 /\ f_status g1 = 0 /\
    f_data g1 = [68;69;70] /\ f_key g1 = Some (mkItem 1 4).
Proof. eexists. steps. Qed.
(** ... so that DELETE in sequential access, which should delete the record
    just read, deletes record 1 instead. *)
Theorem C32_delete_after_start_refuted : exists fw g1 g2 g3,
  run_ops io0 (ex_file AccDynamic 3 None) [OOpen Output; OKey 1; OSet [49;49;49]; OWrite 3 WNone; OKey 2; OSet [50;50;50]; OWrite 3 WNone; OClose CloseNormal] = Ok fw /\
  run_ops io0 (ex_reader AccSequential (f_disk fw)) [OOpen InOut; OKey 1; OStart GT; OReadNext] = Ok g1 /\ f_status g1 = 0 /\ f_data g1 = [50;50;50] /\
  run_ops io0 g1 [ODelete] = Ok g2 /\ f_status g2 = 0 /\
  run_ops io0 g2 [OClose CloseNormal; OOpen Input; OReadNext] = Ok g3 /\ f_status g3 = 0 /\ f_data g3 = [50;50;50].
Proof. do 4 eexists. steps. Qed.
(** After a START that failed, READ NEXT should report 46; it returns, with
    status 00, bytes from between two records. *)
Theorem C32_after_failure_refuted : exists fw g1 g2,
  run_ops io0 (ex_file AccDynamic 3 None) [OOpen Output; OKey 1; OSet [1;0;0]; OWrite 3 WNone; OKey 3; OSet [51;51;51]; OWrite 3 WNone; OClose CloseNormal; OOpen InOut; OKey 1; ODelete; OClose CloseNormal] = Ok fw /\
  run_ops io0 (ex_reader AccDynamic (f_disk fw)) [OOpen Input; OKey 1; OStart EQ] = Ok g1 /\ f_status g1 = 23 /\
  run_ops io0 g1 [OReadNext] = Ok g2 /\ f_status g2 = 0 /\ f_data g2 = [0;0;0].
Proof. do 3 eexists. steps. Qed.
Print Assumptions C32_beyond_refuted.
Print Assumptions C32_zero_refuted.
Print Assumptions C32_key_after_start_refuted.
Print Assumptions C32_delete_after_start_refuted.
Print Assumptions C32_after_failure_refuted.
