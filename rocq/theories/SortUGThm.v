(** SORT ... USING ... GIVING: the loops. *)
From Coq Require Import Sorting.Permutation Sorting.Sorted.
From Verif Require Import Base BaseFacts Stdio StdioProofs FileIO FileSort SpecFile SpecSeq RelHist RelNext SeqHist SeqInst LineInst P_Seq
  SpecCmp SpecSort SpecFileSort SortProofs SortFiles SortHist P_FileSort SortUG SpecSortUG.

Definition k_view (c : iocfg) (k : kind) (ld : Z) (f : cfile) (st : qstate) : Prop :=
  match k with
  | Seq lo hi => seq_view OrgSequential lo hi ld (enc_rec c lo hi) (valid_rec lo hi) (fun _ => True) false f st
  | Line hi => seq_view OrgLineSequential 0 hi ld (enc_line c) (valid_line c hi) (line_text (io_nulls c)) true f st
  end.

Lemma k_hist : forall c k ld f st ops, k_good c k ld -> k_view c k ld f st -> Forall (k_op c k ld) ops ->
  exists f' st', run_ops c f ops = Ok f' /\ k_steps c k st ops st' /\ k_view c k ld f' st'.
Proof.
  intros c [lo hi|hi] ld f st ops (L & G) V F.
  - destruct G as [G1 G2]. exact (seq_hist c lo hi ld f st ops G1 G2 L V F).
  - exact (line_hist c hi ld f st ops L V F).
Qed.
Lemma k_one : forall c k ld f st o, k_good c k ld -> k_view c k ld f st -> k_op c k ld o ->
  exists f' st', run_op c f o = Ok f' /\ k_step c k st o st' /\ k_view c k ld f' st'.
Proof.
  intros c k ld f st o G V O. destruct (k_hist c k ld f st [o] G V) as (f' & st' & E & S & V'); [constructor; [exact O|constructor]|].
  exists f', st'. split; [|split; [|exact V']].
  - cbn [run_ops] in E. destruct (run_op c f o) as [x| |]; cbn [obind] in E; try discriminate. exact E.
  - inversion S as [|? ? s1 ? ? S1 S2]; subst. inversion S2; subst. exact S1.
Qed.

(** What a view says about the fields the statement looks at. *)
Lemma view_facts : forall c k ld f st, k_view c k ld f st ->
  f_status f = q_status st /\ f_data f = q_area st /\ f_open f = q_open st /\ length (q_area st) = longest k /\ f_org f = k_org k /\
  f_dep f = match q_len st with Some v => Some (mkItem v ld) | None => None end /\ (whole k -> f_size f = longest k).
Proof.
  intros c [lo hi|hi] ld f st V; destruct V; cbn [longest k_org whole]; repeat (split; [solve [auto]|]); auto.
Qed.
Lemma view_last : forall c lo hi ld f st, k_view c (Seq lo hi) ld f st -> q_done st = true ->
  exists r p t, q_file st = Some r /\ q_next st = S p /\ nth_error r p = Some t /\ f_size f = length t.
Proof. intros c lo hi ld f st V D. destruct V. auto. Qed.

(** Files at rest. *)
Lemma rest_view : forall c k ld l rs f, at_rest c k ld l rs f -> k_view c k ld f (mkQ Closed rs 0 (f_eof f) false (f_data f) l (f_status f)).
Proof.
  intros c k ld l rs f [A1 A2 A3 A4 A5 A6 A7 A8 A9 A10 A11 A12 A13 A14 A15 A16 A17 A18 A19].
  destruct k as [lo hi|hi]; cbn [k_view shortest longest k_org whole text_ok] in *;
    constructor; cbn [q_open q_file q_next q_eof q_done q_area q_len q_status]; auto; try discriminate.
  - intros [H|H]; [auto|discriminate].
  - intros [H|H]; [auto|discriminate].
  - intros r E. specialize (A19 r E). eapply Forall_impl; [|exact A19]. intros t [T _]. exact T.
  - intros r E. specialize (A19 r E). eapply Forall_impl; [|exact A19]. intros t [[_ T] T']. split; auto.
Qed.
Lemma view_rest : forall c k ld f st, k_good c k ld -> k_view c k ld f st -> q_open st = Closed -> q_done st = false ->
  at_rest c k ld (q_len st) (q_file st) f.
Proof.
  intros c k ld f st G V QO QD. destruct k as [lo hi|hi]; cbn [k_view] in V;
    destruct V as [V1 V2 V3 V4 V5 V6 V7 V8 V9 V10 V11 V12 V13 V14 V15 VM V16 V17 V18 V19 V20 V21];
    unfold stream_ok in V20; rewrite QO in V20;
    constructor; cbn [shortest longest k_org whole text_ok]; auto; try congruence.
  - intros r E. specialize (V21 r E). eapply Forall_impl; [|exact V21]. intros t T. split; [exact T|exact I].
  - intros r E. specialize (V21 r E). eapply Forall_impl; [|exact V21]. intros t [T T']. split; [cbn [shortest longest]; lia|exact T'].
Qed.

Ltac inv_step := match goal with H : k_step _ _ _ _ _ |- _ => unfold k_step in H; inversion H; subst; try discriminate; try congruence; clear H end.

(** *** The sort engine, one statement at a time *)
Section Engine.
Variables (K : sortkeys) (size memory : nat).
Hypothesis MEM : (4 <= memory)%nat.
Notation sinv := (SortHist.inv K size memory 1).

Lemma sorter_eta : forall s h, h_status h = s -> set_sort_status s h = h.
Proof. intros s h <-. destruct h. reflexivity. Qed.

Lemma engine_put : forall h st d, sinv h st -> s_out st = None -> s_status st = 0 -> s_len st = None -> sort_rec K size d ->
  Z.of_nat (length (s_in st)) + 1 < 2 ^ 64 ->
  exists h1 h2, run_sort_op h (SMove d) = Ok h1 /\ submit h1 = Ok (Some h2) /\
    sinv h2 (mkS (s_in st ++ [(Z.of_nat size, d)]) None d None (s_return st) 0).
Proof.
  intros h st d I O ST L SR N.
  destruct (SortHist.op_inv K size memory 1 MEM h st (SMove d) I SR N) as (h1 & st1 & E1 & S1 & I1 & N1).
  inversion S1; subst. exists h1. rewrite O in I1. rewrite L, ST in I1.
  destruct (SortHist.op_inv K size memory 1 MEM h1 _ SRelease I1 Logic.I) as (h2 & st2 & E2 & S2 & I2 & N2); [exact N|].
  exists h2. split; [exact E1|].
  inversion S2; subst; cbn [s_out s_in s_area s_len s_return] in *; [|discriminate].
  unfold len_of in I2. cbn [s_len] in I2. split; [|exact I2].
  unfold submit. destruct I1 as [(A & B & F0 & F1 & C & _)|(zs & D)].
  - rewrite (co_ret _ _ _ _ _ _ _ _ _ _ C). cbn [run_sort_op] in E2. rewrite E2. cbn [obind].
    pose proof (cm_status _ _ _ _ _ _ (co_common _ _ _ _ _ _ _ _ _ _ C)) as C1. cbn [s_status] in C1. rewrite C1.
    rewrite sorter_eta; [reflexivity|]. apply SortHist.inv_common in I2. exact (cm_status _ _ _ _ _ _ I2).
  - pose proof (de_out _ _ _ _ _ _ _ D) as X. discriminate.
Qed.

Lemma engine_take : forall h st, sinv h st -> s_len st = None -> Z.of_nat (length (s_in st)) + 1 < 2 ^ 64 ->
  exists out h', (s_out st = None -> in_order K (s_in st) out) /\ (forall o, s_out st = Some o -> out = o) /\
    sort_return h = Ok h' /\ h_return h' = s_return st /\
    match out with
    | x :: rest => h_status h' = 0 /\ h_area h' = snd x /\ sinv h' (mkS (s_in st) (Some rest) (snd x) None (s_return st) 0)
    | [] => h_status h' = 10
    end.
Proof.
  intros h st I L N. destruct (SortHist.op_inv K size memory 1 MEM h st SReturn I Logic.I N) as (h' & st' & E & S & I' & _).
  cbn [run_sort_op] in E.
  pose proof (SortHist.inv_common _ _ _ _ _ _ I') as CM. pose proof (cm_status _ _ _ _ _ _ CM) as C1. pose proof (cm_area _ _ _ _ _ _ CM) as C2.
  pose proof (cm_ret _ _ _ _ _ _ CM) as C3.
  inversion S as [| | | |? out ? O IO S'|? n d rest O|? O]; subst.
  - exists out, h'. split; [intros _; exact IO|]. split; [congruence|]. split; [exact E|].
    inversion S' as [| | | |? ? ? O'|? n d rest O'|? O']; subst; cbn [s_in s_out s_area s_len s_return s_status] in *; try discriminate;
      injection O' as ->; split; auto. split; [exact C1|]. split; [exact C2|]. rewrite L in I'. exact I'.
  - exists ((n, d) :: rest), h'. split; [congruence|]. split; [congruence|]. split; [exact E|]. cbn [s_in s_out s_area s_len s_return s_status snd] in *.
    split; [exact C3|]. split; [exact C1|]. split; [exact C2|]. rewrite L in I'. exact I'.
  - exists [], h'. split; [congruence|]. split; [congruence|]. split; [exact E|]. cbn [s_return s_status] in *. auto.
Qed.

(** *** cob_copy_check *)
Lemma copy_whole : forall n a m b, length a = n -> (Nat.min n m <= length b)%nat -> copy_check n a m b = Ok (fit n (firstn m b)).
Proof.
  intros n a m b L M. unfold copy_check. rewrite (proj2 (Nat.ltb_ge _ _) M). rewrite L, Nat.ltb_irrefl. cbn [orb].
  f_equal. unfold fit. rewrite (skipn_all2 a) by lia. rewrite app_nil_r, firstn_firstn, firstn_length. f_equal.
  f_equal. lia.
Qed.
Lemma fit_length : forall n r, length (fit n r) = n.
Proof. intros. unfold fit. rewrite app_length, firstn_length, repeat_length. lia. Qed.
Lemma firstn_repeat : forall (x : Z) n m, firstn n (repeat x m) = repeat x (Nat.min n m).
Proof. induction n as [|n IH]; intros [|m]; cbn [repeat firstn Nat.min]; auto. now rewrite IH. Qed.
Lemma repeat_plus : forall (x : Z) n m, repeat x n ++ repeat x m = repeat x (n + m).
Proof. induction n as [|n IH]; intros m; cbn [repeat app Nat.add]; auto. now rewrite IH. Qed.
Lemma fit_spaces : forall n r k, fit n (r ++ repeat 32 k) = fit n r.
Proof.
  intros n r k. unfold fit. rewrite firstn_app, firstn_repeat, app_length, repeat_length, <- app_assoc, repeat_plus. do 2 f_equal. lia.
Qed.
Lemma fit_same : forall r, fit (length r) r = r.
Proof. intros r. unfold fit. rewrite firstn_all, Nat.sub_diag. apply app_nil_r. Qed.

(** *** Reading one USING file *)
Lemma read_loop : forall c k ld r fuel p h st f w a l s,
  k_good c k ld -> k_view c k ld f (mkQ Input (Some r) p false w a l s) -> (length r < fuel + p)%nat -> (p <= length r)%nat ->
  sinv h st -> s_out st = None -> s_status st = 0 -> s_len st = None -> s_return st = 0 ->
  Forall (sort_rec K size) (map (fit size) (skipn p r)) -> Z.of_nat (length (s_in st) + length (skipn p r)) + 1 < 2 ^ 64 ->
  exists h' f' st' a' l', read_records fuel c h f = Ok (h', f') /\ sinv h' st' /\
    s_in st' = s_in st ++ map (fun t => (Z.of_nat size, fit size t)) (skipn p r) /\
    s_out st' = None /\ s_status st' = 0 /\ s_len st' = None /\ s_return st' = 0 /\
    (l = None -> l' = None) /\ k_view c k ld f' (mkQ Input (Some r) (length r) true false a' l' 10).
Proof.
  intros c k ld r fuel. induction fuel as [|fuel IH]; intros p h st f w a l s G V FU P I O ST L RT SR N; [lia|].
  cbn [read_records].
  destruct (k_one c k ld f _ OReadNext G V) as (f1 & st1 & E & S & V1); [destruct k; exact Logic.I|]. rewrite E. cbn [obind].
  pose proof (view_facts _ _ _ _ _ V) as (_ & _ & _ & LA & _). cbn [q_area] in LA.
  pose proof (view_facts _ _ _ _ _ V1) as (F1 & F2 & F3 & F4 & F5 & F6 & F7).
  destruct (nth_error r p) as [t|] eqn:NT.
  - inv_step. assert (t0 = t) by congruence. subst t0. cbn [q_status q_area] in *. rewrite F1. change (10 <=? 0) with false. cbv iota.
    assert (skipn p r = t :: skipn (Datatypes.S p) r) as SK.
    { clear -NT. revert p NT. induction r as [|x r IH]; intros [|p] NT; try discriminate; cbn [nth_error] in NT.
      - injection NT as ->. reflexivity.
      - cbn [skipn]. apply IH. exact NT. }
    assert (p < length r)%nat as PL by (apply nth_error_Some; congruence).
    pose proof (SortHist.inv_common _ _ _ _ _ _ I) as CM.
    assert (legal_len : (length t <= longest k)%nat).
    { pose proof (nth_error_In _ _ NT) as IN. destruct k as [lo hi|hi]; cbn [k_view] in V; pose proof (w_valid _ _ _ _ _ _ _ _ _ _ V r eq_refl) as W;
        rewrite Forall_forall in W; specialize (W t IN); [unfold valid_rec in W|destruct W as [W _]]; cbn [longest]; lia. }
    assert (copy_check (h_size h) (h_area h) (f_size f1) (f_data f1) = Ok (fit size t)) as CC.
    { rewrite (cm_size _ _ _ _ _ _ CM), (cm_area _ _ _ _ _ _ CM), F2. pose proof (cm_rec _ _ _ _ _ _ CM) as [CL _].
      rewrite copy_whole; [|exact CL|rewrite F4].
      - f_equal. destruct k as [lo hi|hi]; cbn [k_fetch longest] in *.
        + destruct (view_last _ _ _ _ _ _ V1 eq_refl) as (r' & p' & t' & Q1 & Q2 & Q3 & Q4). cbn [q_file q_next] in *.
          injection Q1 as <-. injection Q2 as <-. rewrite NT in Q3. injection Q3 as <-. rewrite Q4. unfold seq_fetch. rewrite firstn_app, firstn_all, Nat.sub_diag. cbn [firstn]. now rewrite app_nil_r.
        + rewrite (F7 Logic.I). unfold line_fetch. rewrite LA. rewrite firstn_all2 by (rewrite app_length, repeat_length; lia). apply fit_spaces.
      - destruct k as [lo hi|hi].
        + destruct (view_last _ _ _ _ _ _ V1 eq_refl) as (r' & p' & t' & Q1 & Q2 & Q3 & Q4). cbn [q_file q_next] in *.
          injection Q1 as <-. injection Q2 as <-. rewrite NT in Q3. injection Q3 as <-. rewrite Q4. cbn [longest] in *. lia.
        + rewrite (F7 Logic.I). lia. }
    rewrite CC. cbn [obind]. rewrite SK in SR, N. cbn [map length] in SR, N. apply Forall_cons_iff in SR. destruct SR as [SR1 SR2].
    destruct (engine_put h st (fit size t) I O ST L SR1 ltac:(lia)) as (h1 & h2 & E1 & E2 & I2). rewrite E1. cbn [obind]. rewrite E2. cbn [obind].
    destruct (IH (Datatypes.S p) h2 _ f1 _ _ _ _ G V1 ltac:(lia) ltac:(lia) I2 eq_refl eq_refl eq_refl RT SR2) as (h' & f' & st' & a' & l' & R1 & R2 & R3 & R4 & R5 & R6 & R7 & R8 & R9).
    { cbn [s_in]. rewrite app_length. cbn [length]. lia. }
    exists h', f', st', a', l'. split; [exact R1|]. split; [exact R2|]. split; [|repeat (split; [assumption|]); split; [intros X; apply R8; rewrite X; reflexivity|exact R9]].
    rewrite R3. cbn [s_in]. rewrite SK. cbn [map]. rewrite <- app_assoc. reflexivity.
  - inv_step. cbn [q_status] in *. rewrite F1. change (10 <=? 10) with true. cbv iota.
    assert (p = length r) by (apply nth_error_None in NT; lia). subst p. rewrite skipn_all in *.
    exists h, f1, st, a, l. split; [reflexivity|]. split; [exact I|]. split; [symmetry; apply app_nil_r|]. auto 10.
Qed.

Lemma using_ok : forall c k rs fuel h st f, contains c k rs f -> (length (records rs) < fuel)%nat ->
  sinv h st -> s_out st = None -> s_status st = 0 -> s_len st = None -> s_return st = 0 ->
  Forall (sort_rec K size) (map (fit size) (records rs)) -> Z.of_nat (length (s_in st) + length (records rs)) + 1 < 2 ^ 64 ->
  exists h' f' st', sort_using fuel c h f = Ok (h', f') /\ sinv h' st' /\
    s_in st' = s_in st ++ map (fun t => (Z.of_nat size, fit size t)) (records rs) /\
    s_out st' = None /\ s_status st' = 0 /\ s_len st' = None /\ s_return st' = 0 /\
    contains c k rs f' /\ f_status f' = (match rs with None => 42 | Some _ => 0 end) /\ (f_dep f = None -> f_dep f' = None).
Proof.
  intros c k rs fuel h st f (ld & l & A) FU I O ST L RT SR N.
  pose proof (ar_good _ _ _ _ _ _ A) as G. pose proof (rest_view _ _ _ _ _ _ A) as V.
  unfold sort_using.
  destruct (k_one c k ld f _ (OOpen Input) G V) as (f1 & st1 & E & S & V1); [destruct k; cbn; auto|]. rewrite E. cbn [obind].
  assert (DN : forall f2 st2, k_view c k ld f2 st2 -> (l = None -> q_len st2 = None) -> f_dep f = None -> f_dep f2 = None).
  { intros f2 st2 V2 H D. pose proof (view_facts _ _ _ _ _ V2) as (_ & _ & _ & _ & _ & F6 & _). rewrite F6.
    pose proof (ar_dep _ _ _ _ _ _ A) as X. rewrite D in X. destruct l; [discriminate|]. rewrite H by reflexivity. reflexivity. }
  destruct rs as [r|]; cbn [records] in *.
  - inv_step.
    destruct (read_loop c k ld r fuel 0 h st f1 _ _ _ _ G V1 ltac:(lia) ltac:(lia) I O ST L RT SR N) as (h' & f2 & st' & a' & l' & R1 & R2 & R3 & R4 & R5 & R6 & R7 & LN & R8).
    rewrite R1. cbn [obind].
    destruct (k_one c k ld f2 _ (OClose CloseNormal) G R8) as (f3 & st3 & E3 & S3 & V3); [destruct k; reflexivity|]. rewrite E3. cbn [obind].
    inv_step. exists h', f3, st'. split; [reflexivity|]. split; [exact R2|]. split; [exact R3|]. repeat (split; [assumption|]).
    split; [|split].
    + exists ld, l'. exact (view_rest _ _ _ _ _ G V3 eq_refl eq_refl).
    + exact (proj1 (view_facts _ _ _ _ _ V3)).
    + exact (DN _ _ V3 LN).
  - inv_step; [exfalso; match goal with H : _ \/ _ |- _ => destruct H as [[? ?]|[? ?]]; discriminate end|]. pose proof (view_facts _ _ _ _ _ V1) as (F1 & F2 & F3 & F4 & F5 & F6 & F7).
    destruct fuel as [|fuel]; [lia|]. cbn [read_records].
    destruct (k_one c k ld f1 _ OReadNext G V1) as (f2 & st2 & E2 & S2 & V2); [destruct k; exact Logic.I|]. rewrite E2. cbn [obind].
    inv_step. pose proof (view_facts _ _ _ _ _ V2) as (X1 & _). cbn [q_status] in X1. rewrite X1. change (10 <=? 47) with true. cbv iota. cbn [obind].
    destruct (k_one c k ld f2 _ (OClose CloseNormal) G V2) as (f3 & st3 & E3 & S3 & V3); [destruct k; reflexivity|]. rewrite E3. cbn [obind].
    inv_step. exists h, f3, st. split; [reflexivity|]. split; [exact I|]. split; [symmetry; apply app_nil_r|]. repeat (split; [assumption|]).
    split; [|split].
    + exists ld, l. exact (view_rest _ _ _ _ _ G V3 eq_refl eq_refl).
    + exact (proj1 (view_facts _ _ _ _ _ V3)).
    + exact (DN _ _ V3 (fun x => x)).
Qed.

(** *** All USING files *)
Lemma use_ok : forall c (k : nat -> kind) rs fuel inputs h st fs,
  (forall i, In i inputs -> contains c (k i) (rs i) (fs i)) -> (length (flat_map (fun i => records (rs i)) inputs) < fuel)%nat ->
  sinv h st -> s_out st = None -> s_status st = 0 -> s_len st = None -> s_return st = 0 ->
  Forall (sort_rec K size) (all_records size rs inputs) -> Z.of_nat (length (s_in st) + length (all_records size rs inputs)) + 1 < 2 ^ 64 ->
  exists h' fs' st', use_files fuel c h inputs fs = Ok (h', fs') /\ sinv h' st' /\
    s_in st' = s_in st ++ map (fun t => (Z.of_nat size, t)) (all_records size rs inputs) /\
    s_out st' = None /\ s_status st' = 0 /\ s_len st' = None /\ s_return st' = 0 /\
    (forall i, In i inputs -> contains c (k i) (rs i) (fs' i) /\ f_status (fs' i) = (match rs i with None => 42 | Some _ => 0 end)) /\
    (forall i, ~ In i inputs -> fs' i = fs i) /\ (forall i, f_dep (fs i) = None -> f_dep (fs' i) = None).
Proof.
  intros c k rs fuel. induction inputs as [|i inputs IH]; intros h st fs C FU I O ST L RT SR N.
  - exists h, fs, st. split; [reflexivity|]. split; [exact I|]. split; [symmetry; apply app_nil_r|]. repeat (split; [assumption|]).
    split; [intros ? []|]. split; [reflexivity|auto].
  - cbn [use_files]. unfold all_records in *. cbn [flat_map] in *. rewrite map_app in *. rewrite !app_length in *. rewrite !map_length in N.
    apply Forall_app in SR. destruct SR as [SR1 SR2].
    destruct (using_ok c (k i) (rs i) fuel h st (fs i) (C i (or_introl eq_refl)) ltac:(lia) I O ST L RT SR1 ltac:(lia))
      as (h1 & f1 & st1 & E1 & I1 & X1 & X2 & X3 & X4 & X5 & X6 & X7 & X8). rewrite E1. cbn [obind].
    destruct (IH h1 st1 (put_file fs i f1)) as (h2 & fs2 & st2 & E2 & I2 & Y1 & Y2 & Y3 & Y4 & Y5 & Y6 & Y7 & Y8); auto.
    + intros j J. unfold put_file. destruct (Nat.eqb_spec j i) as [->|NE]; [exact X6|]. apply C. now right.
    + lia.
    + rewrite X1, app_length, !map_length. lia.
    + exists h2, fs2, st2. split; [exact E2|]. split; [exact I2|]. split; [|repeat (split; [assumption|]); split; [|split]].
      * rewrite Y1, X1, <- app_assoc. do 2 f_equal. rewrite map_app, !map_map. reflexivity.
      * intros j J. destruct (in_dec Nat.eq_dec j inputs) as [J'|J']; [exact (Y6 j J')|]. destruct J as [<-|J]; [|contradiction].
        rewrite (Y7 i J'). unfold put_file. rewrite Nat.eqb_refl. auto.
      * intros j J. rewrite Y7 by (intros X; apply J; now right). unfold put_file.
        destruct (Nat.eqb_spec j i) as [->|NE]; [elim J; now left|reflexivity].
      * intros j D. apply Y8. unfold put_file. destruct (Nat.eqb_spec j i) as [->|NE]; auto.
Qed.

(** *** GIVING *)
Lemma each_ok : forall op l fs, NoDup l -> (forall i, In i l -> exists f, op (fs i) = Ok f) ->
  exists fs', each op l fs = Ok fs' /\ (forall i, In i l -> op (fs i) = Ok (fs' i)) /\ (forall i, ~ In i l -> fs' i = fs i).
Proof.
  intros op l. induction l as [|i l IH]; intros fs D H.
  - exists fs. split; [reflexivity|]. split; [intros ? []|reflexivity].
  - apply NoDup_cons_iff in D. destruct D as [NI D]. destruct (H i (or_introl eq_refl)) as (f & E). cbn [each]. rewrite E. cbn [obind].
    destruct (IH (put_file fs i f) D) as (fs' & E' & A & B).
    { intros j J. unfold put_file. destruct (Nat.eqb_spec j i) as [->|NE]; [contradiction|]. apply H. now right. }
    exists fs'. split; [exact E'|]. split.
    + intros j JJ. destruct JJ as [<-|J].
      * rewrite (B i NI). unfold put_file. rewrite Nat.eqb_refl. exact E.
      * specialize (A j J). unfold put_file in A. destruct (Nat.eqb_spec j i) as [EQ|NE]; [exfalso; apply NI; rewrite <- EQ; exact J|exact A].
    + intros j J. rewrite B by (intros X; apply J; now right). unfold put_file. destruct (Nat.eqb_spec j i) as [->|NE]; [elim J; now left|reflexivity].
Qed.

Lemma text_fit : forall nulls n r, line_text nulls r -> line_text nulls (fit n r).
Proof.
  intros nulls n r [->|[A B]]; [left; reflexivity|right]. unfold fit. split; intros X; apply in_app_or in X; destruct X as [X|X].
  - apply A. rewrite <- (firstn_skipn n r). apply in_or_app. now left.
  - apply repeat_spec in X. discriminate.
  - apply B. rewrite <- (firstn_skipn n r). apply in_or_app. now left.
  - apply repeat_spec in X. discriminate.
Qed.

Lemma give_ok : forall c k ld h st f ts p e w a s, k_good c k ld -> whole k -> k_view c k ld f (mkQ Output (Some ts) p e w a None s) ->
  sinv h st -> text_ok c k (s_area st) ->
  exists f' t w' a' s', give_record c h f = Ok f' /\ k_keeps c k (fit (longest k) (s_area st)) t /\
    k_view c k ld f' (mkQ Output (Some (ts ++ [t])) p e w' a' None s').
Proof.
  intros c k ld h st f ts p e w a s G W V I T. unfold give_record.
  pose proof (view_facts _ _ _ _ _ V) as (F1 & F2 & F3 & F4 & F5 & F6 & F7). cbn [q_area] in *.
  pose proof (SortHist.inv_common _ _ _ _ _ _ I) as CM. pose proof (cm_rec _ _ _ _ _ _ CM) as [CL _].
  rewrite (F7 W), F2, (cm_size _ _ _ _ _ _ CM), (cm_area _ _ _ _ _ _ CM). rewrite copy_whole by (auto; lia). cbn [obind].
  rewrite firstn_all2 by lia. set (d := fit (longest k) (s_area st)).
  assert (length d = longest k) as LD by apply fit_length.
  destruct (k_one c k ld f _ (OSet d) G V) as (f1 & st1 & E1 & S1 & V1).
  { destruct k as [lo hi|hi]; cbn [k_op seq_op line_op longest] in *; [exact LD|]. split; [exact LD|]. apply text_fit. exact T. }
  rewrite E1. cbn [obind]. inv_step. pose proof (view_facts _ _ _ _ _ V1) as (X1 & X2 & X3 & X4 & X5 & X6 & X7). rewrite (X7 W), X5.
  destruct (k_one c k ld f1 _ (OWrite (longest k) (match k_org k with OrgLineSequential => WBefore (AdvLines 1) | _ => WNone end)) G V1) as (f2 & st2 & E2 & S2 & V2).
  { destruct k as [lo hi|hi]; cbn [k_op seq_op line_op longest k_org whole] in *; split; auto. }
  rewrite E2. unfold k_step in S2. inversion S2; subst; try discriminate; cbn [wlen] in *.
  - exfalso. match goal with H : ~ _ |- _ => apply H end. destruct k as [lo hi|hi]; cbn [shortest longest whole] in *; [destruct G as [_ [G _]]|]; lia.
  - exists f2, t. do 3 eexists. split; [reflexivity|]. split; [|exact V2].
    match goal with H : k_keeps _ _ _ _ |- _ => rewrite Nat2Z.id, <- LD, firstn_all in H; exact H end.
Qed.

Definition giving_state (c : iocfg) (k : kind) (out : list (Z * list Z)) (f : cfile) : Prop :=
  exists ld ts p e w a s, k_good c k ld /\ k_view c k ld f (mkQ Output (Some ts) p e w a None s) /\
    Forall2 (fun x t => k_keeps c k (fit (longest k) (snd x)) t) out ts.

Lemma give_all : forall c (k : nat -> kind) outputs fuel st h fs done, NoDup outputs -> (forall i, In i outputs -> whole (k i)) ->
  (forall i, In i outputs -> giving_state c (k i) done (fs i)) ->
  sinv h st -> s_status st = 0 -> s_len st = None -> s_return st = 0 ->
  (forall out, s_out st = Some out -> (length out < fuel)%nat) -> (s_out st = None -> (length (s_in st) < fuel)%nat) ->
  Z.of_nat (length (s_in st)) + 1 < 2 ^ 64 ->
  (forall i out x, In i outputs -> s_out st = Some out \/ (s_out st = None /\ in_order K (s_in st) out) -> In x out -> text_ok c (k i) (snd x)) ->
  exists h' fs' out, give_records fuel c h outputs fs = Ok (h', fs') /\
    (s_out st = None -> in_order K (s_in st) out) /\ (forall o, s_out st = Some o -> out = o) /\
    h_return h' = 0 /\ h_status h' = 10 /\
    (forall i, In i outputs -> giving_state c (k i) (done ++ out) (fs' i)) /\ (forall i, ~ In i outputs -> fs' i = fs i).
Proof.
  intros c k outputs fuel. induction fuel as [|fuel IH]; intros st h fs done ND W V I ST L RT FU FU' N T.
  { exfalso. destruct (s_out st) as [o|] eqn:E; [specialize (FU o eq_refl)|specialize (FU' eq_refl)]; lia. }
  cbn [give_records]. destruct (engine_take h st I L N) as (out & h1 & T1 & T2 & E & T3 & T4). rewrite E. cbn [obind].
  assert (OUT : s_out st = Some out \/ (s_out st = None /\ in_order K (s_in st) out)).
  { destruct (s_out st) as [o|]; [left; f_equal; symmetry; auto|right; auto]. }
  assert (LO : (length out < Datatypes.S fuel)%nat).
  { destruct OUT as [O|[O IO]]; [auto|]. rewrite <- (Permutation_length (C24_permutation _ _ _ IO)). auto. }
  destruct out as [|x rest].
  - rewrite T4. change (10 =? 0) with false. cbv iota. exists h1, fs, []. split; [reflexivity|]. split; [exact T1|]. split; [exact T2|].
    split; [congruence|]. split; [exact T4|]. rewrite app_nil_r. split; [exact V|reflexivity].
  - destruct T4 as (A1 & A2 & I1). rewrite A1. change (0 =? 0) with true. cbv iota. cbv zeta.
    pose proof (cm_status _ _ _ _ _ _ (SortHist.inv_common _ _ _ _ _ _ I)) as CS. rewrite ST in CS. rewrite CS, (sorter_eta 0 h1 A1).
    destruct (each_ok (give_record c h1) outputs fs ND) as (fs1 & E1 & B1 & B2).
    { intros i J. destruct (V i J) as (ld & ts & p & e & w & a & s & G & VV & FF).
      destruct (give_ok c (k i) ld h1 _ (fs i) ts p e w a s G (W i J) VV I1) as (f' & _ & _ & _ & _ & E' & _).
      - cbn [s_area]. exact (T i _ x J OUT (or_introl eq_refl)).
      - eauto. }
    rewrite E1. cbn [obind].
    destruct (IH (mkS (s_in st) (Some rest) (snd x) None (s_return st) 0) h1 fs1 (done ++ [x]) ND W) as (h2 & fs2 & out2 & R1 & R2 & R3 & R4 & R5 & R6 & R7); cbn [s_out s_in s_status s_len s_return] in *; auto; try discriminate.
    + intros i J. destruct (V i J) as (ld & ts & p & e & w & a & s & G & VV & FF).
      destruct (give_ok c (k i) ld h1 _ (fs i) ts p e w a s G (W i J) VV I1) as (f' & t & w' & a' & s' & E' & KK & VV').
      { cbn [s_area]. exact (T i _ x J OUT (or_introl eq_refl)). }
      specialize (B1 i J). rewrite B1 in E'. injection E' as <-. exists ld, (ts ++ [t]), p, e, w', a', s'. split; [exact G|]. split; [exact VV'|].
      apply Forall2_app; [exact FF|]. constructor; [exact KK|constructor].
    + intros o [= <-]. cbn [length] in LO. lia.
    + intros i o y J [[= <-]|[? _]]; [|discriminate]. intros Y. exact (T i _ y J OUT (or_intror Y)).
    + exists h2, fs2, (x :: rest). split; [exact R1|]. split; [exact T1|]. split; [exact T2|]. split; [exact R4|]. split; [exact R5|].
      rewrite (R3 rest eq_refl) in R6. rewrite <- app_assoc in R6. split; [exact R6|]. intros i J. rewrite R7, B2 by exact J. reflexivity.
Qed.
End Engine.
