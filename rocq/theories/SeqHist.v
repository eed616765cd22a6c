(** Histories of SEQUENTIAL and LINE SEQUENTIAL files: the common part. *)
From Verif Require Import Base BaseFacts Stdio StdioProofs FileIO SpecFile SpecSeq RelHist RelNext.

Section Hist.
Variables (c : iocfg) (org : organization) (lo hi : nat) (ld : Z).
Variables (keeps : list Z -> list Z -> Prop) (fetch : list Z -> list Z -> list Z).
Variables (enc : list Z -> list Z) (valid : list Z -> Prop) (okarea : list Z -> Prop) (okop : op -> Prop) (sized : bool).

Definition encs (l : list (list Z)) : list Z := flat_map enc l.
Lemma encs_app : forall a b, encs (a ++ b) = encs a ++ encs b.
Proof. intros. unfold encs. apply flat_map_app. Qed.
Lemma encs_one : forall t, encs [t] = enc t.
Proof. intros t. unfold encs. cbn [flat_map]. apply app_nil_r. Qed.
Definition dep_item (l : option Z) : option item := match l with Some v => Some (mkItem v ld) | None => None end.

Definition stream_ok (st : qstate) (stm : option stream) (dsk : option (list Z)) : Prop :=
  match q_open st with
  | Closed => dsk = option_map encs (q_file st)
  | Input | InOut => exists r, q_file st = Some r /\ (q_next st <= length r)%nat /\
      stm = Some (mkStream (encs r) (length (encs (firstn (q_next st) r))) false)
  | Output | Extend => exists r p ap, q_file st = Some r /\ stm = Some (mkStream (encs r) p ap) /\ (ap = true \/ p = length (encs r))
  | Locked => False
  end.

Record seq_view (f : cfile) (st : qstate) : Prop := mkSV {
  w_org : f_org f = org; w_acc : f_access f = AccSequential; w_opt : f_optional f = false; w_ne : f_nonexistent f = false;
  w_min : f_min f = lo; w_max : f_max f = hi; w_open : f_open f = q_open st; w_eof : f_eof f = q_eof st; w_done : f_read_done f = q_done st;
  w_nl : f_needs_nl f = false; w_area : f_data f = q_area st; w_alen : length (q_area st) = hi; w_aok : okarea (q_area st);
  w_dep : f_dep f = dep_item (q_len st); w_lpos : forall v, q_len st = Some v -> 0 <= v; w_lmax : lo = hi \/ sized = true -> forall v, q_len st = Some v -> v <= Z.of_nat hi;
  w_status : f_status f = q_status st;
  w_size : lo = hi \/ sized = true -> f_size f = hi;
  w_last : q_done st = true -> sized = false -> exists r p t, q_file st = Some r /\ q_next st = S p /\ nth_error r p = Some t /\ f_size f = length t;
  w_fixed : lo = hi -> sized = false -> q_len st = None;
  w_file : stream_ok st (f_stream f) (f_disk f);
  w_valid : forall r, q_file st = Some r -> Forall valid r }.

Definition seq_goal (f : cfile) (st : qstate) (o : op) : Prop :=
  exists f' st', run_op c f o = Ok f' /\ seq_step lo hi (io_creates c) (io_ext_creates c) keeps fetch st o st' /\ seq_view f' st'.

(** What the organization must provide. *)
Hypothesis WRITE : forall f r n p ap x, okop (OWrite n x) -> f_org f = org -> f_min f = lo -> f_max f = hi -> length (f_data f) = hi -> okarea (f_data f) -> f_needs_nl f = false ->
  (lo <= f_size f <= hi)%nat -> f_stream f = Some (mkStream (encs r) p ap) -> ap = true \/ p = length (encs r) ->
  exists t p', org_write c f x = Ok (0, set_nl false (set_stream (Some (mkStream (encs (r ++ [t])) p' ap)) f)) /\
    keeps (firstn (f_size f) (f_data f)) t /\ valid t /\ (ap = true \/ p' = length (encs (r ++ [t]))).
Hypothesis READ : forall f t A B, f_org f = org -> f_min f = lo -> f_max f = hi -> length (f_data f) = hi -> okarea (f_data f) -> valid t -> (lo = hi \/ sized = true -> f_size f = hi) ->
  f_stream f = Some (mkStream (A ++ enc t ++ B) (length A) false) ->
  exists f1, org_read_next c f = Ok (0, f1) /\
    f_org f1 = org /\ f_access f1 = f_access f /\ f_optional f1 = f_optional f /\ f_nonexistent f1 = f_nonexistent f /\
    f_min f1 = lo /\ f_max f1 = hi /\ f_open f1 = f_open f /\ f_needs_nl f1 = f_needs_nl f /\ f_disk f1 = f_disk f /\
    f_data f1 = fetch (f_data f) t /\ length (f_data f1) = hi /\ okarea (f_data f1) /\
    f_stream f1 = Some (mkStream (A ++ enc t ++ B) (length (A ++ enc t)) false) /\
    (lo = hi \/ sized = true -> f_size f1 = hi) /\ (sized = false -> f_size f1 = length t) /\
    match org with
    | OrgLineSequential => f_dep f1 = match f_dep f with Some d => Some (item_set d (Z.of_nat (length t))) | None => None end
    | _ => f_dep f1 = f_dep f /\ f_size f1 = length t end.
Hypothesis READ_END : forall f, f_org f = org -> f_min f = lo -> f_max f = hi -> length (f_data f) = hi -> (lo = hi \/ sized = true -> f_size f = hi) ->
  forall bs, f_stream f = Some (mkStream bs (length bs) false) ->
  org_read_next c f = Ok (10, f).
Hypothesis REWRITE : forall f A t B n, okop (ORewrite n) -> f_org f = org -> length (f_data f) = hi -> valid t -> f_size f = length t ->
  f_stream f = Some (mkStream (A ++ enc t ++ B) (length (A ++ enc t)) false) ->
  org_rewrite f = Ok (0, set_stream (Some (mkStream (A ++ enc (firstn (length t) (f_data f)) ++ B) (length (A ++ enc t)) false)) f) /\
  length (enc (firstn (length t) (f_data f))) = length (enc t) /\ valid (firstn (length t) (f_data f)).
Hypothesis ORG : match org with OrgSequential => sized = false | OrgLineSequential => sized = true /\ (forall n, ~ okop (ORewrite n)) /\ ~ okop (OOpen InOut) | _ => False end.
Hypothesis OPS : forall o, okop o -> match o with
  | OOpen md => md = Input \/ md = Output \/ md = InOut \/ md = Extend
  | OClose k => k = CloseNormal
  | ODep n => 0 <= n < 10 ^ ld /\ (sized = true -> n <= Z.of_nat hi)
  | OSet d => length d = hi /\ okarea d
  | OWrite n x => (lo = hi \/ sized = true -> (n <= hi)%nat) /\ (lo = hi -> sized = false -> n = hi)
  | OReadNext | ORewrite _ => True
  | _ => False
  end.
Hypothesis VLEN : forall t, valid t -> (length t <= hi)%nat.
Hypothesis LD : Z.of_nat hi < 10 ^ ld.
Hypothesis LS0 : sized = true -> lo = 0%nat.

Ltac qf := cbn [f_org f_access f_optional f_min f_max f_dep f_key f_data f_size f_open f_nonexistent f_eof f_bof f_first f_read_done f_needs_nl f_stream f_disk f_status
   set_dep set_key set_data set_size set_open set_flags set_first set_done set_nl set_stream set_disk set_status
   q_open q_file q_next q_eof q_done q_area q_len q_status] in *.
Ltac opened := destruct 1 as [V1 V2 V3 V4 V5 V6 V7 V8 V9 V10 V11 V12 V13 V14 V15 VM V16 V17 V18 V19 V20 V21].

Lemma q_open_step : forall f st md, seq_view f st -> okop (OOpen md) -> seq_goal f st (OOpen md).
Proof.
  intros f [o fl p e w a l s] md V OK. destruct V as [V1 V2 V3 V4 V5 V6 V7 V8 V9 V10 V11 V12 V13 V14 V15 VM V16 V17 V18 V19 V20 V21]. qf.
  pose proof (OPS _ OK) as MD. cbn beta iota in MD. unfold seq_goal. change (run_op c f (OOpen md)) with (ex_open c f md). unfold ex_open. qf. rewrite V7.
  destruct o; unfold stream_ok in V20; qf; try contradiction.
  2,3,4,5: (eexists; eexists; split; [reflexivity|]; split; [apply qs_open_again; discriminate|]; constructor; qf; auto; discriminate).
  rewrite V20. destruct fl as [r|]; cbn [option_map andb].
  - unfold file_open. qf. rewrite V20. cbn [option_map]. destruct MD as [-> | [-> | [-> | ->]]]; unfold ret; cbv zeta; cbv iota; qf; rewrite ?V3; cbn [andb].
    + eexists; eexists; split; [reflexivity|]; split; [apply qs_open; reflexivity|]. constructor; qf; auto; try discriminate.
      unfold stream_ok; qf. exists r. split; auto. split; [lia|reflexivity].
    + eexists; eexists; split; [reflexivity|]; split; [apply qs_open_output|]. constructor; qf; auto; try discriminate.
      * unfold stream_ok; qf. exists [], 0%nat, false. auto.
      * intros r' E. injection E as <-. constructor.
    + eexists; eexists; split; [reflexivity|]; split; [apply qs_open; reflexivity|]. constructor; qf; auto; try discriminate.
      unfold stream_ok; qf. exists r. split; auto. split; [lia|reflexivity].
    + eexists; eexists; split; [reflexivity|]; split; [apply qs_open_extend; reflexivity|]. constructor; qf; auto; try discriminate.
      unfold stream_ok; qf. exists r, (length (encs r)), true. auto.
  - unfold file_open. qf. rewrite V20. cbn [option_map]. rewrite V3.
    destruct MD as [-> | [-> | [-> | ->]]]; unfold ret; cbv zeta; cbv iota; qf; rewrite ?V3; cbn [andb negb].
    + eexists; eexists; split; [reflexivity|]; split; [apply qs_open_missing; auto|]. constructor; qf; auto; discriminate.
    + eexists; eexists; split; [reflexivity|]; split; [apply qs_open_output|]. constructor; qf; auto; try discriminate.
      * unfold stream_ok; qf. exists [], 0%nat, false. auto.
      * intros r' E. injection E as <-. constructor.
    + destruct (io_creates c) eqn:IC; cbn [negb andb]; qf; rewrite ?V3; cbn [andb].
      * eexists; eexists; split; [reflexivity|]; split; [apply qs_open_create; auto|]. constructor; qf; auto; try discriminate.
        -- unfold stream_ok; qf. exists []. split; auto.
        -- intros r' E. injection E as <-. constructor.
      * eexists; eexists; split; [reflexivity|]; split; [apply qs_open_missing; auto|]. constructor; qf; auto; discriminate.
    + destruct (io_ext_creates c) eqn:IC; cbn [negb andb]; qf; rewrite ?V3; cbn [andb].
      * eexists; eexists; split; [reflexivity|]; split; [apply qs_open_create; auto|]. constructor; qf; auto; try discriminate.
        -- unfold stream_ok; qf. exists [], 0%nat, true. auto.
        -- intros r' E. injection E as <-. constructor.
      * eexists; eexists; split; [reflexivity|]; split; [apply qs_open_missing; auto|]. constructor; qf; auto; discriminate.
Qed.

Lemma q_close_step : forall f st, seq_view f st -> seq_goal f st (OClose CloseNormal).
Proof.
  intros f [o fl p e w a l s] V. destruct V as [V1 V2 V3 V4 V5 V6 V7 V8 V9 V10 V11 V12 V13 V14 V15 VM V16 V17 V18 V19 V20 V21]. qf.
  unfold seq_goal. change (run_op c f (OClose CloseNormal)) with (ex_close f CloseNormal). unfold ex_close. qf. rewrite V7, V4.
  assert (FC : forall stm, f_stream f = Some stm ->
     file_close (set_done false f) CloseNormal = Ok (0, set_stream None (set_disk (Some (s_bytes stm)) (set_done false f)))).
  { intros stm E. unfold file_close, with_stream. qf. rewrite E, V1, V10. destruct org; reflexivity. }
  destruct o; unfold stream_ok in V20; qf; try contradiction.
  { eexists; eexists; split; [reflexivity|]; split; [apply qs_close_again|]. constructor; qf; auto; discriminate. }
  all: assert (E : exists stm r, f_stream f = Some stm /\ fl = Some r /\ s_bytes stm = encs r);
    [first [destruct V20 as (r & p' & ap & E1 & E3 & E2) | destruct V20 as (r & E1 & E2 & E3)]; rewrite E3; do 2 eexists; split; [reflexivity|split; [exact E1|reflexivity]]|].
  all: destruct E as (stm & r & E1 & E2 & E3); rewrite (FC stm E1); cbn [obind]; change (0 =? 0) with true; cbv iota; unfold ret.
  all: eexists; eexists; split; [reflexivity|]; split; [apply qs_close; discriminate|]; constructor; qf; auto; try discriminate.
  all: unfold stream_ok; qf; rewrite E2, E3; reflexivity.
Qed.

Lemma q_move_step : forall f st o, seq_view f st -> okop o -> match o with OSet _ | ODep _ => seq_goal f st o | _ => True end.
Proof.
  intros f [o fl p e w a l s] oo V OK. destruct V as [V1 V2 V3 V4 V5 V6 V7 V8 V9 V10 V11 V12 V13 V14 V15 VM V16 V17 V18 V19 V20 V21]. qf.
  pose proof (OPS _ OK) as MD. destruct oo; auto; cbn beta iota in MD; unfold seq_goal; cbn [run_op].
  - eexists; eexists; split; [reflexivity|]; split; [apply qs_set|]. destruct MD. constructor; qf; auto.
  - rewrite V14. destruct l as [v|]; cbn [dep_item].
    + eexists; eexists; split; [reflexivity|]; split; [apply qs_dep|]. cbn [set_len]. destruct MD as [M1 M2]. constructor; qf; auto.
      * rewrite item_set_id by auto. reflexivity.
      * intros v' E. injection E as <-. lia.
      * intros SZ v' E. injection E as <-. destruct SZ as [SZ|SZ]; [|auto]. destruct sized; auto. specialize (V19 SZ eq_refl). discriminate.
      * intros X Y. specialize (V19 X Y). discriminate.
    + eexists; eexists; split; [reflexivity|]; split; [apply qs_dep|]. cbn [set_len]. constructor; qf; auto.
Qed.

Lemma q_write_step : forall f st n x, seq_view f st -> okop (OWrite n x) -> seq_goal f st (OWrite n x).
Proof.
  intros f [o fl p e w a l s] n x V OK. destruct V as [V1 V2 V3 V4 V5 V6 V7 V8 V9 V10 V11 V12 V13 V14 V15 VM V16 V17 V18 V19 V20 V21]. qf.
  pose proof (OPS _ OK) as MD. cbn beta iota in MD. destruct MD as [MD1 MD2]. unfold seq_goal. change (run_op c f (OWrite n x)) with (ex_write c f n x). unfold ex_write. qf. rewrite V2, V7.
  destruct (writes o) eqn:WR.
  2:{ assert (E : match o with Closed | Input | InOut => true | _ => false end = true).
      { destruct o; try discriminate WR; auto. }
      replace (match o with Closed | Input | InOut => true | _ => false end) with true by (symmetry; exact E). unfold ret.
      eexists; eexists; split; [reflexivity|]; split; [apply qs_write_denied; exact WR|]. constructor; qf; auto; discriminate. }
  replace (match o with Closed | Input | InOut => true | _ => false end) with false by (destruct o; try discriminate WR; auto).
  cbv iota. set (len := match f_dep f with Some d => Z.to_nat (i_val d) | None => n end).
  assert (EL : Z.of_nat len = wlen l n).
  { unfold len. rewrite V14. destruct l as [v|]; cbn [dep_item i_val wlen]; [|reflexivity]. specialize (V15 v eq_refl). lia. }
  assert (NS : lo = hi \/ sized = true -> Z.of_nat lo <= Z.of_nat len <= Z.of_nat hi).
  { intros SZ. rewrite EL. unfold wlen. destruct l as [v|].
    - specialize (V15 v eq_refl). specialize (VM SZ v eq_refl). destruct sized eqn:SZE.
      + rewrite (LS0 eq_refl). lia.
      + destruct SZ as [SZ|SZ]; [|discriminate]. specialize (V19 SZ eq_refl). discriminate.
    - specialize (MD1 SZ). destruct sized eqn:SZE; [rewrite (LS0 eq_refl); lia|]. destruct SZ as [SZ|SZ]; [|discriminate].
      rewrite (MD2 SZ eq_refl). lia. }
  assert (ST : exists r p' ap, fl = Some r /\ f_stream f = Some (mkStream (encs r) p' ap) /\ (ap = true \/ p' = length (encs r))).
  { unfold stream_ok in V20. qf. destruct o; try discriminate WR; exact V20. }
  destruct ((len <? f_min f)%nat || (f_max f <? len)%nat) eqn:BAD.
  { unfold ret. eexists; eexists; split; [reflexivity|].
    assert (BB : ~ (Z.of_nat lo <= wlen l n <= Z.of_nat hi)).
    { rewrite <- EL. rewrite V5, V6 in BAD. apply orb_true_iff in BAD. destruct BAD as [B|B]; apply Nat.ltb_lt in B; lia. }
    split; [apply qs_write_size; [exact WR|exact BB]|]. constructor; qf; auto; try discriminate.
    intros SZ. exfalso. apply BB. rewrite <- EL. apply NS. exact SZ. }
  rewrite V5, V6 in BAD. apply orb_false_iff in BAD. destruct BAD as [B1 B2]. apply Nat.ltb_ge in B1, B2.
  destruct ST as (r & p' & ap & E1 & E2 & E3).
  destruct (WRITE (set_size len (set_done false f)) r n p' ap x OK) as (t & p2 & W1 & W2 & W3 & W4); qf; auto; try congruence.
  rewrite W1. cbn [obind]. unfold ret. qf. eexists; eexists; split; [reflexivity|].
  rewrite E1. split; [apply qs_write with (t := t); [exact WR|rewrite <- EL; lia|]|].
  - rewrite <- EL, Nat2Z.id, <- V11. exact W2.
  - constructor; qf; auto; try discriminate.
    + unfold stream_ok. qf. destruct o; try discriminate WR; do 3 eexists; (split; [reflexivity|]); (split; [reflexivity|]); exact W4.
    + intros r' E. injection E as <-. apply Forall_app. split; [apply V21; auto|constructor; auto].
Qed.

Lemma firstn_succ : forall (r : list (list Z)) p t, nth_error r p = Some t -> firstn (S p) r = firstn p r ++ [t].
Proof.
  induction r as [|x r IH]; intros p t N; [destruct p; discriminate|]. destruct p as [|p]; [injection N as ->; reflexivity|].
  cbn [nth_error] in N. change (firstn (S (S p)) (x :: r)) with (x :: firstn (S p) r). change (firstn (S p) (x :: r)) with (x :: firstn p r). rewrite (IH p t N). reflexivity.
Qed.
Lemma split_rec : forall (r : list (list Z)) p t, nth_error r p = Some t -> r = firstn p r ++ t :: skipn (S p) r.
Proof.
  induction r as [|x r IH]; intros p t N; [destruct p; discriminate|]. destruct p as [|p]; [injection N as ->; reflexivity|].
  cbn [nth_error] in N. change (skipn (S (S p)) (x :: r)) with (skipn (S p) r). change (firstn (S p) (x :: r)) with (x :: firstn p r). cbn [app]. f_equal. apply IH. exact N.
Qed.
Lemma encs_split : forall r p t, nth_error r p = Some t -> encs r = encs (firstn p r) ++ enc t ++ encs (skipn (S p) r).
Proof. intros r p t N. rewrite (split_rec r p t N) at 1. rewrite encs_app. reflexivity. Qed.

Lemma q_read_step : forall f st, seq_view f st -> seq_goal f st OReadNext.
Proof.
  intros f [o fl p e w a l s] V. destruct V as [V1 V2 V3 V4 V5 V6 V7 V8 V9 V10 V11 V12 V13 V14 V15 VM V16 V17 V18 V19 V20 V21]. qf.
  unfold seq_goal. change (run_op c f OReadNext) with (ex_read c f false). unfold ex_read. qf. rewrite V4, V8. cbn [negb].
  destruct e; cbn [andb].
  { unfold ret. eexists; eexists; split; [reflexivity|]; split; [apply qs_read_past|]. constructor; qf; auto; discriminate. }
  rewrite V7. destruct (reads o) eqn:RD.
  2:{ assert (DEN : forall A (x y : A), match o with Closed | Output | Extend => x | _ => y end = x).
      { intros. destruct o; try discriminate RD; auto. unfold stream_ok in V20. qf. contradiction. }
      rewrite DEN. unfold ret. eexists; eexists; split; [reflexivity|]; split; [apply qs_read_denied; exact RD|]. constructor; qf; auto; discriminate. }
  assert (DEN : forall A (x y : A), match o with Closed | Output | Extend => x | _ => y end = y) by (intros; destruct o; try discriminate RD; auto).
  rewrite DEN. clear DEN.
  assert (ST : exists r, fl = Some r /\ (p <= length r)%nat /\ f_stream f = Some (mkStream (encs r) (length (encs (firstn p r))) false)).
  { unfold stream_ok in V20. qf. destruct o; try discriminate RD; exact V20. }
  destruct ST as (r & -> & PL & ST). destruct (nth_error r p) as [t|] eqn:N.
  - assert (VT : valid t) by (eapply Forall_forall; [apply V21; reflexivity|eapply nth_error_In; eauto]).
    pose proof ST as ST'. rewrite (encs_split r p t N) in ST'.
    destruct (READ (set_done false f) t (encs (firstn p r)) (encs (skipn (S p) r))) as (f1 & R0 & R1 & R2 & R3 & R4 & R5 & R6 & R7 & R8 & R9 & R10 & R11 & R12 & R13 & R14 & R15 & R16); qf; auto; try congruence.
    rewrite <- (encs_split r p t N) in R13.
    rewrite R0. cbn [obind]. change (0 =? 0) with true. cbv iota.
    assert (LT := VLEN t VT).
    set (h := match f_dep _ with None => _ | Some _ => _ end).
    assert (EH : h = set_dep (dep_item (set_len l (Z.of_nat (length t)))) (set_flags (f_nonexistent f1) false false (set_done true (set_first 0 f1)))).
    { unfold h. qf. rewrite R1. destruct org.
      - destruct R16 as [R16 R17]. rewrite R16, V14. destruct l as [v|]; cbn [dep_item set_len].
        + rewrite R17. rewrite item_set_id by (cbn [i_digits]; lia). reflexivity.
        + destruct f1; qf. rewrite V14 in R16. cbn [dep_item] in R16. subst. reflexivity.
      - rewrite V14 in R16. destruct l as [v|]; cbn [dep_item set_len] in *.
        + rewrite R16. rewrite item_set_id in R16 by (cbn [i_digits]; lia). cbn [i_digits] in R16. destruct f1; qf. subst. reflexivity.
        + rewrite R16. destruct f1; qf. subst. reflexivity.
      - contradiction. }
    rewrite EH. clear h EH. unfold ret. eexists; eexists; split; [reflexivity|]; split; [apply qs_read; eauto|].
    constructor; qf; auto; try congruence.
    + intros v E. destruct l; [|discriminate]. injection E as <-. lia.
    + intros _ v E. destruct l; [|discriminate]. injection E as <-. lia.
    + intros _ SF. exists r, p, t. auto.
    + intros X Y. rewrite (V19 X Y). reflexivity.
    + unfold stream_ok. qf. destruct o; try discriminate RD; (exists r; split; [reflexivity|]; split; [apply nth_error_Some; congruence|]);
        rewrite R13, (firstn_succ r p t N), encs_app, encs_one; reflexivity.
  - apply nth_error_None in N. assert (EP : p = length r) by lia. rewrite EP, firstn_all in ST.
    rewrite (READ_END (set_done false f)) with (bs := encs r); qf; auto; [|congruence].
    cbn [obind]. change (10 =? 0) with false. change (10 =? 10) with true. cbv iota. unfold ret. qf.
    eexists; eexists; split; [reflexivity|]; split; [apply qs_read_end; [exact RD|apply nth_error_None; lia]|].
    constructor; qf; auto; discriminate.
Qed.

Lemma q_rewrite_step : forall f st n, seq_view f st -> okop (ORewrite n) -> seq_goal f st (ORewrite n).
Proof.
  intros f [o fl p e w a l s] n V OK. destruct V as [V1 V2 V3 V4 V5 V6 V7 V8 V9 V10 V11 V12 V13 V14 V15 VM V16 V17 V18 V19 V20 V21]. qf.
  assert (SF : org = OrgSequential /\ sized = false).
  { destruct org eqn:EO; auto; [|contradiction]. destruct ORG as (_ & X & _). exfalso. apply (X n OK). }
  destruct SF as [EO SF].
  unfold seq_goal. change (run_op c f (ORewrite n)) with (ex_rewrite f n). unfold ex_rewrite. qf. rewrite V7, V2, V9.
  destruct o; try (unfold ret; eexists; eexists; split; [reflexivity|]; split; [apply qs_rewrite_denied; discriminate|]; constructor; qf; auto; discriminate).
  destruct w; cbn [negb].
  2:{ unfold ret; eexists; eexists; split; [reflexivity|]; split; [apply qs_rewrite_unread|]; constructor; qf; auto; discriminate. }
  destruct (V18 eq_refl SF) as (r & p0 & t & -> & -> & N & SZ). rewrite V1, V14, EO.
  assert (ST : f_stream f = Some (mkStream (encs r) (length (encs (firstn (S p0) r))) false) /\ (S p0 <= length r)%nat).
  { unfold stream_ok in V20. qf. destruct V20 as (r' & E1 & E2 & E3). injection E1 as <-. auto. }
  destruct ST as [ST PL].
  set (bad := negb (f_size f =? n)%nat || _).
  assert (BE : bad = true -> length t <> n \/ wlen l n <> Z.of_nat (length t)).
  { unfold bad. intros B. apply orb_true_iff in B. destruct B as [B|B].
    - left. apply negb_true_iff, Nat.eqb_neq in B. congruence.
    - right. destruct l as [v|]; cbn [dep_item i_val wlen] in *; [|discriminate]. apply negb_true_iff, Z.eqb_neq in B. rewrite SZ in B. congruence. }
  assert (BG : bad = false -> length t = n /\ wlen l n = Z.of_nat (length t)).
  { unfold bad. intros B. apply orb_false_iff in B. destruct B as [B1 B2]. apply negb_false_iff, Nat.eqb_eq in B1. split; [congruence|].
    destruct l as [v|]; cbn [dep_item i_val wlen] in *; [|congruence]. apply negb_false_iff, Z.eqb_eq in B2. congruence. }
  destruct bad.
  { unfold ret; eexists; eexists; split; [reflexivity|]; split; [eapply qs_rewrite_size; [exact N|apply BE; reflexivity]|]; constructor; qf; auto; try discriminate.
    }
  destruct (BG eq_refl) as [G1 G2]. assert (VT : valid t) by (eapply Forall_forall; [apply V21; reflexivity|eapply nth_error_In; eauto]).
  rewrite (firstn_succ r p0 t N), encs_app, encs_one in ST. rewrite (encs_split r p0 t N) in ST.
  destruct (REWRITE (set_done false f) (encs (firstn p0 r)) t (encs (skipn (S p0) r)) n OK) as (W1 & W2 & W3); qf; auto; try congruence.
  rewrite W1. cbn [obind]. unfold ret. eexists; eexists; split; [reflexivity|]. split; [eapply qs_rewrite; eauto|].
  rewrite G1 in *. rewrite V11 in *.
  constructor; qf; auto; try discriminate; try congruence.
  - unfold stream_ok. qf. exists (replaced r p0 (firstn n a)). split; auto. unfold replaced.
    assert (LF : length (firstn p0 r) = p0) by (rewrite firstn_length; lia).
    split; [rewrite app_length; cbn [length]; rewrite LF; lia|].
    rewrite encs_app. unfold encs at 2. cbn [flat_map]. fold (encs (skipn (S p0) r)). do 2 f_equal.
    replace (firstn (S p0) (firstn p0 r ++ firstn n a :: skipn (S p0) r)) with (firstn p0 r ++ [firstn n a]).
    2:{ rewrite firstn_app, LF. rewrite (firstn_all2 (n := S p0)) by lia. replace (S p0 - p0)%nat with 1%nat by lia. reflexivity. }
    rewrite encs_app, encs_one, !app_length. lia.
  - intros r' E. injection E as <-. specialize (V21 r eq_refl). rewrite (split_rec r p0 t N) in V21. apply Forall_app in V21. destruct V21 as [F1 F2].
    apply Forall_cons_iff in F2. destruct F2 as [_ F2]. unfold replaced. apply Forall_app. split; auto.
Qed.

Theorem seq_history : forall ops f st, seq_view f st -> Forall okop ops ->
  exists f' st', run_ops c f ops = Ok f' /\ seq_steps lo hi (io_creates c) (io_ext_creates c) keeps fetch st ops st' /\ seq_view f' st'.
Proof.
  induction ops as [|o ops IH]; intros f st V FO.
  - exists f, st. split; [reflexivity|split; [constructor|exact V]].
  - apply Forall_cons_iff in FO. destruct FO as [O FO].
    assert (S : seq_goal f st o).
    { pose proof (q_move_step f st o V O) as MV. pose proof (OPS o O) as OO. destruct o; try contradiction; auto.
      - apply q_open_step; auto.
      - rewrite OO. apply q_close_step; auto.
      - apply q_read_step; auto.
      - apply q_write_step; auto.
      - apply q_rewrite_step; auto. }
    destruct S as (f1 & st1 & E & ST & V1). destruct (IH f1 st1 V1 FO) as (f2 & st2 & E2 & STS & V2).
    exists f2, st2. cbn [run_ops]. rewrite E. cbn [obind]. split; [exact E2|]. split; [econstructor; eauto|auto].
Qed.
End Hist.
