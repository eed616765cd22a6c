(** * INSPECT (C25, C26, C27)
    Model: Inspect.v (libcob/strings.c).  Specification: SpecInspect.v.
    [phrase_of], [rphrase_of], [delim_of] (InspectStmt*.v) only translate the
    operands (items) of the modelled calls into the texts they contain. *)
From Verif Require Import Base BaseFacts Field Sign SpecNum SpecStore DispProofs StoreProofs MoveProofs CmpProofs
  Numeric MoveAll DispInt P_Num P_Int P_Move Inspect SpecInspect InspectProofs InspectStmt InspectStmt2 InspectMore.

Local Open Scope nat_scope.

Definition nothing : overlay := fun _ => None.

(** ** C25 TALLYING *)

(** For every list of phrases there is exactly one list of counts the
    specification allows; the statement adds exactly these counts to the
    counters, phrase by phrase, and leaves the subject as it was. *)
Theorem C25_tallying : forall m a neg bytes text ps cs,
  subject (c_ebcdic m) a neg bytes text -> Forall tphrase_ok ps ->
  exists ns, tally_counts text nothing (map phrase_of ps) ns /\
    (forall ns', tally_counts text nothing (map phrase_of ps) ns' -> ns' = ns) /\
    forall v cs', inspect_tallying m (mkField a bytes) ps cs = Ok (v, cs') <->
      (v = mkField a bytes /\ add_counts m (map tp_counter ps) ns cs = Ok cs').
Proof.
  intros m a neg bytes text ps cs HS HF. unfold inspect_tallying.
  destruct (init_subject m a neg bytes text HS) as (I1 & I2 & I3).
  set (st := inspect_init m (mkField a bytes)) in *.
  assert (HM : length (i_marks st) = length (i_data st)) by (rewrite I1, I2; apply repeat_length).
  destruct (tally_run_spec ps m st HM HF) as (ns & st2 & T & E1 & E2 & R).
  assert (OE : ov_eq (ov_of (i_marks st)) nothing) by (intros i; rewrite I2; apply ov_of_fresh).
  rewrite I1 in T. pose proof (tally_counts_ext _ _ _ _ _ OE T) as T'.
  exists ns. split; [exact T'|]. split.
  - intros ns' T2. eapply tally_counts_det; [|intros i; reflexivity|exact T2|exact T'].
    apply Forall_forall. intros p I. apply in_map_iff in I as (q & <- & I).
    rewrite Forall_forall in HF. destruct (HF q I) as [_ K]. unfold phrase_of. cbn [t_what].
    destruct (tp_kind q); exact K.
  - intros v cs'.
    assert (FIN : inspect_finish m false st2 = mkField a bytes).
    { unfold inspect_finish. unfold i_data. rewrite E1, E2.
      change (data_digits (i_f st)) with (i_data st). rewrite I1. apply I3; auto. }
    rewrite R. destruct (add_counts m (map tp_counter ps) ns cs) as [cs2| |]; cbn [obind fst snd]; rewrite ?FIN;
      (split; [intros H; try discriminate; injection H as <- <-; auto|intros [-> H]; congruence]).
Qed.
Print Assumptions C25_tallying.

(** With DISPLAY counters that have room (values [xs], [ks] digits): every
    counter has gone up by exactly the number of matches of its phrases. *)
Theorem C25_counters : forall m a neg bytes text ps cs xs ks,
  subject (c_ebcdic m) a neg bytes text -> Forall tphrase_ok ps ->
  Forall (fun p => tp_counter p < length cs) ps ->
  (forall i c, nth_error cs i = Some c -> counter_is (c_ebcdic m) c (xs i) (ks i)) ->
  exists ns, tally_counts text nothing (map phrase_of ps) ns /\
    let count i := Z.of_nat (total i (map tp_counter ps) ns) in
    ((forall i, i < length cs -> (xs i + count i < 10 ^ Z.of_nat (ks i) /\ count i < 2 ^ 31)%Z) ->
     exists cs', inspect_tallying m (mkField a bytes) ps cs = Ok (mkField a bytes, cs') /\
       length cs' = length cs /\
       forall i c, nth_error cs' i = Some c -> denotes (c_ebcdic m) c (xs i + count i)%Z).
Proof.
  intros m a neg bytes text ps cs xs ks HS HF HI HC.
  destruct (C25_tallying m a neg bytes text ps cs HS HF) as (ns & T & _ & R).
  exists ns. split; [exact T|]. intros count HR.
  destruct (add_counts_spec m (map tp_counter ps) ns cs xs ks) as (cs' & A1 & A2 & A3); auto.
  - apply tally_counts_length in T. rewrite map_length in *. congruence.
  - apply Forall_forall. intros i I. apply in_map_iff in I as (p & <- & I). rewrite Forall_forall in HI. now apply HI.
  - exists cs'. split; [apply R; auto|]. split; [exact A2|]. intros i c E. now destruct (A3 i c E).
Qed.
Print Assumptions C25_counters.

Definition text_item (l : list Z) : field := mkField alnum l.
Definition cnt (v : Z) : field := mkField (disp 2 0 false false false) [48 + v / 10; 48 + v mod 10]%Z.

(** INSPECT "AABAAAC" TALLYING c1 FOR ALL "AA" c2 FOR CHARACTERS BEFORE "C". *)
Example C25_ex : inspect_tallying default_cfg (text_item [65;65;66;65;65;65;67]%Z)
    [mkTp 0 (KPat IAll (text_item [65;65]%Z)) []; mkTp 1 KChars [RBefore (text_item [67]%Z)]] [cnt 5; cnt 0]
  = Ok (text_item [65;65;66;65;65;65;67]%Z, [cnt 7; cnt 2]).
Proof. reflexivity. Qed.
Example C25_ex_hyps : subject false (fa (text_item [65;66]%Z)) false [65;66]%Z [65;66]%Z /\
  tphrase_ok (mkTp 0 (KPat IAll (text_item [65;65]%Z)) [RBefore (text_item [67]%Z)]) /\
  counter_is false (cnt 5) 5 2.
Proof.
  split; [now apply sub_plain|]. split.
  - split; [repeat constructor; discriminate|discriminate].
  - split; [apply (den_display false (disp 2 0 false false false) false [0;5]%Z); auto; try discriminate; repeat constructor; discriminate|].
    split; [|split; [cbn; lia|split; [reflexivity|lia]]]. unfold wf_display, attr_ok. cbn. repeat split; auto.
Qed.

(** What LEADING and TRAILING mean where no earlier phrase interferes: the
    region begins (ends) with exactly that many copies of the operand. *)
Theorem C25_leading : forall text s e pat ps, s <= e -> e <= length text -> pat <> [] ->
  matches Leading text nothing s e pat ps ->
  exists rest, slice text s e = concat (repeat pat (length ps)) ++ rest /\ ~ exists r, rest = pat ++ r.
Proof. intros. eapply leading_closed; eauto. reflexivity. Qed.
Print Assumptions C25_leading.
Theorem C25_trailing : forall text s e pat ps, s <= e -> e <= length text -> pat <> [] ->
  matches Trailing text nothing s e pat ps ->
  exists rest, slice text s e = rest ++ concat (repeat pat (length ps)) /\ ~ exists r, rest = r ++ pat.
Proof. intros. eapply trailing_closed; eauto. reflexivity. Qed.
Print Assumptions C25_trailing.

(** Finding: with several phrases the counts are not those of the comparison
    cycle of the COBOL standard (all phrases tried at each position): for
    "ABC", TALLYING c1 FOR ALL "BC" c2 FOR ALL "AB" counts 1, 0; the cycle
    matches "AB" first and counts 0, 1. *)
Theorem C25_comparison_cycle_refuted : exists m text p1 p2 c,
  inspect_tallying m (text_item text)
    [mkTp 0 (KPat IAll (text_item p1)) []; mkTp 1 (KPat IAll (text_item p2)) []] [c; c]
    = Ok (text_item text, [cnt 1; cnt 0]) /\ c = cnt 0 /\
  cycle text [p1; p2] 0 [1] /\ forall hits, cycle text [p1; p2] 0 hits -> hits = [1].
Proof.
  exists default_cfg, [65;66;67]%Z, [66;67]%Z, [65;66]%Z, (cnt 0).
  assert (NO : forall i p, (exists c, nth_error [65;66;67]%Z i = Some c /\ match p with [] => True | x :: _ => x <> c end) ->
     p <> [] -> ~ occurs_at [65;66;67]%Z i p).
  { intros i p (c & E & H) HP (a & b & D & L). destruct p as [|x p]; [congruence|].
    rewrite D in E. rewrite nth_error_app2 in E by lia. rewrite L, Nat.sub_diag in E. cbn in E. congruence. }
  assert (NO2 : ~ occurs_at [65;66;67]%Z 2 [66;67]%Z) by (apply NO; [|discriminate]; exists 67%Z; split; [reflexivity|discriminate]).
  assert (O1 : occurs_at [65;66;67]%Z 0 [65;66]%Z) by (exists [], [67]%Z; auto).
  split; [reflexivity|]. split; [reflexivity|]. split.
  - apply (cy_hit _ _ 0 1 [65;66]%Z); [reflexivity|exact O1| |].
    + intros j q J E. assert (j = 0) by lia. subst j. injection E as <-. apply NO; [|discriminate]. exists 65%Z. split; [reflexivity|discriminate].
    + cbn [length Nat.add]. apply cy_none; [cbn; lia| |apply cy_end; cbn; lia].
      intros p [<-|[<-|[]]]; (apply NO; [|discriminate]; exists 67%Z; split; [reflexivity|discriminate]).
  - intros hits H. inversion H as [? L|? ? L N C|? k p hits0 E O F C]; subst; [cbn in L; lia| |].
    + exfalso. apply (N [65;66]%Z); [right; left; reflexivity|exact O1].
    + destruct k as [|[|k]]; cbn in E.
      * injection E as <-. exfalso. revert O. apply NO; [|discriminate]. exists 65%Z. split; [reflexivity|discriminate].
      * injection E as <-. f_equal. cbn [length Nat.add] in C.
        inversion C as [? L|? ? L N C'|? k p hits1 E O' F' C']; subst; [cbn in L; lia| |].
        -- inversion C' as [? L'|? ? L' N' C''|? k p hits1 E O' F' C'']; subst; [reflexivity|cbn in L'; lia|].
           exfalso. apply occurs_bound in O'. destruct k as [|[|k]]; cbn in E;
             [injection E as <-|injection E as <-|destruct k; discriminate]; cbn in O'; lia.
        -- exfalso. destruct k as [|[|k]]; cbn in E.
           ++ injection E as <-. revert O'. apply NO; [|discriminate]. exists 67%Z. split; [reflexivity|discriminate].
           ++ injection E as <-. revert O'. apply NO; [|discriminate]. exists 67%Z. split; [reflexivity|discriminate].
           ++ destruct k; discriminate.
      * destruct k; discriminate.
Qed.
Print Assumptions C25_comparison_cycle_refuted.

(** Finding: a BEFORE operand of usage DISPLAY writes one byte beyond an
    allocated buffer, whatever its value. *)
Theorem C25_numeric_before_refuted : forall m var k x cs, a_type (fa x) = TDisplay ->
  inspect_tallying m var [mkTp 0 k [RBefore x]] cs = UB.
Proof.
  intros m var k x cs H. unfold inspect_tallying. cbn [tally_run tp_reg regions]. unfold inspect_before. now rewrite H.
Qed.
Print Assumptions C25_numeric_before_refuted.

(** ** C26 REPLACING *)

(** The statement always succeeds; its effect is that of one overlay, unique
    for the phrases: a character that no phrase matched is unchanged, the size
    is unchanged, and so is the sign of a signed item. *)
Theorem C26_replacing : forall m a neg bytes text ps,
  subject (c_ebcdic m) a neg bytes text -> Forall rphrase_ok ps ->
  exists ov text' g,
    replaced text nothing (map rphrase_of ps) ov /\
    (forall ov', replaced text nothing (map rphrase_of ps) ov' -> forall i, ov' i = ov i) /\
    overlaid text ov text' /\
    inspect_replacing m (mkField a bytes) ps = Ok g /\
    forall bytes', subject (c_ebcdic m) a neg bytes' text' -> g = mkField a bytes'.
Proof.
  intros m a neg bytes text ps HS HF. unfold inspect_replacing.
  destruct (init_subject m a neg bytes text HS) as (I1 & I2 & I3).
  set (st := inspect_init m (mkField a bytes)) in *.
  assert (HM : length (i_marks st) = length (i_data st)) by (rewrite I1, I2; apply repeat_length).
  assert (OE : ov_eq (ov_of (i_marks st)) nothing) by (intros i; rewrite I2; apply ov_of_fresh).
  destruct (replace_run_spec ps st HM HF) as (mk & s & e & R1 & R2 & R3 & R4).
  { intros i c E. rewrite OE in E. discriminate. }
  rewrite I1 in R2. destruct (replaced_ext _ _ _ _ _ OE R2) as (ov & R5 & R6).
  assert (LM : length mk = length text) by (rewrite R3, HM, I1; reflexivity).
  pose proof (overlay_text text mk LM R4) as OT.
  match type of OT with overlaid _ _ ?T => set (text' := T) in * end.
  exists ov, text'. eexists. split; [exact R5|]. split; [|split; [|split]].
  - intros ov' R'. eapply replaced_det; [|intros i; reflexivity|exact R'|exact R5].
    apply Forall_forall. intros p I. apply in_map_iff in I as (q & <- & I).
    rewrite Forall_forall in HF. destruct (HF q I) as [_ K]. unfold rphrase_of. cbn [r_what].
    destruct (rp_kind q); cbn [rwhat_of]; [trivial|now destruct K].
  - eapply overlaid_ext; eauto.
  - rewrite R1. cbn [obind]. reflexivity.
  - intros bytes' HS'. unfold inspect_finish, i_data. cbn [i_f i_sign i_marks].
    change (data_digits (i_f st)) with (i_data st). rewrite I1. fold text'.
    apply I3; auto. destruct OT; auto.
Qed.
Print Assumptions C26_replacing.

(** INSPECT "ABCABC" REPLACING ALL "BC" BY "XY" FIRST "A" BY "Z" AFTER "C". *)
Example C26_ex : inspect_replacing default_cfg (text_item [65;66;67;65;66;67]%Z)
    [mkRp (RPat IAll (text_item [66;67]%Z) (text_item [88;89]%Z)) [];
     mkRp (RPat IFirst (text_item [65]%Z) (text_item [90]%Z)) [RAfter (text_item [67]%Z)]]
  = Ok (text_item [65;88;89;90;88;89]%Z).
Proof. reflexivity. Qed.
(** A negative number stays negative: -105 with zeros replaced by 2 is -125. *)
Example C26_ex_sign : inspect_replacing default_cfg (mkField (disp 3 0 true false false) [49;48;117]%Z)
    [mkRp (RPat IAll (text_item [48]%Z) (text_item [50]%Z)) []]
  = Ok (mkField (disp 3 0 true false false) [49;50;117]%Z).
Proof. reflexivity. Qed.
Example C26_ex_hyps : subject false (disp 3 0 true false false) true [49;48;117]%Z [49;48;53]%Z /\
  rphrase_ok (mkRp (RPat IAll (text_item [48]%Z) (text_item [50]%Z)) []).
Proof.
  split.
  - apply (sub_signed false (disp 3 0 true false false) true [1;0;5]%Z); auto; try discriminate. repeat constructor; discriminate.
  - split; [constructor|]. split; [discriminate|]. split; [discriminate|]. repeat constructor; discriminate.
Qed.

(** ** C27 CONVERTING *)
Theorem C27_converting : forall m a neg bytes text f1 f2 fig rs,
  subject (c_ebcdic m) a neg bytes text -> Forall region_ok rs -> table_ok f1 f2 fig ->
  exists s e, region_is text (map delim_of rs) (0, length text) (s, e) /\ s <= e <= length text /\
    let conv := convert_char (table_of f1 f2 fig) in
    let text' := firstn s text ++ map conv (slice text s e) ++ skipn e text in
    exists g, inspect_convert m (mkField a bytes) f1 f2 fig rs = Ok g /\
      forall bytes', subject (c_ebcdic m) a neg bytes' text' -> g = mkField a bytes'.
Proof. exact inspect_convert_spec. Qed.
Print Assumptions C27_converting.
(** INSPECT "ABCAB" CONVERTING "ABA" TO "BXY" BEFORE INITIAL "C". *)
Example C27_ex : inspect_convert default_cfg (text_item [65;66;67;65;66]%Z) (text_item [65;66;65]%Z)
   (text_item [66;88;89]%Z) false [RBefore (text_item [67]%Z)] = Ok (text_item [66;88;67;65;66]%Z).
Proof. reflexivity. Qed.
Example C27_ex_hyps : table_ok (text_item [65;66;65]%Z) (text_item [66;88;89]%Z) false /\
  table_of (text_item [65;66;65]%Z) (text_item [66;88;89]%Z) false = [(65,66);(66,88);(65,89)]%Z.
Proof. split; [cbn; lia|reflexivity]. Qed.
