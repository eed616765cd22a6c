(** C53: files with a LINAGE clause (report pages). *)
From Verif Require Import Base Field SpecNum Numeric Move MoveAll DispInt FileIO Linage SpecLinage LinageProofs.

(** OPEN OUTPUT and any sequence of WRITE [BEFORE|AFTER] ADVANCING n LINES / PAGE
    [AT END-OF-PAGE] statements and changes of the LINAGE items, by any number
    of lines up to 65535: every file status, LINAGE-COUNTER, and (while the
    clause is not in error) the rows of the output are those of the report. *)
Theorem C53_session : forall m c f p os ros,
  items_hold m (l_items f) p -> counter_item (l_ctr f) -> l_out f = [] -> l_eop f = false -> page_ok p ->
  Forall2 (means m c) os ros ->
  let sts := fst (rep_run (rep_open p) p ros) in let r := snd (rep_run (rep_open p) p ros) in
  exists f0 f', linage_open m f = Ok (0, f0) /\ denotes (c_ebcdic m) (l_ctr f0) 1 /\
    run_lops m c f0 os = Ok (sts, f') /\ denotes (c_ebcdic m) (l_ctr f') (r_ctr r) /\
    (r_ctr r <> 0 -> r_printed r <> [] -> laid_out (l_out f') (row_of (r_start r) (r_page r) (r_ctr r)) (r_printed r)).
Proof.
  intros m c f p os ros HI HC HO HE HP HM sts r. pose proof (open_spec m f p HI HC HO HE) as H.
  assert (B : page_okb p = true).
  { destruct HP as (P1 & P2 & P3 & P4). unfold page_okb. destruct (p_foot p) as [x|]; [specialize (P2 x eq_refl)|]; lia. }
  rewrite B in H. destruct H as (f0 & E0 & I0). destruct (session m c os ros f0 (rep_open p) p HM I0) as (f' & now & E & I).
  fold sts r in E, I. exists f0, f'. split; [exact E0|]. split; [exact (proj2 (proj1 (proj2 I0)))|]. split; [exact E|].
  destruct I as (_ & (_ & D) & L). split; [exact D|]. intros N0 NP. destruct L as [L|(_ & _ & _ & _ & _ & NT & L)]; [contradiction|].
  destruct (l_needs_top f'); [now specialize (NT eq_refl)|]. now rewrite app_nil_r in L.
Qed.
Print Assumptions C53_session.

(** LINAGE items that describe no page: OPEN gives status 57, LINAGE-COUNTER 0. *)
Theorem C53_open_invalid : forall m f p, items_hold m (l_items f) p -> counter_item (l_ctr f) -> l_out f = [] -> l_eop f = false -> ~ page_ok p ->
  exists f', linage_open m f = Ok (57, f') /\ denotes (c_ebcdic m) (l_ctr f') 0.
Proof.
  intros m f p HI HC HO HE HP. pose proof (open_spec m f p HI HC HO HE) as H. destruct (page_okb p) eqn:B; [now apply page_okb_ok in B|].
  destruct H as (f' & E & C & D). eauto.
Qed.
Print Assumptions C53_open_invalid.

(** LINAGE-COUNTER always designates a line of the body of the current page,
    unless the clause is in error. *)
Definition in_body (r : report) : Prop := r_ctr r = 0 \/ 1 <= r_ctr r <= p_lines (r_page r).
Theorem C53_counter : forall p ros, page_ok p -> Forall (fun o => match o with RWrite _ _ (Lines n) _ => 1 <= n <= 65535 | _ => True end) ros ->
  in_body (snd (rep_run (rep_open p) p ros)).
Proof.
  assert (G : forall ros r now, in_body r -> Forall (fun o => match o with RWrite _ _ (Lines n) _ => 1 <= n <= 65535 | _ => True end) ros -> in_body (snd (rep_run r now ros))).
  { induction ros as [|o ros IH]; intros r now HB HF; [exact HB|]. inversion HF as [|x y HF1 HF2]; subst.
    destruct o as [t pos a eop|q]; cbn [rep_run]; cbv zeta; cbn [snd]; [|now apply IH]. apply IH; auto.
    unfold rep_write. destruct (Z.eqb_spec (r_ctr r) 0); [exact HB|]. cbv zeta. destruct HB as [|HB]; [contradiction|].
    destruct a as [k|]; cbn [andb].
    - destruct (Z.ltb_spec (p_lines (r_page r)) (r_ctr r + k)); cbn [andb].
      + destruct (page_okb now) eqn:OK; cbn [negb]; [|now left]. right. cbn [snd r_ctr r_page]. apply page_okb_ok in OK. destruct OK. lia.
      + right. cbn [snd r_ctr r_page]. lia.
    - destruct (page_okb now) eqn:OK; cbn [negb]; [|now left]. right. cbn [snd r_ctr r_page]. apply page_okb_ok in OK. destruct OK. lia. }
  intros p ros HP HF. apply G; auto. right. cbn [rep_open r_ctr r_page]. destruct HP. lia.
Qed.
Print Assumptions C53_counter.

(** * A concrete report *)
Definition lit (d : list Z) : field := mkField (mkAttr TDisplay (Z.of_nat (length d)) 0 false false false false false false false []) d.
Definition ctr0 : field := mkField (mkAttr TBinary 9 0 false false false false false false true []) [0;0;0;0].
(** LINAGE 5 LINES FOOTING 4 TOP 1 BOTTOM 2. *)
Definition items5 : lin_items := mkItems (lit [53]) (Some (lit [52])) (Some (lit [49])) (Some (lit [50])).
Definition file5 : lfile := mkL items5 ctr0 0 0 0 0 [] false false false.
Definition page5 : page := mkPage 5 (Some 4) 1 2.
(** ... and one without FOOTING and margins, of 3 lines; and one of 0 lines. *)
Definition items3 : lin_items := mkItems (lit [51]) None None None.
Definition items0 : lin_items := mkItems (lit [48]) None None None.
Definition page3 : page := mkPage 3 None 0 0.
Definition dcfg : cfg := default_cfg.
Definition ops : list lop := [LWrite [65;32] Before (Lines 2) true; LWrite [66] Before (Lines 1) true; LSet items3; LWrite [67] After (Lines 3) true;
  LWrite [68] After Page true; LWrite [69] Before (Lines 1) false].
Definition rops : list rop := [RWrite [65] Before (Lines 2) true; RWrite [66] Before (Lines 1) true; RSet page3; RWrite [67] After (Lines 3) true;
  RWrite [68] After Page true; RWrite [69] Before (Lines 1) false].
Lemma lit_holds : forall n, 0 <= n <= 9 -> holds dcfg (lit [48 + n]) n.
Proof.
  intros n H. split; [|split; [reflexivity|unfold INT_MAX; lia]].
  pose proof (den_display false (fa (lit [48 + n])) false [n]) as D.
  replace (signed_value false [n]) with n in D by reflexivity.
  replace (mkField (fa (lit [48 + n])) (zoned false (fa (lit [48 + n])) false [n])) with (lit [48 + n]) in D by reflexivity.
  apply D; [reflexivity|discriminate|constructor; [unfold is_dig; lia|constructor]|reflexivity|discriminate].
Qed.
Example C53_hyp : items_hold dcfg (l_items file5) page5 /\ counter_item (l_ctr file5) /\ l_out file5 = [] /\ l_eop file5 = false /\ page_ok page5 /\
  Forall2 (means dcfg plain_io) ops rops.
Proof.
  assert (P5 : items_hold dcfg items5 page5) by (repeat (split; [first [apply (lit_holds 5)|apply (lit_holds 4)|apply (lit_holds 1)|apply (lit_holds 2)]; lia|]); discriminate).
  assert (P3 : items_hold dcfg items3 page3) by (split; [apply (lit_holds 3); lia|]; repeat split; discriminate).
  split; [exact P5|]. split; [repeat split; repeat constructor; lia|]. split; [reflexivity|]. split; [reflexivity|].
  split; [split; [discriminate|split; [intros x E; injection E as <-; split; discriminate|split; discriminate]]|].
  unfold ops, rops. repeat (constructor; [first [apply me_set; exact P3 | (apply (me_write dcfg plain_io); intros n E; first [discriminate E|injection E as <-; lia])]|]). constructor.
Qed.
Example C53_ex : fst (rep_run (rep_open page5) page5 rops) = [0; 52; 52; 0; 0] /\
  snd (rep_run (rep_open page5) page5 rops) = mkRep page3 2 11 [(1, [65]); (3, [66]); (7, [67]); (10, [68]); (11, [69])] /\
  (do r <- linage_open dcfg file5; do x <- run_lops dcfg plain_io (snd r) ops; Ok (fst x, l_out (snd x), fd (l_ctr (snd x)))) =
    Ok ([0; 52; 52; 0; 0], [10; 65;10; 10; 66;10; 10; 10; 10; 67;10; 10; 10; 68;10; 69;10], [2;0;0;0]).
Proof. vm_compute. auto. Qed.

(** * What does not hold *)
(** AFTER ADVANCING PAGE does not print the line on the new page: without a top
    margin the line is the last row of the old page (above: row 10 with the
    page starting at 11). *)
Theorem C53_after_page_refuted : exists p t, page_ok p /\
  let r := snd (rep_write (rep_open p) t After Page false p) in
  r_start r = 3 /\ r_printed r = [(2, t)].
Proof. exists page3, [65]. split; [split; [discriminate|split; [discriminate|split; discriminate]]|]. vm_compute. auto. Qed.
Print Assumptions C53_after_page_refuted.

(** ADVANCING 0 LINES does not stay on the line: each WRITE takes a row although
    the counter does not move, so that the page grows. *)
Theorem C53_zero_lines_refuted : exists f0 f',
  linage_open dcfg (set_items items3 file5) = Ok (0, f0) /\
  run_lops dcfg plain_io f0 [LWrite [65] Before (Lines 0) false; LWrite [66] Before (Lines 0) false; LWrite [67] Before (Lines 0) false;
                             LWrite [68] Before (Lines 0) false] = Ok ([0;0;0;0], f') /\
  l_out f' = [65;10; 66;10; 67;10; 68;10] /\ value dcfg (l_ctr f') = Ok 1.
Proof. eexists _, _. split; [vm_compute; reflexivity|]. split; [vm_compute; reflexivity|]. vm_compute. auto. Qed.
Print Assumptions C53_zero_lines_refuted.

(** ADVANCING 65536 LINES is ADVANCING PAGE: the number is added to the word
    that holds the kind of advancing; no end of page is reported. *)
Theorem C53_too_many_lines_refuted : forall pos, write_option pos (Lines 65536) true = write_option pos Page true.
Proof. intros []; reflexivity. Qed.
Print Assumptions C53_too_many_lines_refuted.

(** End of page, then a next page that cannot be: the WRITE gives 57, but the
    end-of-page mark, which all files share, stays: the next successful WRITE on
    another file reports 52 although it has no END-OF-PAGE phrase. *)
Theorem C53_stale_eop_refuted : exists f0 f1 g0 g1,
  linage_open dcfg file5 = Ok (0, f0) /\
  run_lops dcfg plain_io f0 [LSet items0; LWrite [65] Before (Lines 5) true] = Ok ([57], f1) /\
  linage_open dcfg (set_items items3 file5) = Ok (0, g0) /\
  linage_write dcfg plain_io (set_eop (l_eop f1) g0) [66] (write_option Before (Lines 1) false) = Ok (52, g1) /\
  fst (rep_write (rep_open page3) [66] Before (Lines 1) false page3) = 0.
Proof. do 4 eexists. split; [vm_compute; reflexivity|]. split; [vm_compute; reflexivity|]. split; [vm_compute; reflexivity|]. split; vm_compute; reflexivity. Qed.
Print Assumptions C53_stale_eop_refuted.
