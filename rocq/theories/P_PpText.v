(** C70: COPY REPLACING and REPLACE. *)
From Verif Require Import Base PpText SpecPpText PpTextThm PpTextThm2 PpTextThm3.
Local Open Scope Z_scope.

(** The replaced text is determined by the text and the list; with or without
    the blanks before replaced words, the words are the same. *)
Theorem C70_replacement_determined : forall L s, Forall entry_ok L ->
  exists o, replaced false L s o /\ (forall o', replaced false L s o' -> o' = o) /\
    (forall o', replaced true L s o' -> words o' = words o).
Proof.
  intros L s OK. destruct (rep_total L (length s) s OK) as (o & R); [lia|]. exists o. split; [auto|]. split.
  - intros o' R'. destruct (rep_det false L (length s) s o' o) as [_ X]; auto.
  - intros o' R'. destruct (rep_det true L (length s) s o' o) as [X _]; auto. now apply rep_glue.
Qed.

(** Whatever texts come, one after the other: none is lost, those held back
    begin a pattern, and what has been passed on is right whatever comes next. *)
Theorem C70_replace_stream : forall L ts, Forall entry_ok L ->
  exists a q, feed (mkStage (Some L) []) ts = Ok (a, mkStage (Some L) q) /\ pending L q /\
    forall rest o, replaced true L (q ++ rest) o -> replaced true L (ts ++ rest) (texts a ++ o).
Proof.
  intros L ts OK. assert (SO : stage_ok (mkStage (Some L) [])) by (split; [exact OK|now left]).
  destruct (feed_total ts _ SO) as (a & [Lo q] & F & SO' & SL). cbn [s_list] in SL. subst Lo. exists a, q. split; [auto|]. split.
  - exact (ok_pending (mkStage (Some L) q) L eq_refl SO').
  - exact (feed_sound ts (mkStage (Some L) []) L a (mkStage (Some L) q) eq_refl OK SO F).
Qed.

(** If all patterns need the same number of words, then what is passed on
    together with what is held back is the replaced text. *)
Theorem C70_replace_flush : forall L ts n, Forall entry_ok L -> Forall (fun e => span e = n) L ->
  exists a q, feed (mkStage (Some L) []) ts = Ok (a, mkStage (Some L) q) /\ replaced true L ts (texts a ++ q).
Proof.
  intros L ts n OK SP. destruct (C70_replace_stream L ts OK) as (a & q & F & P & S). exists a, q. split; [auto|].
  specialize (S [] q). rewrite !app_nil_r in S. apply S. eapply pending_id; eauto.
Qed.

(** With patterns of one word nothing is held back and all blanks stay. *)
Theorem C70_replace_one_word : forall L ts, Forall entry_ok L -> Forall one_word L ->
  exists a, feed (mkStage (Some L) []) ts = Ok (a, mkStage (Some L) []) /\ replaced false L ts (texts a).
Proof. intros. now apply one_feed. Qed.

(** A whole source: sections under REPLACE statements, with COPY statements with
    and without REPLACING.  REPLACING is done on the copied text only, REPLACE on
    what results and only up to the next REPLACE. *)
Theorem C70_whole_source : forall cs, Forall section_ok cs ->
  exists outs, preprocess (flat_map section_events cs) = Ok (concat outs) /\
    Forall2 (fun c out => exists pieces, Forall2 contributes (section_items c) pieces /\
                            replaced true (list_of (c_list c)) (concat pieces) out) cs outs.
Proof.
  intros cs OK. unfold preprocess.
  enough (G : forall st o0, p_one st = mkStage None [] -> s_queue (p_two st) = [] -> out_texts st = o0 ->
     exists st' outs, pp_run st (flat_map section_events cs) = Ok st' /\ out_texts st' = o0 ++ concat outs /\
       Forall2 (fun c out => exists pieces, Forall2 contributes (section_items c) pieces /\
                            replaced true (list_of (c_list c)) (concat pieces) out) cs outs).
  { destruct (G pp_init [] eq_refl eq_refl eq_refl) as (st' & outs & -> & O & F). exists outs. cbn [obind]. now rewrite O. }
  induction OK as [|c cs OKC OK IH]; intros st o0 P1 Q2 O.
  - exists st, []. cbn [flat_map pp_run concat]. rewrite app_nil_r. repeat split; auto.
  - destruct (section_run c st o0 OKC P1 Q2 O) as (st1 & pieces & out & R & C & RP & O1 & P1' & Q2' & _).
    destruct (IH st1 _ P1' Q2' O1) as (st2 & outs & R2 & O2 & F). exists st2, (out :: outs).
    cbn [flat_map]. rewrite pp_run_app, R. cbn [obind concat]. rewrite app_assoc. repeat split; auto. constructor; eauto.
Qed.

(** COPY without REPLACING is the same as the text in line, at any depth and
    under any REPLACE and any outer REPLACING. *)
Theorem C70_plain_copy_inline : forall es fs L, plain_copies es fs ->
  match pp_run pp_init (ECopy L :: es), pp_run pp_init (ECopy L :: fs) with
  | Ok a, Ok b => out_texts a = out_texts b /\ p_one a = p_one b /\ p_two a = p_two b
  | UB, UB => True
  | NotModelled, NotModelled => True
  | _, _ => False
  end.
Proof.
  intros es fs L P. cbn [pp_run pp_step obind].
  match goal with |- match pp_run ?s es with _ => _ end => assert (X := plain_run es fs P s s eq_refl eq_refl eq_refl); destruct (pp_run s es), (pp_run s fs) end; try contradiction; auto.
  destruct X as (A & B & C). auto.
Qed.

Lemma second_none : forall acts st, p_two st = mkStage None [] ->
  second st acts = Ok (mkPp (p_one st) (mkStage None []) (p_stack st) (p_out st ++ wr acts)).
Proof.
  unfold wr. induction acts as [|x acts IH]; intros [one two stk out] E; cbn [p_two p_one p_stack p_out] in *; subst two; cbn [second].
  - cbn [texts map p_one p_stack p_out]. now rewrite app_nil_r.
  - destruct x as [t|t]; cbn [p_one p_two p_stack p_out].
    + assert (EE : ppecho_0 (mkStage None []) t = Ok ([Echo t], mkStage None [])) by (unfold ppecho_0; cbn [s_queue s_list]; destruct (is_blank t); reflexivity).
      rewrite EE. cbn [obind map]. rewrite IH by reflexivity. cbn [p_one p_stack p_out texts map]. now rewrite <- app_assoc.
    + rewrite IH by reflexivity. cbn [p_one p_stack p_out texts map]. now rewrite <- app_assoc.
Qed.
Lemma text_none : forall ts st a s1, p_two st = mkStage None [] -> feed (p_one st) ts = Ok (a, s1) ->
  pp_run st (map EText ts) = Ok (mkPp s1 (mkStage None []) (p_stack st) (p_out st ++ wr a)).
Proof.
  induction ts as [|t ts IH]; intros [one two stk out] a s1 E F; cbn [p_two p_one p_stack p_out] in *; subst two; cbn [feed] in F.
  - injection F as <- <-. unfold wr. cbn [map pp_run texts]. now rewrite app_nil_r.
  - destruct (ppecho_0 one t) as [[a1 o1]| |] eqn:P; try discriminate. cbn [obind] in F. destruct (feed o1 ts) as [[a2 o2]| |] eqn:F2; try discriminate.
    cbn [obind] in F. injection F as <- <-. cbn [map pp_run pp_step]. unfold ppecho. cbn [p_one p_two p_stack p_out]. rewrite P. cbn [obind].
    rewrite second_none by reflexivity. cbn [p_one p_stack p_out obind]. rewrite (IH _ a2 o2) by (cbn [p_one p_two]; auto). cbn [p_stack p_out].
    unfold wr. now rewrite texts_app, map_app, app_assoc.
Qed.

(** COPY REPLACING with patterns of one word, LEADING and TRAILING, without
    REPLACE: the copied text is replaced exactly, the text around it stays. *)
Theorem C70_copy_replacing_exact : forall L pre body post, Forall entry_ok L -> Forall one_word L ->
  exists o, preprocess (map EText pre ++ ECopy (Some L) :: map EText body ++ EEnd :: map EText post) = Ok (pre ++ o ++ post) /\
    replaced false L body o.
Proof.
  intros L pre body post OK OW. destruct (one_feed body L OK OW) as (a & F & R). exists (texts a). split; [|auto].
  unfold preprocess. rewrite pp_run_app. rewrite (text_none pre pp_init (map Echo pre) (mkStage None []) eq_refl (feed_none pre)).
  cbn [obind pp_run pp_step p_one p_two p_stack p_out pp_init app set_list s_queue]. rewrite pp_run_app.
  rewrite (text_none body _ a (mkStage (Some L) [])) by (cbn [p_one p_two]; auto).
  cbn [obind pp_run pp_step p_one p_two p_stack p_out set_list s_queue].
  rewrite (text_none post _ (map Echo post) (mkStage None [])) by (cbn [p_one p_two]; auto using feed_none).
  cbn [obind]. unfold out_texts. cbn [p_out]. rewrite !flat_map_app, !out_wr, !texts_echo. cbn [flat_map app]. rewrite !app_nil_r, <- !app_assoc. reflexivity.
Qed.

(** * What goes wrong *)
Definition tA : tok := [65]. Definition tB : tok := [66]. Definition tC : tok := [67]. Definition tD : tok := [68].
Definition tP : tok := [80]. Definition tQ : tok := [81]. Definition tX : tok := [88]. Definition tY : tok := [89]. Definition tZ : tok := [90].
Definition tS : tok := [32]. Definition tDot : tok := [46].
Definition repl (old new : list tok) : entry := mkEntry KOther old new.

Ltac okl := repeat constructor; try (vm_compute; discriminate); try (intros K; discriminate K).

Lemma by_ok : forall old new, words old <> [] -> entry_ok (repl old new).
Proof. intros. split; [auto|]. cbn [repl e_kind]. discriminate. Qed.
Lemma no_apply : forall e s, entry_ok e -> (forall a r, try_entry e s <> CHit a r) -> ~ applies_to e s.
Proof. intros e s OK N (n & r & AP). destruct (te_complete e s n r [] OK AP (Forall_nil _)) as (a & E). exact (N a r E). Qed.

(** The blank between two words is lost when the first began a pattern in vain
    and the second is replaced: A C becomes AD. *)
Theorem C70_blanks_kept_refuted : ~ (forall L ts a, Forall entry_ok L ->
  feed (mkStage (Some L) []) ts = Ok (a, mkStage (Some L) []) -> replaced false L ts (texts a)).
Proof.
  intros H. pose (L := [repl [tA; tS; tB] [tZ]; repl [tC] [tD]]).
  assert (OK : Forall entry_ok L) by (repeat constructor; vm_compute; discriminate).
  assert (R := H L [tA; tS; tC] (map Echo [tA; tD]) OK eq_refl). rewrite texts_echo in R.
  destruct (rep_inv_word _ _ _ _ _ (eq_refl : is_blank tA = false) R) as [(o' & _ & R' & E)|(L1 & e & L2 & new & rest & o' & E & N & AP & _)].
  - injection E as <-. destruct (rep_inv_blank _ _ _ _ _ (eq_refl : is_blank tS = true) R') as (o2 & _ & _ & E2). specialize (E2 eq_refl). discriminate E2.
  - assert (I : In e L) by (rewrite E; apply in_elt). destruct I as [<-|[<-|[]]];
      (eapply no_apply; [|intros x y|eexists _, _; exact AP]; [apply by_ok|]; vm_compute; discriminate).
Qed.

(** A pattern without a word: the preprocessor does not come to an end. *)
Theorem C70_empty_pattern_ends_refuted : exists e t, e_old e = [] /\ forall n, drain n [e] [t] = NotModelled.
Proof.
  exists (repl [] [tZ]), tA. split; [reflexivity|]. induction n as [|n IH]; [reflexivity|].
  change (drain (S n) [repl [] [tZ]] [tA]) with (obind (drain n [repl [] [tZ]] [tA]) (fun x => let (a2, r) := x in Ok ([Echo tZ] ++ a2, r))). now rewrite IH.
Qed.

(** Words that begin a pattern at the end of the source are lost. *)
Theorem C70_end_of_source_refuted : ~ (forall L ts out, Forall entry_ok L ->
  preprocess (EReplace (Some L) :: map EText ts) = Ok out -> replaced true L ts out).
Proof.
  intros H. assert (R := H [repl [tA; tB] [tZ]] [tA] [] ltac:(repeat constructor; vm_compute; discriminate) eq_refl).
  destruct (rep_inv_word _ _ _ _ _ (eq_refl : is_blank tA = false) R) as [(o' & _ & R' & E)|(L1 & e & L2 & new & rest & o' & E & N & AP & R2 & E2)]; [discriminate|].
  assert (I : In e [repl [tA; tB] [tZ]]) by (rewrite E; apply in_elt). destruct I as [<-|[]].
  apply (no_apply (repl [tA; tB] [tZ]) [tA]); [apply by_ok; vm_compute; discriminate|intros x y; vm_compute; discriminate|eexists _, _; exact AP].
Qed.

(** At the end of a copied file a word is not replaced if it begins a longer
    pattern of an earlier phrase. *)
Theorem C70_end_of_copy_refuted : ~ (forall L body rest out, Forall entry_ok L ->
  preprocess (ECopy (Some L) :: map EText body ++ EEnd :: map EText rest) = Ok out ->
  exists o, replaced true L body o /\ out = o ++ rest).
Proof.
  intros H. pose (L := [repl [tA; tB] [tZ]; repl [tA] [tQ]]). assert (OK : Forall entry_ok L) by (repeat constructor; vm_compute; discriminate).
  destruct (H L [tA] [tDot] [tA; tDot] OK eq_refl) as (o & R & E).
  assert (EO : o = [tA]). { destruct o as [|x [|y [|z o]]]; try discriminate E. injection E as <-. reflexivity. }
  subst o. destruct (rep_inv_word _ _ _ _ _ (eq_refl : is_blank tA = false) R) as [(o' & N & R' & E1)|(L1 & e & L2 & new & rest & o' & E1 & N & AP & R2 & E2)].
  - apply (N (repl [tA] [tQ])); [right; now left|]. exists [tQ], []. apply (applies_whole (repl [tA] [tQ])); [reflexivity|]. vm_compute. now constructor.
  - assert (I : In e L) by (rewrite E1; apply in_elt). destruct I as [<-|[<-|[]]].
    + apply (no_apply (repl [tA; tB] [tZ]) [tA]); [apply by_ok; vm_compute; discriminate|intros x y; vm_compute; discriminate|eexists _, _; exact AP].
    + destruct (applies_fun _ _ _ _ _ _ AP (applies_whole (repl [tA] [tQ]) [tA] [] eq_refl (stands_last tA tA [] eq_refl))) as [-> ->]. discriminate E2.
Qed.

(** After a nested COPY REPLACING the replacement of the outer COPY is off. *)
Theorem C70_nested_replacing_refuted : exists L1 L2 t u, Forall entry_ok L1 /\ Forall entry_ok L2 /\ replaced false L1 [t] [u] /\ t <> u /\
  preprocess [ECopy (Some L1); ECopy (Some L2); EEnd; EText t; EEnd] = Ok [t].
Proof.
  exists [repl [tA] [tZ]], [repl [tB] [tY]], tA, tZ. split; [repeat constructor; vm_compute; discriminate|]. split; [repeat constructor; vm_compute; discriminate|].
  split; [|split; [discriminate|reflexivity]].
  destruct (one_feed [tA] [repl [tA] [tZ]]) as (a & F & R).
  - repeat constructor; vm_compute; discriminate.
  - repeat constructor. intros _. exists tA. reflexivity.
  - vm_compute in F. injection F as <-. exact R.
Qed.

(** TRAILING under REPLACE changes the order of the words: the rest of the word
    is written before words that REPLACE holds back. *)
Theorem C70_trailing_order_refuted : exists L1 L2 body,
  Forall entry_ok L1 /\ Forall one_word L1 /\ Forall entry_ok L2 /\
  replaced false L1 body [tP; tS; tA; tY; tDot] /\
  feed (mkStage (Some L2) []) [tP; tS; tA; tY; tDot] = Ok (map Echo [tP; tS; tA; tY; tDot], mkStage (Some L2) []) /\
  preprocess (EReplace (Some L2) :: ECopy (Some L1) :: map EText body ++ [EEnd]) = Ok [tA; tP; tS; tY; tDot].
Proof.
  exists [mkEntry KTrailing [tX] [tY]], [repl [tP; tQ] [tZ]], [tP; tS; tA ++ tX; tDot].
  assert (OK1 : Forall entry_ok [mkEntry KTrailing [tX] [tY]]).
  { repeat constructor; [vm_compute; discriminate|]. intros _. exists tX, []. split; [reflexivity|]. apply not_blank_iff. reflexivity. }
  assert (OW : Forall one_word [mkEntry KTrailing [tX] [tY]]) by (repeat constructor; intros K; discriminate K).
  split; [exact OK1|]. split; [exact OW|]. split; [repeat constructor; vm_compute; discriminate|]. split; [|split; reflexivity].
  destruct (one_feed [tP; tS; tA ++ tX; tDot] _ OK1 OW) as (a & F & R). vm_compute in F. injection F as <-. exact R.
Qed.

(** A word that COPY REPLACING LEADING has made is not seen by REPLACE as a word. *)
Theorem C70_leading_replace_refuted : exists L1 L2 body o,
  Forall entry_ok L1 /\ Forall one_word L1 /\ Forall entry_ok L2 /\ replaced false L1 body o /\
  concat o = concat [tA; tS; tB; tDot] /\
  preprocess (EReplace (Some L2) :: map EText [tA; tS; tB; tDot]) = Ok [tZ; tDot] /\
  preprocess (EReplace (Some L2) :: ECopy (Some L1) :: map EText body ++ [EEnd]) = Ok [tA; []; tS; tB; tDot].
Proof.
  exists [mkEntry KLeading [tX] [tA]], [repl [tA; tB] [tZ]], [tX; tS; tB; tDot], [tA; []; tS; tB; tDot].
  assert (OK1 : Forall entry_ok [mkEntry KLeading [tX] [tA]]) by (repeat constructor; [vm_compute; discriminate|intros K; discriminate K]).
  assert (OW : Forall one_word [mkEntry KLeading [tX] [tA]]) by (repeat constructor; intros K; discriminate K).
  split; [exact OK1|]. split; [exact OW|]. split; [repeat constructor; vm_compute; discriminate|]. split; [|repeat split; reflexivity].
  destruct (one_feed [tX; tS; tB; tDot] _ OK1 OW) as (a & F & R). vm_compute in F. injection F as <-. exact R.
Qed.

(** A word before a REPLACE statement may be replaced by it. *)
Theorem C70_replace_scope_refuted : exists L1 L2 t, Forall entry_ok L1 /\ Forall entry_ok L2 /\ replaced false L1 [t] [t] /\
  preprocess [EReplace (Some L1); EText t; EReplace (Some L2); EText tDot] = Ok [tQ; tDot] /\ t <> tQ.
Proof.
  exists [repl [tA; tB] [tZ]], [repl [tA] [tQ]], tA. split; [repeat constructor; vm_compute; discriminate|]. split; [repeat constructor; vm_compute; discriminate|].
  split; [|split; [reflexivity|discriminate]]. apply (short_id false _ 2); [repeat constructor|vm_compute; lia].
Qed.

(** * Non-vacuity *)
Definition sec1 : section :=
  mkSection (Some [repl [tA; tS; tB] [tZ]; repl [tC] [tD]])
            [Txt tA; Txt tS; Copied (Some [repl [tP; tQ] [tB]]) [tP; tS; tQ; tS; tC]; Txt tS; Copied None [tA; tS; tA; tB]] tDot.
Definition sec2 : section := mkSection None [Txt tA; Txt tS; Txt tB] tDot.
Example sections_ok : Forall section_ok [sec1; sec2].
Proof.
  constructor; [|constructor; [|constructor]]; unfold section_ok; cbn [sec1 sec2 c_list c_items c_last list_of].
  - split; [repeat constructor; vm_compute; discriminate|]. split.
    + repeat constructor; try (vm_compute; discriminate). exists 2%nat. repeat constructor.
    + split; [exact I|]. split; [apply not_blank_iff; reflexivity|].
      intros e p [<-|[<-|[]]]; cbn [repl e_old In]; intros I; repeat destruct I as [<-|I]; try destruct I; vm_compute; discriminate.
  - split; [constructor|]. split; [repeat constructor|]. split; [exact I|]. split; [apply not_blank_iff; reflexivity|]. intros e p [].
Qed.
Example sections_run : preprocess (flat_map section_events [sec1; sec2]) =
  Ok [tZ; tS; tD; tS; tA; tZ; tDot; tA; tS; tB; tDot].
Proof. vm_compute. reflexivity. Qed.
Example case_insensitive : feed (mkStage (Some [repl [[65; 45; 98]] [tZ]]) []) [[97; 45; 66]] = Ok ([Echo tZ], mkStage (Some [repl [[65; 45; 98]] [tZ]]) []).
Proof. reflexivity. Qed.
Example plain_nested : plain_copies [EText tA; ECopy None; EText tB; ECopy None; EText tC; EEnd; EReplace None; EEnd; EText tD]
  [EText tA; EText tB; EText tC; EReplace None; EText tD].
Proof.
  apply pc_text. apply (pc_copy [EText tB; ECopy None; EText tC; EEnd; EReplace None] [EText tB; EText tC; EReplace None] [EText tD] [EText tD]).
  - apply pc_text. apply (pc_copy [EText tC] [EText tC] [EReplace None] [EReplace None]); repeat constructor.
  - repeat constructor.
Qed.
Example leading_trailing : preprocess [ECopy (Some [mkEntry KLeading [tX] [tA]; mkEntry KTrailing [tY] [tB]]);
    EText [88; 48]; EText tS; EText [48; 89]; EText tS; EText [48]; EEnd] =
  Ok [tA; [48]; tS; [48]; tB; tS; [48]].
Proof. reflexivity. Qed.

Print Assumptions C70_replacement_determined.
Print Assumptions C70_replace_stream.
Print Assumptions C70_replace_flush.
Print Assumptions C70_replace_one_word.
Print Assumptions C70_whole_source.
Print Assumptions C70_plain_copy_inline.
Print Assumptions C70_copy_replacing_exact.
Print Assumptions C70_blanks_kept_refuted.
Print Assumptions C70_empty_pattern_ends_refuted.
Print Assumptions C70_end_of_source_refuted.
Print Assumptions C70_end_of_copy_refuted.
Print Assumptions C70_nested_replacing_refuted.
Print Assumptions C70_trailing_order_refuted.
Print Assumptions C70_leading_replace_refuted.
Print Assumptions C70_replace_scope_refuted.
