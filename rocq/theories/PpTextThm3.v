(** The preprocessor as a whole: COPY REPLACING and REPLACE. *)
From Verif Require Import Base PpText SpecPpText PpTextThm PpTextThm2.
Local Open Scope Z_scope.

Definition wr (a : list act) : list outp := map OText (texts a).

Lemma second_feed : forall ts st a s2, feed (p_two st) ts = Ok (a, s2) ->
  second st (map Echo ts) = Ok (mkPp (p_one st) s2 (p_stack st) (p_out st ++ wr a)).
Proof.
  induction ts as [|t ts IH]; intros [one two stk out] a s2 H; cbn [p_one p_two p_stack p_out] in *; cbn [feed map second] in *.
  - injection H as <- <-. unfold wr. cbn [texts map]. now rewrite app_nil_r.
  - cbn [p_one p_two p_stack p_out]. destruct (ppecho_0 two t) as [[a1 s1]| |]; try discriminate. cbn [obind] in *.
    destruct (feed s1 ts) as [[a2 s3]| |] eqn:F; try discriminate. cbn [obind] in H. injection H as <- <-.
    rewrite (IH (mkPp one s1 stk _) a2 s3) by exact F. cbn [p_one p_two p_stack p_out]. unfold wr. rewrite texts_app, map_app, app_assoc.
    replace (map (fun x => match x with Echo u | Direct u => OText u end) a1) with (map OText (texts a1)); [reflexivity|].
    unfold texts. rewrite map_map. apply map_ext. intros []; reflexivity.
Qed.

Definition echoes (a : list act) : Prop := a = map Echo (texts a).
Lemma echoes_app : forall a b, echoes a -> echoes b -> echoes (a ++ b).
Proof. unfold echoes. intros a b A B. rewrite texts_app, map_app. congruence. Qed.
Lemma echoes_map : forall l, echoes (map Echo l).
Proof. intros. unfold echoes. now rewrite texts_echo. Qed.

Lemma tl_echoes : forall L q a q', Forall (fun e => e_kind e = KOther) L -> try_list L q = CHit a q' -> echoes a.
Proof.
  intros L q a q' F H. destruct (tl_hit _ _ _ _ H) as (L1 & e & L2 & E & T & _). rewrite Forall_forall in F.
  assert (K : e_kind e = KOther) by (apply F; rewrite E; apply in_elt). unfold try_entry in T. rewrite K in T.
  destruct (match_other (e_old e) q) as [[q2|]|]; try discriminate. injection T as <- _. apply echoes_map.
Qed.
Lemma drain_echoes : forall n L q a r, Forall (fun e => e_kind e = KOther) L -> drain n L q = Ok (a, r) -> echoes a.
Proof.
  induction n as [|n IH]; intros L [|t q] a r F H; cbn [drain] in H; try discriminate; try (injection H as <- <-; reflexivity).
  destruct (try_list L (t :: q)) eqn:T; try discriminate.
  - injection H as <- <-. reflexivity.
  - destruct (drain n L q) as [[a2 r2]| |] eqn:D; try discriminate. cbn [obind] in H. injection H as <- <-.
    apply (echoes_app [Echo t] a2); [reflexivity|eauto].
  - destruct (drain n L q0) as [[a2 r2]| |] eqn:D; try discriminate. cbn [obind] in H. injection H as <- <-.
    apply echoes_app; [eapply tl_echoes; eauto|eauto].
Qed.

Lemma drain_suffix : forall n L q a r, Forall entry_ok L -> drain n L q = Ok (a, r) -> exists x, q = x ++ r.
Proof.
  induction n as [|n IH]; intros L [|t q] a r OK H; cbn [drain] in H; try discriminate; try (injection H as <- <-; now exists []).
  destruct (try_list L (t :: q)) eqn:T; try discriminate.
  - injection H as <- <-. now exists [].
  - destruct (drain n L q) as [[a2 r2]| |] eqn:D; try discriminate. cbn [obind] in H. injection H as <- <-.
    destruct (IH _ _ _ _ OK D) as (x & ->). now exists (t :: x).
  - destruct (drain n L q0) as [[a2 r2]| |] eqn:D; try discriminate. cbn [obind] in H. injection H as <- <-.
    destruct (IH _ _ _ _ OK D) as (x & ->). destruct (tl_hit _ _ _ _ T) as (L1 & e & L2 & E & TE & _).
    rewrite Forall_forall in OK. assert (OE : entry_ok e) by (apply OK; rewrite E; apply in_elt).
    destruct (te_hit _ _ _ _ OE TE) as (bl & s & new & -> & _ & AP & _). clear - AP.
    assert (G : exists y, s = y ++ x ++ r2).
    { destruct AP as [s rest K ST|p a b rest K HW S NB|p a b rest K HW S NB]; [|now eexists [_]|now eexists [_]].
      induction ST as [p w rest S|p w ps bl' s rest S FB ST IH]; [now exists [w]|]. destruct IH as (y & ->). exists (w :: bl' ++ y). cbn [app]. now rewrite <- app_assoc. }
    destruct G as (y & ->). exists (bl ++ y ++ x). now rewrite <- !app_assoc.
Qed.

Lemma feed_echoes : forall ts st a st', match s_list st with Some L => Forall (fun e => e_kind e = KOther) L | None => True end ->
  feed st ts = Ok (a, st') -> echoes a.
Proof.
  induction ts as [|t ts IH]; intros [Lo q] a st' F H; cbn [feed s_list] in *; [injection H as <- _; reflexivity|].
  destruct (ppecho_0 (mkStage Lo q) t) as [[a1 s1]| |] eqn:E; try discriminate. cbn [obind] in H.
  destruct (feed s1 ts) as [[a2 s2]| |] eqn:F2; try discriminate. cbn [obind] in H. injection H as <- <-.
  assert (SL : s_list s1 = Lo /\ echoes a1).
  { unfold ppecho_0 in E. cbn [s_list s_queue] in E. destruct q as [|t0 q].
    - destruct (is_blank t); [injection E as <- <-; split; reflexivity|]. destruct Lo as [L|]; [|injection E as <- <-; split; reflexivity].
      destruct (drain _ L _) as [[a3 r3]| |] eqn:D; try discriminate. cbn [obind] in E. injection E as <- <-. split; [reflexivity|]. eapply drain_echoes; eauto.
    - destruct Lo as [L|]; [|injection E as <- <-; split; [reflexivity|]; apply (echoes_map (t0 :: q ++ [t]))].
      destruct (drain _ L _) as [[a3 r3]| |] eqn:D; try discriminate. cbn [obind] in E. injection E as <- <-. split; [reflexivity|]. eapply drain_echoes; eauto. }
  destruct SL as [SL EC]. apply echoes_app; auto. apply (IH s1 a2 s2); auto. now rewrite SL.
Qed.

(** Texts given to both stages. *)
Lemma text_run : forall ts st a s1 b s2, feed (p_one st) ts = Ok (a, s1) -> 
  match s_list (p_one st) with Some L => Forall (fun e => e_kind e = KOther) L | None => True end ->
  feed (p_two st) (texts a) = Ok (b, s2) ->
  pp_run st (map EText ts) = Ok (mkPp s1 s2 (p_stack st) (p_out st ++ wr b)).
Proof.
  induction ts as [|t ts IH]; intros [one two stk out] a s1 b s2 H F G; cbn [p_one p_two p_stack p_out] in *.
  - cbn [feed] in H. injection H as <- <-. cbn [texts map feed] in G. injection G as <- <-. unfold wr. cbn [map texts pp_run]. now rewrite app_nil_r.
  - cbn [feed] in H. destruct (ppecho_0 one t) as [[a1 o1]| |] eqn:E; try discriminate. cbn [obind] in H.
    destruct (feed o1 ts) as [[a2 o2]| |] eqn:F2; try discriminate. cbn [obind] in H. injection H as <- <-.
    assert (EC : echoes a1).
    { apply (feed_echoes [t] one a1 o1 F). cbn [feed]. rewrite E. cbn [obind]. now rewrite app_nil_r. }
    assert (SL : s_list o1 = s_list one).
    { clear - E. destruct one as [Lo q]. unfold ppecho_0 in E. cbn [s_list s_queue] in *. destruct q as [|t0 q]; [destruct (is_blank t); [injection E as <- <-; reflexivity|]|];
      (destruct Lo as [L|]; [|injection E as <- <-; reflexivity]);
      (match type of E with obind ?d _ = _ => destruct d as [[a3 r3]| |] end; try discriminate; cbn [obind] in E; injection E as <- <-; reflexivity). }
    rewrite texts_app, feed_app in G. destruct (feed two (texts a1)) as [[b1 t1]| |] eqn:G1; try discriminate. cbn [obind] in G.
    destruct (feed t1 (texts a2)) as [[b2 t2]| |] eqn:G2; try discriminate. cbn [obind] in G. injection G as <- <-.
    cbn [map pp_run pp_step]. unfold ppecho. cbn [p_one p_two p_stack p_out]. rewrite E. cbn [obind]. rewrite EC.
    rewrite (second_feed (texts a1) (mkPp o1 two stk out) b1 t1) by exact G1. cbn [p_one p_two p_stack p_out obind].
    rewrite (IH (mkPp o1 t1 stk (out ++ wr b1)) a2 o2 b2 t2); cbn [p_one p_two p_stack p_out]; auto; [|now rewrite SL].
    unfold wr. rewrite texts_app, map_app, app_assoc. reflexivity.
Qed.

Lemma pp_run_app : forall a b st, pp_run st (a ++ b) = obind (pp_run st a) (fun s => pp_run s b).
Proof. induction a as [|e a IH]; intros; [reflexivity|]. cbn [app pp_run]. destruct (pp_step st e); cbn [obind]; auto. Qed.

Lemma flush_feed : forall ts q, exists x r, feed (mkStage None q) ts = Ok (map Echo x, mkStage None r) /\ x ++ r = q ++ ts /\ (r = [] \/ ts = []).
Proof.
  destruct ts as [|t ts]; intros q.
  - exists [], q. cbn [feed]. split; [reflexivity|]. split; [now rewrite app_nil_r|auto].
  - exists (q ++ t :: ts), []. cbn [feed]. split; [|split; [now rewrite app_nil_r|auto]].
    assert (E : ppecho_0 (mkStage None q) t = Ok (map Echo (q ++ [t]), mkStage None [])).
    { unfold ppecho_0. cbn [s_queue s_list]. destruct q; [destruct (is_blank t)|]; reflexivity. }
    rewrite E. cbn [obind]. rewrite feed_none. cbn [obind]. rewrite <- map_app, <- app_assoc. reflexivity.
Qed.

(** The text [s] has been given; the first stage holds the end of it. *)
Definition fed (L2 : option (list entry)) (o0 : list tok) (s : list tok) (st : pp) : Prop :=
  exists q1 e1 a, p_one st = mkStage None q1 /\ feed (mkStage L2 []) e1 = Ok (a, p_two st) /\
    out_texts st = o0 ++ texts a /\ s = e1 ++ q1.

Lemma out_wr : forall a, flat_map (fun o => match o with OText t => [t] | OMark => [] end) (wr a) = texts a.
Proof. intros a. unfold wr. induction (texts a) as [|t l IH]; [reflexivity|]. cbn [map flat_map app]. now rewrite IH. Qed.

Lemma two_more : forall L2 e1 a two x, Forall entry_ok (list_of L2) -> feed (mkStage L2 []) e1 = Ok (a, two) ->
  exists b two', feed two x = Ok (b, two') /\ feed (mkStage L2 []) (e1 ++ x) = Ok (a ++ b, two').
Proof.
  intros L2 e1 a two x OK F. assert (SO : stage_ok (mkStage L2 [])) by (unfold stage_ok; cbn [s_list s_queue]; destruct L2; cbn [list_of] in OK; auto).
  destruct (feed_total e1 (mkStage L2 []) SO) as (a' & two' & F' & SO' & _). rewrite F in F'. injection F' as <- <-.
  destruct (feed_total x two SO') as (b & t2 & F2 & _ & _). exists b, t2. split; auto. rewrite feed_app, F. cbn [obind]. rewrite F2. reflexivity.
Qed.

Lemma item_run : forall L2 o0 s st i, Forall entry_ok (list_of L2) -> fed L2 o0 s st -> item_ok i ->
  (match i with Copied _ _ => s_queue (p_one st) = [] | _ => True end) ->
  exists st' piece, pp_run st (events i) = Ok st' /\ contributes i piece /\ fed L2 o0 (s ++ piece) st' /\ p_stack st' = p_stack st /\
    (match i with Txt _ => s_queue (p_one st') = [] | _ => True end).
Proof.
  intros L2 o0 s [one two stk out] i OK2 (q1 & e1 & a & P1 & F & O & ->) OK Q. cbn [p_one p_two] in *. unfold out_texts in O. cbn [p_out] in O. subst one.
  destruct i as [t|[L|] body]; cbn [events item_ok] in *.
  - destruct (flush_feed [t] q1) as (x & r & FF & EQ & R). destruct R as [->|R]; [|discriminate]. rewrite app_nil_r in EQ. subst x.
    destruct (two_more L2 e1 a two (q1 ++ [t]) OK2 F) as (b & two' & F2 & F3).
    exists (mkPp (mkStage None []) two' stk (out ++ wr b)), [t]. cbn [p_stack p_one s_queue].
    change [EText t] with (map EText [t]).
    rewrite (text_run [t] (mkPp (mkStage None q1) two stk out) (map Echo (q1 ++ [t])) (mkStage None []) b two'); cbn [p_one p_two p_stack p_out s_list]; auto; [|now rewrite texts_echo].
    split; [reflexivity|]. split; [constructor|]. split; [|auto]. exists [], (e1 ++ q1 ++ [t]), (a ++ b). cbn [p_one p_two]. split; auto. split; auto. split.
    + unfold out_texts. cbn [p_out]. rewrite flat_map_app, O, out_wr, texts_app, app_assoc. reflexivity.
    + now rewrite app_nil_r, !app_assoc.
  - destruct OK as (OKL & KO & n & SP). cbn [s_queue] in Q. subst q1. rewrite app_nil_r.
    assert (SO : stage_ok (mkStage (Some L) [])) by (unfold stage_ok; cbn [s_list s_queue]; auto).
    destruct (feed_total body _ SO) as (a1 & s1 & F1 & SO1 & SL1). cbn [s_list] in SL1.
    assert (S := fun rest o => feed_sound body (mkStage (Some L) []) L a1 s1 eq_refl OKL SO F1 rest o). cbn [s_queue app] in S.
    assert (PD := ok_pending s1 L SL1 SO1).
    destruct (two_more L2 e1 a two (texts a1) OK2 F) as (b & two' & F2 & F3).
    destruct s1 as [Lo q1]. cbn [s_list s_queue] in *. subst Lo.
    exists (mkPp (mkStage None q1) two' stk ((out ++ [OMark]) ++ wr b ++ [OMark])), (texts a1 ++ q1). cbn [p_stack p_one].
    cbn [pp_run pp_step p_one p_two p_stack p_out obind]. rewrite pp_run_app. unfold set_list at 1. cbn [s_queue].
    rewrite (text_run body (mkPp (mkStage (Some L) []) two (true :: stk) (out ++ [OMark])) a1 (mkStage (Some L) q1) b two'); cbn [p_one p_two p_stack p_out s_list]; auto.
    cbn [obind pp_run pp_step p_stack p_one p_two p_out set_list s_queue]. rewrite <- !app_assoc. cbn [app].
    split; [reflexivity|]. split.
    + constructor. specialize (S [] q1). rewrite !app_nil_r in S. apply S. eapply pending_id; eauto.
    + split; [|auto]. exists q1, (e1 ++ texts a1), (a ++ b). cbn [p_one p_two]. split; auto. split; auto. split.
      * unfold out_texts. cbn [p_out]. rewrite flat_map_app, O. cbn [flat_map app]. rewrite flat_map_app, out_wr. cbn [flat_map app]. rewrite texts_app, app_nil_r, app_assoc. reflexivity.
      * now rewrite !app_assoc.
  - destruct (flush_feed body q1) as (x & r & FF & EQ & R).
    destruct (two_more L2 e1 a two x OK2 F) as (b & two' & F2 & F3).
    exists (mkPp (mkStage None r) two' stk ((out ++ [OMark]) ++ wr b ++ [OMark])), body. cbn [p_stack p_one].
    cbn [pp_run pp_step p_one p_two p_stack p_out obind]. rewrite pp_run_app.
    rewrite (text_run body (mkPp (mkStage None q1) two (false :: stk) (out ++ [OMark])) (map Echo x) (mkStage None r) b two'); cbn [p_one p_two p_stack p_out s_list]; auto; [|now rewrite texts_echo].
    cbn [obind pp_run pp_step p_stack p_one p_two p_out]. rewrite <- !app_assoc. cbn [app].
    split; [reflexivity|]. split; [constructor|].
    split; [|auto]. exists r, (e1 ++ x), (a ++ b). cbn [p_one p_two]. split; auto. split; auto. split.
      * unfold out_texts. cbn [p_out]. rewrite flat_map_app, O. cbn [flat_map app]. rewrite flat_map_app, out_wr. cbn [flat_map app]. rewrite texts_app, app_nil_r, app_assoc. reflexivity.
      * now rewrite <- !app_assoc, EQ.
Qed.

Lemma items_run : forall L2 o0 items s st, Forall entry_ok (list_of L2) -> fed L2 o0 s st -> Forall item_ok items -> separated items ->
  (match items with Copied _ _ :: _ => s_queue (p_one st) = [] | _ => True end) ->
  exists st' pieces, pp_run st (flat_map events items) = Ok st' /\ Forall2 contributes items pieces /\ fed L2 o0 (s ++ concat pieces) st' /\ p_stack st' = p_stack st.
Proof.
  intros L2 o0. induction items as [|i items IH]; intros s st OK2 FD OK SEP Q.
  - exists st, []. cbn [flat_map pp_run concat]. rewrite app_nil_r. repeat split; auto.
  - inversion OK; subst. destruct (item_run L2 o0 s st i OK2 FD H1) as (st1 & piece & R1 & C1 & FD1 & ST1 & Q1); [destruct i; auto|].
    destruct (IH (s ++ piece) st1 OK2 FD1 H2) as (st2 & pieces & R2 & C2 & FD2 & ST2).
    + cbn [separated] in SEP. destruct i; auto. destruct items as [|[]]; auto. destruct SEP.
    + destruct items as [|[t|L body] items]; auto. destruct i as [t|L' body']; auto. cbn [separated] in SEP. destruct SEP.
    + exists st2, (piece :: pieces). cbn [flat_map]. rewrite pp_run_app, R1. cbn [obind concat]. rewrite app_assoc. repeat split; auto. congruence.
Qed.

Lemma rep_nil_app : forall g x s o, replaced g [] s o -> replaced g [] (x ++ s) (x ++ o).
Proof.
  intros g. induction x as [|t x IH]; intros s o R; auto. cbn [app]. destruct (is_blank t) eqn:B.
  - apply rep_blank; auto. now apply is_blank_iff.
  - apply rep_keep; auto. now apply not_blank_iff.
Qed.

Lemma feed_last : forall L2 ts w a two, Forall entry_ok (list_of L2) -> ~ blank w ->
  (forall e p, In e (list_of L2) -> In p (e_old e) -> ~ same_word p w) ->
  feed (mkStage L2 []) (ts ++ [w]) = Ok (a, two) -> two = mkStage L2 [] /\ replaced true (list_of L2) (ts ++ [w]) (texts a).
Proof.
  intros [L|] ts w a two OK NB NW F; cbn [list_of] in *.
  - assert (SO : stage_ok (mkStage (Some L) [])) by (unfold stage_ok; cbn [s_list s_queue]; auto).
    destruct (feed_total (ts ++ [w]) _ SO) as (a' & s' & F' & SO' & SL). rewrite F in F'. injection F' as <- <-. cbn [s_list] in SL.
    assert (E : s_queue two = []).
    { destruct (ok_pending two L SL SO') as [E|(e & p1 & p2 & I & W & N & F2 & K)]; auto.
      rewrite feed_app in F. destruct (feed_total ts _ SO) as (a1 & s1 & F1 & SO1 & SL1). cbn [s_list] in SL1. rewrite F1 in F. cbn [obind] in F.
      destruct (feed s1 [w]) as [[b s2]| |] eqn:FW; try discriminate. cbn [obind] in F. injection F as <- <-.
      cbn [feed] in FW. destruct (ppecho_0 s1 w) as [[b1 s3]| |] eqn:EW; try discriminate. cbn [obind] in FW. injection FW as <- <-.
      destruct s1 as [Lo q1]. cbn [s_list] in SL1. subst Lo. unfold ppecho_0 in EW. cbn [s_list s_queue] in EW. apply not_blank_iff in NB.
      assert (D : exists n a2 r2, drain n L (q1 ++ [w]) = Ok (a2, r2) /\ s_queue s3 = r2).
      { rewrite NB in EW. destruct q1 as [|t0 q1];
        (match type of EW with obind ?d _ = _ => destruct d as [[a3 r3]| |] eqn:D end; try discriminate; cbn [obind] in EW; injection EW as <- <-; eexists _, _, _; split; [exact D|reflexivity]). }
      destruct D as (n & a2 & r2 & D & QE). rewrite QE in *. destruct (drain_suffix _ _ _ _ _ OK D) as (x & EX).
      destruct r2 as [|y r2] using rev_ind; [reflexivity|]. exfalso. rewrite app_assoc in EX. apply app_inj_tail in EX as [_ <-].
      rewrite words_app in F2. unfold words at 2 in F2. cbn [filter] in F2. rewrite NB in F2. cbn [negb] in F2.
      apply Forall2_app_inv_r in F2 as (l1 & l2 & _ & G & EP). inversion G as [|p y l l' SM GG]; subst.
      apply (NW e p I); auto. assert (IP : In p (words (e_old e))) by (rewrite W; apply in_or_app; left; apply in_elt).
      unfold words in IP. now apply filter_In in IP as [IP _]. }
    split; [destruct two as [Lo q]; cbn [s_list s_queue] in *; congruence|].
    assert (S := feed_sound (ts ++ [w]) (mkStage (Some L) []) L a two eq_refl OK SO F [] []). cbn [s_queue] in S. rewrite E, !app_nil_r in S. apply S. constructor.
  - rewrite feed_none in F. injection F as <- <-. split; auto. rewrite texts_echo. apply replaced_nil.
Qed.

Lemma section_run : forall c st o0, section_ok c -> p_one st = mkStage None [] -> s_queue (p_two st) = [] -> out_texts st = o0 ->
  exists st' pieces out, pp_run st (section_events c) = Ok st' /\ Forall2 contributes (section_items c) pieces /\
    replaced true (list_of (c_list c)) (concat pieces) out /\ out_texts st' = o0 ++ out /\
    p_one st' = mkStage None [] /\ s_queue (p_two st') = [] /\ p_stack st' = p_stack st.
Proof.
  intros [L2 items w] st o0 (OK2 & OKI & SEP & NB & NW) P1 Q2 O. unfold section_events, section_items. cbn [c_list c_items c_last] in *.
  cbn [pp_run pp_step obind]. set (st0 := mkPp (p_one st) (set_list (p_two st) L2) (p_stack st) (p_out st)).
  assert (FD : fed L2 o0 [] st0).
  { exists [], [], []. cbn [st0 p_one p_two feed]. split; [exact P1|]. split; [unfold set_list; now rewrite Q2|]. split; [|reflexivity].
    cbn [texts map]. rewrite app_nil_r. exact O. }
  destruct (items_run L2 o0 items [] st0 OK2 FD OKI SEP) as (st1 & pieces & R1 & C1 & FD1 & ST1).
  { destruct items as [|[]]; auto. cbn [st0 p_one]. now rewrite P1. }
  destruct (item_run L2 o0 _ st1 (Txt w) OK2 FD1 I I) as (st2 & piece & R2 & C2 & FD2 & ST2 & QQ).
  inversion C2; subst piece. exists st2, (pieces ++ [[w]]).
  destruct FD2 as (q1 & e1 & a & E1 & F & OO & EQ). rewrite E1 in QQ. cbn [s_queue] in QQ. subst q1. rewrite app_nil_r in EQ. cbn [app] in EQ. subst e1.
  destruct (feed_last L2 (concat pieces) w a (p_two st2) OK2 NB NW F) as [TW RP].
  exists (texts a). rewrite flat_map_app, pp_run_app, R1. cbn [obind flat_map]. rewrite app_nil_r. split; [exact R2|]. split.
  - apply Forall2_app; auto.
  - rewrite concat_app. cbn [concat]. rewrite app_nil_r. split; auto. split; auto. split; auto. rewrite TW. split; [reflexivity|]. rewrite ST2, ST1. reflexivity.
Qed.

(** COPY without REPLACING is the same as the text in line. *)
Lemma stack_frame : forall es fs, plain_copies es fs -> forall st st', pp_run st es = Ok st' -> p_stack st' = p_stack st.
Proof.
  assert (SS : forall acts st st', second st acts = Ok st' -> p_stack st' = p_stack st).
  { induction acts as [|[t|t] acts IH]; intros st st' H; cbn [second] in H.
    - now injection H as <-.
    - destruct (ppecho_0 (p_two st) t) as [[x s]| |]; try discriminate. cbn [obind] in H. apply IH in H. exact H.
    - apply IH in H. exact H. }
  induction 1 as [|t es fs P IH|r es fs P IH|a a' es fs PA IHA P IH]; intros st st' H; cbn [pp_run pp_step] in H.
  - now injection H as <-.
  - unfold ppecho in H. destruct (ppecho_0 (p_one st) t) as [[x s]| |]; try discriminate. cbn [obind] in H.
    destruct (second _ x) as [st1| |] eqn:S; try discriminate. cbn [obind] in H. apply IH in H. apply SS in S. cbn [p_stack] in S. congruence.
  - cbn [obind] in H. apply IH in H. exact H.
  - cbn [obind] in H. rewrite pp_run_app in H.
    match type of H with context [pp_run ?s0 a] => destruct (pp_run s0 a) as [st1| |] eqn:RA end; try discriminate. apply IHA in RA. cbn [p_stack] in RA.
    cbn [obind pp_run pp_step] in H. rewrite RA in H. cbn [obind] in H. apply IH in H. exact H.
Qed.

(* the stack is not looked at *)
Lemma plain_run : forall es fs, plain_copies es fs -> forall a b, p_one a = p_one b -> p_two a = p_two b -> out_texts a = out_texts b ->
  match pp_run a es, pp_run b fs with
  | Ok a', Ok b' => p_one a' = p_one b' /\ p_two a' = p_two b' /\ out_texts a' = out_texts b'
  | UB, UB => True | NotModelled, NotModelled => True | _, _ => False end.
Proof.
  assert (SA : forall acts a b, p_two a = p_two b -> p_one a = p_one b -> out_texts a = out_texts b ->
    match second a acts, second b acts with Ok a', Ok b' => p_one a' = p_one b' /\ p_two a' = p_two b' /\ out_texts a' = out_texts b' | UB, UB => True | NotModelled, NotModelled => True | _, _ => False end).
  { induction acts as [|[t|t] acts IH]; intros a b H1 H2 H4; cbn [second].
    - auto.
    - rewrite H1. destruct (ppecho_0 (p_two b) t) as [[x s]| |]; cbn [obind]; auto. apply IH; cbn [p_two p_one]; auto.
      unfold out_texts in *. cbn [p_out]. rewrite !flat_map_app. now f_equal.
    - apply IH; cbn [p_two p_one]; auto. unfold out_texts in *. cbn [p_out]. rewrite !flat_map_app. now f_equal. }
  induction 1 as [|t es fs P IH|r es fs P IH|x x' es fs PX IHX P IH]; intros a b H1 H2 H3; cbn [pp_run pp_step].
  - auto.
  - unfold ppecho. rewrite H1. destruct (ppecho_0 (p_one b) t) as [[y s]| |]; cbn [obind]; auto.
    assert (X := SA y (mkPp s (p_two a) (p_stack a) (p_out a)) (mkPp s (p_two b) (p_stack b) (p_out b)) H2 eq_refl H3).
    destruct (second (mkPp s (p_two a) _ _) y), (second (mkPp s (p_two b) _ _) y); try contradiction; cbn [obind]; auto. destruct X as (X1 & X2 & X3). apply IH; auto.
  - cbn [obind]. apply IH; cbn [p_one p_two]; auto. now rewrite H2.
  - cbn [obind]. rewrite !pp_run_app.
    set (a1 := mkPp (p_one a) (p_two a) (false :: p_stack a) (p_out a ++ [OMark])).
    assert (O1 : out_texts a1 = out_texts b). { unfold a1, out_texts in *. cbn [p_out]. rewrite flat_map_app. cbn [flat_map app]. now rewrite app_nil_r. }
    assert (X := IHX a1 b H1 H2 O1). destruct (pp_run a1 x) as [a2| |] eqn:RA, (pp_run b x') as [b2| |] eqn:RB; try contradiction; cbn [obind]; auto.
    assert (ST := stack_frame x x' PX a1 a2 RA). cbn [a1 p_stack] in ST. cbn [pp_run pp_step]. rewrite ST. cbn [obind].
    destruct X as (X1 & X2 & X3). apply IH; cbn [p_one p_two]; auto.
    unfold out_texts in *. cbn [p_out]. rewrite flat_map_app. cbn [flat_map app]. now rewrite app_nil_r.
Qed.
