(** Blocks: the stack machine compiles exactly the selected lines. *)
From Verif Require Import Base FixedSrc SpecFixedSrc FixedSrcThm FixedSrcThm2 CondComp SpecCondComp CondCompThm.
From Coq Require Import Lia.
Local Open Scope Z_scope.

(** What happens to the lines of a block: compiled, a directive, left out. *)
Inductive step := SL (l : list Z) | SJ | SK.
Fixpoint run (c : cfg) (ss : list step) (s : rst) (k : rst -> outcome (option (list Z)))
  : outcome (option (list Z)) :=
  match ss with
  | [] => k s
  | SL l :: r =>
    do x <- do_line c l s;
    match x with
    | LErr => Ok None
    | LSkip s' => run c r s' k
    | LOut o s' => do y <- run c r s' k; Ok (match y with Some o' => Some (o ++ o') | None => None end)
    end
  | SJ :: r => if c_cap c <? Z.of_nat (r_nl s) + 20 then UB else run c r (set_nl 1 s) k
  | SK :: r => run c r (set_nl (S (r_nl s)) s) k
  end.
Fixpoint lines_of (ss : list step) : list (list Z) :=
  match ss with [] => [] | SL l :: r => l :: lines_of r | _ :: r => lines_of r end.
Lemma lines_of_app a b : lines_of (a ++ b) = lines_of a ++ lines_of b.
Proof. induction a as [|[l| |] a IH]; cbn [app lines_of]; rewrite ?IH; reflexivity. Qed.

Lemma run_app c a b k : forall s, run c (a ++ b) s k = run c a s (fun s' => run c b s' k).
Proof.
  induction a as [|[l| |] a IH]; intro s; cbn [app run].
  - reflexivity.
  - destruct (do_line c l s) as [[s'|o s'|]| |]; cbn [obind]; rewrite ?IH; reflexivity.
  - rewrite IH. reflexivity.
  - apply IH.
Qed.
Lemma run_ext c ss k k' : (forall s, k s = k' s) -> forall s, run c ss s k = run c ss s k'.
Proof.
  intro E. induction ss as [|[l| |] ss IH]; intro s; cbn [run].
  - apply E.
  - destruct (do_line c l s) as [[s'|o s'|]| |]; cbn [obind]; rewrite ?IH; reflexivity.
  - rewrite IH. reflexivity.
  - apply IH.
Qed.

(** *** Single lines *)
Lemma no_nul l : ~ In 0 l -> existsb (Z.eqb 0) l = false.
Proof. intro H. apply existsb_in. exact H. Qed.

Lemma cut_prefix l : exists k, cut_inline l = firstn k l /\ (7 <= k \/ length l <= k)%nat.
Proof.
  unfold cut_inline. destruct (find_inline 0 l) as [i|].
  - destruct (7 <=? i)%nat eqn:E; cbn [andb].
    + apply Nat.leb_le in E. destruct (negb _); [exists i; split; [reflexivity|lia]|].
      exists (length l). rewrite firstn_all. split; [reflexivity|lia].
    + exists (length l). rewrite firstn_all. split; [reflexivity|lia].
  - exists (length l). rewrite firstn_all. split; [reflexivity|lia].
Qed.
Lemma inert_cut l : ~ directive l -> is_directive (cut_inline l) = false.
Proof.
  intro H. apply not_directive. intro D. apply H. clear H.
  destruct (cut_prefix l) as (k & E & Hk). rewrite E in D. destruct D as [L D].
  rewrite firstn_length in L. split; [lia|].
  assert (I : indicator (firstn k l) = indicator l).
  { unfold indicator. rewrite <- (firstn_skipn k l) at 2. rewrite app_nth1; [reflexivity|].
    rewrite firstn_length. lia. }
  rewrite I in D. destruct D as [D|[D [r D2]]]; [left; exact D|right]. split; [exact D|].
  assert (P : skipn 7 l = skipn 7 (firstn k l) ++ skipn k l).
  { rewrite <- (firstn_skipn k l) at 1. rewrite skipn_app.
    replace (7 - length (firstn k l))%nat with 0%nat by (rewrite firstn_length; lia). reflexivity. }
  rewrite P, drop_blanks_app_ne by (rewrite D2; discriminate).
  rewrite D2. eexists. reflexivity.
Qed.

Lemma do_cline_plain c cs l s st : plain l ->
  do_cline c cs l (mkCst s st false) = (do v <- do_line c l s; Ok (v, mkCst s st false)).
Proof.
  intros (P0 & _ & P1 & P2 & _). unfold do_cline, do_line. rewrite (no_nul l P0).
  cbv zeta. rewrite (inert_cut l P2). reflexivity.
Qed.
Lemma do_cline_inert c cs l s st : inert l ->
  do_cline c cs l (mkCst s st true)
  = Ok (LSkip (set_nl (S (r_nl s)) s), mkCst s st true).
Proof.
  intros (P0 & P2). unfold do_cline. rewrite (no_nul l P0). cbv zeta. rewrite (inert_cut l P2). reflexivity.
Qed.
Lemma do_cline_says c cs d ws s st sk st' : c_col c = 72%nat -> says d ws ->
  same (word ws 0) w_set = false -> dollar cs ws st = Some st' ->
  do_cline c cs d (mkCst s st sk)
  = (if c_cap c <? Z.of_nat (r_nl s) + 20 then UB
     else Ok (LSkip (set_nl 1 s), mkCst (set_nl 1 s) st' (negb (forallb is_true st')))).
Proof.
  intros Hc (P0 & P1 & L & I & S) Hs Hd. unfold do_cline. rewrite (no_nul d P0). cbv zeta.
  rewrite (cut_plain d P1).
  assert (E : is_directive d = true).
  { unfold is_directive. replace (7 <=? length d)%nat with true by (symmetry; apply Nat.leb_le, L).
    rewrite (nth_default d 6 0 32) by lia. fold (indicator d). rewrite I. reflexivity. }
  rewrite E. unfold do_dir. cbn [x_r x_stack x_skip].
  rewrite (nth_default d 6 0 32) by lia. fold (indicator d). rewrite I.
  change (36 =? 36) with true. cbv zeta iota. rewrite Hc, (words_split _ _ S), Hs, Hd.
  reflexivity.
Qed.

Lemma dollar_else cs w st st' : word_eq w s_else ->
  match st with ST :: r => st' = SFE :: r | SF :: r => st' = STE :: r | _ => False end ->
  same (word [w] 0) w_set = false /\ dollar cs [w] st = Some st'.
Proof.
  intros H E. unfold dollar, word. cbn [firstn nth].
  rewrite !(same_trans_l w s_else _ H). split; [reflexivity|].
  change (same s_else w_if) with false. change (same s_else w_else) with true. cbv iota.
  destruct st as [|[| | |] r]; try contradiction; subst; reflexivity.
Qed.
Lemma dollar_end cs w x st : word_eq w s_end ->
  same (word [w] 0) w_set = false /\ dollar cs [w] (x :: st) = Some st.
Proof.
  intros H. unfold dollar, word. cbn [firstn nth].
  rewrite !(same_trans_l w s_end _ H). split; reflexivity.
Qed.
Lemma dollar_if cs ws P (b : bool) st d : says d ws -> condition cs ws P -> (if b then P else ~ P) ->
  (length st < 10)%nat ->
  same (word ws 0) w_set = false /\ dollar cs ws st = Some ((if b then ST else SF) :: st).
Proof.
  intros (_ & _ & _ & _ & S) Hc Hb L.
  destruct (condition_eval cs ws P b Hc Hb (split_nonempty _ _ S)) as [E1 E2].
  split.
  - apply same_iff in E1. rewrite (same_trans_l _ _ w_set E1). reflexivity.
  - unfold dollar. rewrite E1. replace (10 <=? length st)%nat with false by (symmetry; apply Nat.leb_gt; lia).
    rewrite E2. reflexivity.
Qed.

(** *** Blocks *)
Lemma block_run c cs : c_col c = 72%nat -> forall on b ls, selected cs on b ls ->
  exists ss, lines_of ss = ls /\ length ss = length (source b) /\
  forall st s more, (length st + nesting b <= 10)%nat -> forallb is_true st = on ->
    do_clines c cs (source b ++ more) (mkCst s st (negb on))
    = run c ss s (fun s' => do_clines c cs more (mkCst s' st (negb on))).
Proof.
  intros Hc. induction 1 as
    [on|l b ls Hp _ IH|l b ls Hi _ IH
    |on d th e b ws P q we t1 t2 Hd Hcond HP He Hwe _ IH1 _ IH2
    |on d th m el e b ws P q we wm t1 t2 t3 Hd Hcond HP Hm Hwm He Hwe _ IH1 _ IH2 _ IH3].
  - exists []. split; [reflexivity|]. split; [reflexivity|]. intros; reflexivity.
  - destruct IH as (ss & E1 & E2 & E3). exists (SL l :: ss).
    cbn [lines_of source length nesting]. rewrite E1, E2. split; [reflexivity|]. split; [reflexivity|].
    intros st s more Hn Ht. cbn [app do_clines run negb].
    rewrite do_cline_plain by exact Hp. cbn [negb] in E3.
    destruct (do_line c l s) as [[s'|o s'|]| |]; cbn [obind fst snd x_stack x_skip]; try reflexivity.
    + apply E3; assumption.
    + rewrite E3 by assumption. reflexivity.
  - destruct IH as (ss & E1 & E2 & E3). exists (SK :: ss).
    cbn [lines_of source length nesting]. rewrite E1, E2. split; [reflexivity|]. split; [reflexivity|].
    intros st s more Hn Ht. cbn [app do_clines run negb].
    rewrite do_cline_inert by exact Hi. cbn [obind fst snd x_stack x_skip]. apply E3; assumption.
  - destruct IH1 as (s1 & A1 & A2 & A3). destruct IH2 as (s2 & B1 & B2 & B3).
    exists (SJ :: s1 ++ SJ :: s2).
    split; [cbn [lines_of]; rewrite lines_of_app; cbn [lines_of]; rewrite A1, B1; reflexivity|].
    split; [cbn [source length]; rewrite !app_length; cbn [length]; rewrite A2, B2; reflexivity|].
    intros st s more Hn Ht. cbn [nesting] in Hn.
    cbn [source app]. rewrite <- app_assoc. cbn [app do_clines run].
    destruct (dollar_if cs ws P q st d Hd Hcond HP ltac:(lia)) as [D1 D2].
    rewrite (do_cline_says c cs d ws s st (negb on) _ Hc Hd D1 D2).
    destruct (c_cap c <? Z.of_nat (r_nl s) + 20); [reflexivity|].
    cbn [obind fst snd x_stack x_skip].
    assert (F : forallb is_true ((if q then ST else SF) :: st) = on && q).
    { cbn [forallb]. rewrite Ht. destruct q; cbn [is_true]; destruct on; reflexivity. }
    rewrite F.
    rewrite (A3 ((if q then ST else SF) :: st)); [|cbn [length]; lia|exact F].
    rewrite run_app. apply run_ext. intro s'. cbn [do_clines run].
    destruct (dollar_end cs we (if q then ST else SF) st Hwe) as [G1 G2].
    rewrite (do_cline_says c cs e [we] s' _ _ _ Hc He G1 G2).
    destruct (c_cap c <? Z.of_nat (r_nl s') + 20); [reflexivity|].
    cbn [obind fst snd x_stack x_skip]. rewrite Ht. apply B3; [lia|exact Ht].
  - destruct IH1 as (s1 & A1 & A2 & A3). destruct IH2 as (s2 & B1 & B2 & B3).
    destruct IH3 as (s3 & C1 & C2 & C3).
    exists (SJ :: s1 ++ SJ :: s2 ++ SJ :: s3).
    split; [cbn [lines_of]; rewrite !lines_of_app; cbn [lines_of]; rewrite lines_of_app; cbn [lines_of];
            rewrite A1, B1, C1; reflexivity|].
    split; [cbn [source length]; repeat (rewrite !app_length; cbn [length]); rewrite A2, B2, C2; reflexivity|].
    intros st s more Hn Ht. cbn [nesting] in Hn.
    cbn [source app]. rewrite <- app_assoc. cbn [app]. rewrite <- app_assoc. cbn [app do_clines run].
    destruct (dollar_if cs ws P q st d Hd Hcond HP ltac:(lia)) as [D1 D2].
    rewrite (do_cline_says c cs d ws s st (negb on) _ Hc Hd D1 D2).
    destruct (c_cap c <? Z.of_nat (r_nl s) + 20); [reflexivity|].
    cbn [obind fst snd x_stack x_skip].
    assert (F : forallb is_true ((if q then ST else SF) :: st) = on && q).
    { cbn [forallb]. rewrite Ht. destruct q; cbn [is_true]; destruct on; reflexivity. }
    rewrite F.
    rewrite (A3 ((if q then ST else SF) :: st)); [|cbn [length]; lia|exact F].
    rewrite run_app. apply run_ext. intro s'. cbn [do_clines run].
    destruct (dollar_else cs wm ((if q then ST else SF) :: st) ((if q then SFE else STE) :: st) Hwm
      ltac:(destruct q; reflexivity)) as [M1 M2].
    rewrite (do_cline_says c cs m [wm] s' _ _ _ Hc Hm M1 M2).
    destruct (c_cap c <? Z.of_nat (r_nl s') + 20); [reflexivity|].
    cbn [obind fst snd x_stack x_skip].
    assert (F2 : forallb is_true ((if q then SFE else STE) :: st) = on && negb q).
    { cbn [forallb]. rewrite Ht. destruct q; cbn [is_true]; destruct on; reflexivity. }
    rewrite F2.
    rewrite (B3 ((if q then SFE else STE) :: st)); [|cbn [length]; lia|exact F2].
    rewrite run_app. apply run_ext. intro s''. cbn [do_clines run].
    destruct (dollar_end cs we (if q then SFE else STE) st Hwe) as [G1 G2].
    rewrite (do_cline_says c cs e [we] s'' _ _ _ Hc He G1 G2).
    destruct (c_cap c <? Z.of_nat (r_nl s'') + 20); [reflexivity|].
    cbn [obind fst snd x_stack x_skip]. rewrite Ht. apply C3; [lia|exact Ht].
Qed.

Lemma selected_plain cs on b ls : selected cs on b ls -> Forall plain ls.
Proof.
  induction 1; auto.
  - apply Forall_app. split; assumption.
  - apply Forall_app. split; [assumption|]. apply Forall_app. split; assumption.
Qed.

(** *** The text lines *)
Lemma lines_no10 o : no10 o -> forall cur r, lines_from cur (o ++ r) = lines_from (cur ++ o) r.
Proof.
  induction o as [|c o IH]; intros H cur r.
  - rewrite app_nil_r. reflexivity.
  - cbn [app lines_from]. replace (c =? 10) with false.
    + rewrite IH, <- app_assoc; [reflexivity|]. intro K; apply H; right; exact K.
    + symmetry. apply Z.eqb_neq. intros ->. apply H. left. reflexivity.
Qed.
Lemma lines_repeat n : forall cur r, cur = [] \/ (1 <= n)%nat ->
  lines_from cur (repeat 10 n ++ r) = emit cur (lines_from [] r).
Proof.
  induction n as [|n IH]; intros cur r H.
  - destruct H as [-> |H]; [reflexivity|lia].
  - cbn [repeat app lines_from]. change (10 =? 10) with true. cbv iota.
    rewrite IH by (left; reflexivity). reflexivity.
Qed.
Lemma lines_repeat_end n cur : lines_from cur (repeat 10 n) = emit cur [].
Proof.
  destruct n as [|n]; [reflexivity|]. rewrite <- (app_nil_r (repeat 10 (S n))).
  rewrite lines_repeat by (right; lia). reflexivity.
Qed.

Definition last_lines (c : cfg) (s : rst) : outcome (option (list Z)) :=
  if c_cap c <? Z.of_nat (r_nl s) + 1 then UB else Ok (Some (repeat 10 (r_nl s))).

Lemma run_lines c : c_col c = 72%nat -> forall ss nl e,
  Forall plain (lines_of ss) -> eok e -> Z.of_nat nl + Z.of_nat (length ss) + 75 <= c_cap c ->
  match program e (map (kind_of (c_debug c) (c_mfc c)) (lines_of ss)) with
  | None => run c ss (state nl e) (last_lines c) = Ok None
  | Some (tl, sl) => exists out, run c ss (state nl e) (last_lines c) = Ok (Some out) /\
      forall cur nl', cur = [] \/ (1 <= nl)%nat -> cur = [] \/ (1 <= nl')%nat ->
        lines_from cur out = lines_from cur (tl ++ repeat 10 nl' ++ unlines sl)
  end.
Proof.
  intro Hc. induction ss as [|[l| |] ss IH]; intros nl e Hp He Hcap.
  - cbn [lines_of map program run]. unfold last_lines. cbn [state r_nl length] in *.
    replace (c_cap c <? _) with false by (symmetry; apply Z.ltb_ge; lia).
    eexists. split; [reflexivity|]. intros cur nl' _ _. unfold unlines. cbn [map concat app].
    rewrite app_nil_r, !lines_repeat_end. reflexivity.
  - cbn [lines_of map] in *. inversion Hp as [|? ? Hl Hls]; subst. cbn [length] in Hcap.
    cbn [run program].
    rewrite (do_line_spec c l nl e Hc Hl He) by lia.
    assert (N10 : kind10 (kind_of (c_debug c) (c_mfc c) l)) by (apply kind_of_no10, Hl).
    destruct (kind_of (c_debug c) (c_mfc c) l) as [|t|t|]; cbn [kind10] in N10.
    + cbn [obind]. specialize (IH (S nl) e Hls He ltac:(lia)).
      destruct (program e _) as [[tl sl]|]; [|exact IH].
      destruct IH as (out & E & F). exists out. split; [exact E|].
      intros cur nl' H1 H2. rewrite (F cur (S nl')) by lia.
      rewrite <- repeat_snoc. reflexivity.
    + cbv zeta. cbn [obind].
      set (e' := ending_of (full t) None t) in *.
      assert (He' : eok e') by (apply ending_eok; exact I).
      specialize (IH 1%nat e' Hls He' ltac:(lia)).
      destruct (program e' _) as [[tl sl]|]; [|rewrite IH; reflexivity].
      destruct IH as (out & E & F). rewrite E. cbn [obind].
      eexists. split; [reflexivity|]. intros cur nl' H1 H2.
      set (o := shown (missing t) t e') in *.
      assert (No : no10 o) by (apply shown_no10, N10).
      rewrite <- app_assoc. cbn [app].
      rewrite !lines_repeat by assumption. f_equal.
      rewrite lines_no10 by exact No. cbn [app].
      unfold unlines. cbn [map concat].
      rewrite (F o 1%nat ltac:(right; lia) ltac:(right; lia)).
      rewrite <- !app_assoc. rewrite (lines_no10 o No []). cbn [repeat app]. reflexivity.
    + destruct (resume e t) as [[u q]|] eqn:R; [|reflexivity]. cbv zeta. cbn [obind].
      set (e' := ending_of (full t) q u) in *.
      assert (He' : eok e').
      { apply ending_eok. revert R He. unfold resume.
        destruct e as [|d|d]; destruct (drop_blanks t) as [|a [|b v]]; try discriminate;
          repeat match goal with |- context [if ?b then _ else _] => destruct b end;
          intros R He; inversion R; subst; cbn [qok]; auto. }
      specialize (IH (S nl) e' Hls He' ltac:(lia)).
      destruct (program e' _) as [[tl sl]|]; [|rewrite IH; reflexivity].
      destruct IH as (out & E & F). rewrite E. cbn [obind].
      eexists. split; [reflexivity|]. intros cur nl' H1 H2.
      set (o := shown (missing t) u e') in *.
      assert (No : no10 o) by (apply shown_no10; exact (resume_no10 _ _ _ _ N10 R)).
      rewrite <- app_assoc, !(lines_no10 o No).
      rewrite (F _ (S nl')) by (right; lia). rewrite <- repeat_snoc. reflexivity.
    + reflexivity.
  - cbn [lines_of run length] in *.
    replace (c_cap c <? _) with false by (symmetry; apply Z.ltb_ge; cbn [state r_nl]; lia).
    specialize (IH 1%nat e Hp He ltac:(lia)).
    change (set_nl 1 (state nl e)) with (state 1 e).
    destruct (program e _) as [[tl sl]|]; [|exact IH].
    destruct IH as (out & E & F). exists out. split; [exact E|].
    intros cur nl' _ H2. apply F; [right; lia|exact H2].
  - cbn [lines_of run length] in *.
    specialize (IH (S nl) e Hp He ltac:(lia)).
    change (set_nl (S (r_nl (state nl e))) (state nl e)) with (state (S nl) e).
    destruct (program e _) as [[tl sl]|]; [|exact IH].
    destruct IH as (out & E & F). exists out. split; [exact E|].
    intros cur nl' _ H2. apply F; [right; lia|exact H2].
Qed.
