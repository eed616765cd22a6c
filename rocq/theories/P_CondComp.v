(** C73: conditional compilation.  Of a source with nested $IF, $ELSE and $END
    exactly the lines are compiled whose conditions hold. *)
From Verif Require Import Base FixedSrc SpecFixedSrc FixedSrcThm FixedSrcThm2 CondComp SpecCondComp CondCompThm CondCompThm2.
From Coq Require Import Lia.
Local Open Scope Z_scope.

Definition keyed (l : list Z) : Prop :=
  ~ In 9 l /\ ~ In 10 l /\ ~ In 13 l /\ (length l <= 255)%nat.

Lemma read_keyed w ls : (0 < w)%nat -> Forall keyed ls ->
  rd_lines (length (unlines ls)) w (unlines ls) = ls.
Proof.
  intros Hw H.
  assert (E : unlines ls = concat (map (fun x => fst x ++ snd x) (map (fun l => (l, [10])) ls)))
    by (rewrite map_map; reflexivity).
  rewrite E. rewrite rd_lines_spec; [|exact Hw| |].
  - rewrite map_map. cbn [fst]. rewrite <- (map_id ls) at 2. apply map_ext_in. intros l Hl.
    rewrite Forall_forall in H. destruct (H l Hl) as (A & _). apply expand_id, A.
  - apply Forall_map. eapply Forall_impl; [|exact H]. intros l (A & B & C & D). cbn [fst snd].
    split; [|left; reflexivity]. unfold raw_ok. rewrite expand_id by exact A. auto.
  - apply file_len. apply Forall_map. apply Forall_forall. intros; left; reflexivity.
Qed.

(** The text that is compiled has the lines of the program that consists of
    the selected lines only. *)
Theorem C73_conditional_compilation : forall c os cs b ls,
  c_col c = 72%nat -> (0 < c_tab c)%nat ->
  Forall2 option_for os cs -> selected cs true b ls -> (nesting b <= 10)%nat ->
  Forall keyed (source b) -> Z.of_nat (length (source b)) + 75 <= c_cap c ->
  match program ENo (map (kind_of (c_debug c) (c_mfc c)) ls) with
  | None => compiled_text c os (unlines (source b)) = Ok None
  | Some p => exists out, compiled_text c os (unlines (source b)) = Ok (Some out) /\
                text_lines out = text_lines (program_text p)
  end.
Proof.
  intros c os cs b ls Hc Ht Ho Hs Hn Hk Hcap.
  unfold compiled_text. rewrite read_keyed, (const_list_spec os cs Ho) by assumption.
  destruct (block_run c cs Hc true b ls Hs) as (ss & E1 & E2 & E3).
  specialize (E3 [] rst0 [] ltac:(cbn [length]; lia) eq_refl).
  rewrite app_nil_r in E3. unfold cst0. cbn [negb] in E3. rewrite E3.
  assert (K : run c ss rst0 (fun s' => do_clines c cs [] (mkCst s' [] false))
              = run c ss (state 0 ENo) (last_lines c)) by (apply run_ext; reflexivity).
  rewrite K.
  assert (R := run_lines c Hc ss 0 ENo).
  rewrite E1 in R. specialize (R (selected_plain _ _ _ _ Hs) I ltac:(rewrite E2; change (Z.of_nat 0) with 0; lia)).
  destruct (program ENo _) as [[tl sl]|]; [|exact R].
  destruct R as (out & Eo & F). exists out. split; [exact Eo|].
  unfold text_lines. rewrite (F [] 0%nat) by (left; reflexivity). reflexivity.
Qed.

(** *** Errors *)
Lemma run_none c : c_col c = 72%nat -> forall ss k nl e,
  Forall plain (lines_of ss) -> eok e -> Z.of_nat nl + Z.of_nat (length ss) + 75 <= c_cap c ->
  (forall n e', eok e' -> Z.of_nat n <= Z.of_nat nl + Z.of_nat (length ss) + 1 -> k (state n e') = Ok None) ->
  run c ss (state nl e) k = Ok None.
Proof.
  intro Hc. induction ss as [|[l| |] ss IH]; intros k nl e Hp He Hcap Hk; cbn [length lines_of] in *.
  - cbn [run]. apply Hk; [exact He|lia].
  - inversion Hp as [|? ? Hl Hls]; subst. cbn [run].
    rewrite (do_line_spec c l nl e Hc Hl He) by lia.
    destruct (kind_of (c_debug c) (c_mfc c) l) as [|t|t|].
    + cbn [obind]. apply IH; auto; [lia|]. intros n e' Hn Hb. apply Hk; [exact Hn|lia].
    + cbv zeta. cbn [obind]. rewrite IH; auto; [apply ending_eok; exact I|lia|].
      intros n e' Hn Hb. apply Hk; [exact Hn|lia].
    + destruct (resume e t) as [[u q]|] eqn:R; [|reflexivity]. cbv zeta. cbn [obind].
      rewrite IH; auto; [|lia|].
      * apply ending_eok. revert R He. unfold resume.
        destruct e as [|d|d]; destruct (drop_blanks t) as [|a [|b v]]; try discriminate;
          repeat match goal with |- context [if ?b then _ else _] => destruct b end;
          intros R He; inversion R; subst; cbn [qok]; auto.
      * intros n e' Hn Hb. apply Hk; [exact Hn|lia].
    + reflexivity.
  - cbn [run].
    replace (c_cap c <? _) with false by (symmetry; apply Z.ltb_ge; cbn [state r_nl]; lia).
    change (set_nl 1 (state nl e)) with (state 1 e).
    apply IH; auto; [lia|]. intros n e' Hn Hb. apply Hk; [exact Hn|lia].
  - cbn [run]. change (set_nl (S (r_nl (state nl e))) (state nl e)) with (state (S nl) e).
    apply IH; auto; [lia|]. intros n e' Hn Hb. apply Hk; [exact Hn|lia].
Qed.

Lemma do_cline_bad c cs d ws s st sk : c_col c = 72%nat -> says d ws ->
  same (word ws 0) w_set = false -> dollar cs ws st = None ->
  Z.of_nat (r_nl s) + 20 <= c_cap c ->
  do_cline c cs d (mkCst s st sk) = Ok (LErr, mkCst s st sk).
Proof.
  intros Hc (P0 & P1 & L & I & S) Hs Hd Hcap. unfold do_cline. rewrite (no_nul d P0). cbv zeta.
  rewrite (cut_plain d P1).
  assert (E : is_directive d = true).
  { unfold is_directive. replace (7 <=? length d)%nat with true by (symmetry; apply Nat.leb_le, L).
    rewrite (nth_default d 6 0 32) by lia. fold (indicator d). rewrite I. reflexivity. }
  rewrite E. unfold do_dir. cbn [x_r x_stack x_skip].
  rewrite (nth_default d 6 0 32) by lia. fold (indicator d). rewrite I.
  change (36 =? 36) with true. cbv zeta iota. rewrite Hc, (words_split _ _ S), Hs, Hd.
  replace (c_cap c <? _) with false by (symmetry; apply Z.ltb_ge; lia). reflexivity.
Qed.

(** $ELSE or $END without $IF is an error, whatever comes before and after. *)
Theorem C73_unbalanced : forall c os cs b ls d w more,
  c_col c = 72%nat -> (0 < c_tab c)%nat ->
  Forall2 option_for os cs -> selected cs true b ls -> (nesting b <= 10)%nat ->
  says d [w] -> word_eq w s_else \/ word_eq w s_end ->
  Forall keyed (source b ++ d :: more) -> Z.of_nat (length (source b)) + 75 <= c_cap c ->
  compiled_text c os (unlines (source b ++ d :: more)) = Ok None.
Proof.
  intros c os cs b ls d w more Hc Ht Ho Hs Hn Hd Hw Hk Hcap.
  unfold compiled_text. rewrite read_keyed, (const_list_spec os cs Ho) by assumption.
  destruct (block_run c cs Hc true b ls Hs) as (ss & E1 & E2 & E3).
  specialize (E3 [] rst0 (d :: more) ltac:(cbn [length]; lia) eq_refl).
  unfold cst0. cbn [negb] in E3. rewrite E3. change rst0 with (state 0 ENo).
  apply run_none; [exact Hc|rewrite E1; exact (selected_plain _ _ _ _ Hs)|exact I|rewrite E2; change (Z.of_nat 0) with 0; lia|].
  intros n e' _ Hb. cbn [do_clines].
  rewrite (do_cline_bad c cs d [w]); [reflexivity|exact Hc|exact Hd| | |].
  - unfold word. cbn [firstn nth]. destruct Hw as [Hw|Hw]; rewrite (same_trans_l _ _ _ Hw); reflexivity.
  - unfold dollar, word. cbn [firstn nth].
    destruct Hw as [Hw|Hw]; rewrite !(same_trans_l _ _ _ Hw); reflexivity.
  - cbn [state r_nl]. rewrite E2 in Hb. change (Z.of_nat 0) with 0 in Hb. lia.
Qed.

(** An eleventh $IF inside ten others is an error. *)
Theorem C73_too_deep : forall c os cs ds d i ws more,
  c_col c = 72%nat -> (0 < c_tab c)%nat -> Forall2 option_for os cs ->
  length ds = 10%nat ->
  Forall (fun x => exists u P (q : bool), says x u /\ condition cs u P /\ (if q then P else ~ P)) ds ->
  says d (i :: ws) -> word_eq i s_if ->
  Forall keyed (ds ++ d :: more) -> 100 <= c_cap c ->
  compiled_text c os (unlines (ds ++ d :: more)) = Ok None.
Proof.
  intros c os cs ds d i ws more Hc Ht Ho Hl Hds Hd Hi Hk Hcap.
  unfold compiled_text. rewrite read_keyed, (const_list_spec os cs Ho) by assumption.
  assert (G : forall ds st s sk, Forall (fun x => exists u P (q : bool), says x u /\ condition cs u P /\ (if q then P else ~ P)) ds ->
    (length ds + length st = 10)%nat -> (r_nl s <= 1)%nat ->
    do_clines c cs (ds ++ d :: more) (mkCst s st sk) = Ok None).
  { clear Hk Hl Hds ds Ho Ht os. induction ds as [|x ds IH]; intros st s sk H L N; cbn [app do_clines].
    - rewrite (do_cline_bad c cs d (i :: ws)); [reflexivity|exact Hc|exact Hd| | |lia].
      + unfold word. cbn [firstn nth]. rewrite (same_trans_l _ _ _ Hi). reflexivity.
      + unfold dollar, word. cbn [firstn nth]. rewrite (same_trans_l _ _ _ Hi).
        change (same s_if w_if) with true. cbv iota. cbn [length] in L.
        replace (10 <=? length st)%nat with true by (symmetry; apply Nat.leb_le; lia). reflexivity.
    - inversion H as [|? ? (u & P & q & Hu & HP & Hq) Hr]; subst. cbn [length] in L.
      destruct (dollar_if cs u P q st x Hu HP Hq ltac:(lia)) as [D1 D2].
      rewrite (do_cline_says c cs x u s st sk _ Hc Hu D1 D2).
      replace (c_cap c <? _) with false by (symmetry; apply Z.ltb_ge; lia).
      cbn [obind fst snd x_stack x_skip].
      apply IH; [exact Hr|cbn [length]; lia|cbn [set_nl r_nl]; lia]. }
  apply G; [exact Hds|cbn [length]; lia|cbn; lia].
Qed.

(** *** Where it goes wrong *)

Lemma inert_lines c cs st more : forall ls nl, Forall inert ls ->
  do_clines c cs (ls ++ more) (mkCst (state nl ENo) st true)
  = do_clines c cs more (mkCst (state (nl + length ls) ENo) st true).
Proof.
  induction ls as [|l ls IH]; intros nl H.
  - cbn [length app]. rewrite Nat.add_0_r. reflexivity.
  - inversion H as [|? ? Hi Hr]; subst. cbn [app do_clines length].
    rewrite do_cline_inert by exact Hi. cbn [obind fst snd x_stack x_skip].
    change (set_nl (S (r_nl (state nl ENo))) (state nl ENo)) with (state (S nl) ENo).
    rewrite IH by exact Hr. replace (nl + S (length ls))%nat with (S nl + length ls)%nat by lia. reflexivity.
Qed.

Definition text_line (t : list Z) : list Z := repeat 32 7 ++ t.
(** "$IF X DEFINED", "$END" from column 7 *)
Definition d_if : list Z := repeat 32 6 ++ [36; 73; 70; 32; 88; 32; 68; 69; 70; 73; 78; 69; 68].
Definition d_end : list Z := repeat 32 6 ++ [36; 69; 78; 68].

(** The lines that are left out and the directives are not counted: text
    after them is reported with a wrong line number. Here the line C, line
    n + 4 of the source, is compiled as line 2 for every n. *)
Theorem C73_line_numbers_refuted : forall cap ls, Forall inert ls -> Forall keyed ls ->
  Z.of_nat (length ls) + 100 <= cap ->
  compiled_text (mkCfg 8 72 false false cap) []
    (unlines (text_line [65] :: d_if :: ls ++ [d_end; text_line [67]]))
  = Ok (Some [65; 10; 67; 10]).
Proof.
  intros cap ls Hi Hk Hcap. unfold compiled_text. cbn [c_tab].
  assert (KK : forall l, (forallb (fun c => negb (existsb (Z.eqb c) [9; 10; 13])) l && (length l <=? 255)%nat) = true -> keyed l).
  { intros l H. apply andb_true_iff in H. destruct H as [H1 H2]. apply Nat.leb_le in H2.
    rewrite forallb_forall in H1.
    split; [|split; [|split; [|exact H2]]]; intro K; specialize (H1 _ K); discriminate H1. }
  rewrite read_keyed; [|lia|].
  2:{ constructor; [apply KK; reflexivity|]. constructor; [apply KK; reflexivity|].
      apply Forall_app. split; [exact Hk|].
      constructor; [apply KK; reflexivity|]. constructor; [apply KK; reflexivity|]. constructor. }
  set (c := mkCfg 8 72 false false cap).
  assert (CAP : forall z, z <= 100 -> (cap <? z) = false) by (intros z Hz; apply Z.ltb_ge; lia).
  assert (A1 : do_cline c [] (text_line [65]) cst0
    = Ok (LOut [65] (state 1 ENo), cst0)).
  { unfold do_cline, text_line. cbn [existsb repeat app]. change (Z.eqb 0 32) with false. change (Z.eqb 0 65) with false.
    cbn [orb].
    change (cut_inline _) with [32;32;32;32;32;32;32;65]. change (is_directive _) with false. cbv zeta iota.
    unfold pass. cbn [cst0 x_skip x_r]. unfold rest_line, c. cbn [c_mfc andb].
    change (nth 6 [32;32;32;32;32;32;32;65] 0) with 32. cbn [length Nat.ltb Nat.leb].
    change (32 =? 32) with true. cbv zeta iota. unfold line_text.
    change (c_col (mkCfg 8 72 false false cap)) with 72%nat. cbn [c_cap rst0 r_cont r_nl r_q r_cq].
    change (skip_sp (skipn 7 (firstn 72 [32;32;32;32;32;32;32;65]))) with [65].
    change (skipn 7 (firstn 72 [32;32;32;32;32;32;32;65])) with [65].
    change (firstn 72 [32;32;32;32;32;32;32;65]) with [32;32;32;32;32;32;32;65].
    cbv zeta iota. change (scan 72 _ [65] 0 false) with (0, false). cbn [fst snd].
    change (finish _ [65] 0) with [65]. rewrite CAP by (cbn; lia). reflexivity. }
  assert (D1 : forall nl, (nl <= 1)%nat -> do_cline c [] d_if (mkCst (state nl ENo) [] false)
    = Ok (LSkip (state 1 ENo), mkCst (state 1 ENo) [SF] true)).
  { intros nl Hn. unfold do_cline. change (existsb (Z.eqb 0) d_if) with false. change (cut_inline d_if) with d_if.
    change (is_directive d_if) with true. cbv zeta iota. unfold do_dir. cbn [x_r x_stack x_skip].
    change (nth 6 d_if 0 =? 36) with true. cbv zeta iota. unfold c. cbn [c_cap c_col state r_nl].
    rewrite CAP by lia.
    change (words_from [] (skipn 6 (firstn 72 d_if))) with [[36; 73; 70]; [88]; [68; 69; 70; 73; 78; 69; 68]].
    reflexivity. }
  assert (D2 : forall nl, Z.of_nat nl + 20 <= cap -> do_cline c [] d_end (mkCst (state nl ENo) [SF] true)
    = Ok (LSkip (state 1 ENo), mkCst (state 1 ENo) [] false)).
  { intros nl Hn. unfold do_cline. change (existsb (Z.eqb 0) d_end) with false. change (cut_inline d_end) with d_end.
    change (is_directive d_end) with true. cbv zeta iota. unfold do_dir. cbn [x_r x_stack x_skip].
    change (nth 6 d_end 0 =? 36) with true. cbv zeta iota. unfold c. cbn [c_cap c_col state r_nl].
    replace (cap <? _) with false by (symmetry; apply Z.ltb_ge; lia).
    change (words_from [] (skipn 6 (firstn 72 d_end))) with [[36; 69; 78; 68]]. reflexivity. }
  assert (A2 : do_cline c [] (text_line [67]) (mkCst (state 1 ENo) [] false)
    = Ok (LOut [10; 67] (state 1 ENo), mkCst (state 1 ENo) [] false)).
  { unfold do_cline, text_line. cbn [existsb repeat app]. change (Z.eqb 0 32) with false. change (Z.eqb 0 67) with false.
    cbn [orb].
    change (cut_inline _) with [32;32;32;32;32;32;32;67]. change (is_directive _) with false. cbv zeta iota.
    unfold pass. cbn [x_skip x_r]. unfold rest_line, c. cbn [c_mfc andb].
    change (nth 6 [32;32;32;32;32;32;32;67] 0) with 32. cbn [length Nat.ltb Nat.leb].
    change (32 =? 32) with true. cbv zeta iota. unfold line_text.
    change (c_col (mkCfg 8 72 false false cap)) with 72%nat. cbn [c_cap state r_cont r_nl r_q r_cq eq_ ecq].
    change (skip_sp (skipn 7 (firstn 72 [32;32;32;32;32;32;32;67]))) with [67].
    change (skipn 7 (firstn 72 [32;32;32;32;32;32;32;67])) with [67].
    change (firstn 72 [32;32;32;32;32;32;32;67]) with [32;32;32;32;32;32;32;67].
    cbv zeta iota. change (scan 72 _ [67] 0 false) with (0, false). cbn [fst snd].
    change (finish _ [67] 0) with [67]. rewrite CAP by (cbn; lia). reflexivity. }
  cbn [do_clines const_list]. rewrite A1. cbn [obind fst snd cst0 x_stack x_skip].
  rewrite (D1 1%nat (le_n _)). cbn [obind fst snd x_stack x_skip].
  rewrite inert_lines by exact Hi. cbn [do_clines].
  rewrite D2 by lia. cbn [obind fst snd x_stack x_skip]. rewrite A2. cbn [obind fst snd x_stack x_skip x_r].
  unfold c. cbn [c_cap state r_nl]. rewrite CAP by (cbn; lia). reflexivity.
Qed.

(** A missing $END is no error: the rest of the source is left out in silence. *)
Theorem C73_missing_end_refuted :
  compiled_text (mkCfg 8 72 false false 16384) []
    (unlines [text_line [65]; d_if; text_line [66]; text_line [67]]) = Ok (Some [65; 10; 10; 10]).
Proof. vm_compute. reflexivity. Qed.

(** A wrong directive among the lines that are left out is an error. *)
Theorem C73_left_out_error_refuted :
  compiled_text (mkCfg 8 72 false false 16384) []
    (unlines [d_if; repeat 32 6 ++ [36; 88]; d_end]) = Ok None.
Proof. vm_compute. reflexivity. Qed.

(** A debugging line >>D B that is switched off is an error after text and six
    comment lines, but not after five. *)
Theorem C73_debug_line_refuted :
  let comment := repeat 32 6 ++ [42] in
  let source n := unlines (text_line [65] :: repeat comment n ++ [text_line [62; 62; 68; 32; 66]]) in
  compiled_text (mkCfg 8 72 false false 16384) [] (source 6%nat) = Ok None /\
  exists o, compiled_text (mkCfg 8 72 false false 16384) [] (source 5%nat) = Ok (Some o).
Proof. vm_compute. split; [reflexivity|]. eexists. reflexivity. Qed.

(** A literal with a blank is not read as one literal: $IF X = "A B" is an
    error if X has a text. *)
Theorem C73_blank_in_literal_refuted :
  compiled_text (mkCfg 8 72 false false 16384) [[88; 34; 65; 32; 66; 34]]
    (unlines [repeat 32 6 ++ [36; 73; 70; 32; 88; 32; 61; 32; 34; 65; 32; 66; 34]; d_end]) = Ok None.
Proof. vm_compute. reflexivity. Qed.

(** *** The hypotheses are met *)

(** --constant X"v";  A / $IF X = "V" / B / $else / C / $END / D *)
Definition ex_cs : list (list Z * option (list Z)) := [([88], Some [118])].
Definition ex_d : list Z := repeat 32 6 ++ [36; 73; 70; 32; 88; 32; 61; 32; 34; 86; 34].
Definition ex_m : list Z := repeat 32 6 ++ [36; 101; 108; 115; 101].
Definition ex_b : block :=
  BLine (text_line [65]) (BIfElse ex_d (BLine (text_line [66]) BNil) ex_m
    (BLine (text_line [67]) BNil) d_end (BLine (text_line [68]) BNil)).
Lemma inline_dec l : find_inline 0 l = None -> ~ has_inline l.
Proof.
  intros E (x & y & ->). revert E.
  assert (G : forall i, find_inline i (x ++ 42 :: 62 :: y) <> None).
  { induction x as [|a x IH]; intro i; [discriminate|].
    cbn [app find_inline]. specialize (IH (S i)).
    repeat match goal with |- context [match ?v with _ => _ end] => is_var v; destruct v end;
      try exact IH; try discriminate.
    all: destruct (x ++ 42 :: 62 :: y) as [|b w] eqn:E; try exact IH.
    all: repeat match goal with |- context [match ?v with _ => _ end] => is_var v; destruct v end;
      try exact IH; try discriminate. }
  apply G.
Qed.
Lemma directive_dec l : is_directive l = false -> ~ directive l.
Proof.
  intros E [L D]. unfold is_directive in E.
  replace (7 <=? length l)%nat with true in E by (symmetry; apply Nat.leb_le, L).
  rewrite (nth_default l 6 0 32) in E by lia. fold (indicator l) in E. rewrite skip_sp_drop in E.
  destruct D as [D|[D [r D2]]]; rewrite D in E; [|rewrite D2 in E]; discriminate.
Qed.
Lemma ex_plain x : In x [65; 66; 67; 68] -> plain (text_line [x]).
Proof.
  intro H. cbn [In] in H.
  assert (G : forall l, existsb (Z.eqb 0) l = false -> existsb (Z.eqb 10) l = false ->
    find_inline 0 l = None -> is_directive l = false -> indicator l <> 45 -> plain l).
  { intros l A B C D E. split; [apply existsb_in, A|]. split; [apply existsb_in, B|].
    split; [apply inline_dec, C|]. split; [apply directive_dec, D|]. intros (_ & K & _). contradiction. }
  destruct H as [<-|[<-|[<-|[<-|[]]]]]; apply G; try reflexivity; discriminate.
Qed.
Lemma says_dec l ws : existsb (Z.eqb 0) l = false -> find_inline 0 l = None ->
  (7 <=? length l)%nat = true -> indicator l = 36 -> split (skipn 6 (firstn 72 l)) ws -> says l ws.
Proof.
  intros A B C D E. split; [apply existsb_in, A|]. split; [apply inline_dec, B|].
  split; [apply Nat.leb_le, C|]. split; assumption.
Qed.
Lemma same_word a b : same a b = true -> word_eq a b.
Proof. apply same_iff. Qed.
Example ex_selected : selected ex_cs true ex_b [text_line [65]; text_line [66]; text_line [68]].
Proof.
  assert (W : forall w, forallb (Z.ltb 32) w = true -> Forall (fun c => 32 < c) w).
  { intros w H. rewrite forallb_forall in H. apply Forall_forall. intros x Hx. apply Z.ltb_lt, H, Hx. }
  unfold ex_b. apply sel_line; [apply ex_plain; cbn; auto|].
  apply (sel_else ex_cs true ex_d _ ex_m _ d_end _ [[36; 73; 70]; [88]; [61]; [34; 86; 34]]
     (exists t, Some (Some [118]) = Some (Some t) /\ word_eq [86] t) true
     [36; 69; 78; 68] [36; 101; 108; 115; 101] [text_line [66]] [] [text_line [68]]).
  - apply says_dec; try reflexivity.
    apply (split_cons 0 [36; 73; 70]); [discriminate|apply W; reflexivity|].
    apply (split_cons 0 [88]); [discriminate|apply W; reflexivity|].
    apply (split_cons 0 [61]); [discriminate|apply W; reflexivity|].
    apply (split_last 0 [34; 86; 34]); [discriminate|apply W; reflexivity].
  - apply (c_plain ex_cs [36; 73; 70] [88] (Some (Some [118]))); [apply same_word; reflexivity| |].
    + apply lc_here. apply same_word. reflexivity.
    + apply (t_equal _ [86]); [discriminate|]. cbn. intuition discriminate.
  - exists [118]. split; [reflexivity|]. apply same_word. reflexivity.
  - apply says_dec; try reflexivity. apply (split_last 0); [discriminate|apply W; reflexivity].
  - apply same_word. reflexivity.
  - apply says_dec; try reflexivity. apply (split_last 0); [discriminate|apply W; reflexivity].
  - apply same_word. reflexivity.
  - apply sel_line; [apply ex_plain; cbn; auto|]. apply sel_nil.
  - apply sel_skip; [|apply sel_nil]. split; [apply existsb_in; reflexivity|apply directive_dec; reflexivity].
  - apply sel_line; [apply ex_plain; cbn; auto|]. apply sel_nil.
Qed.
Example ex_option : Forall2 option_for [[88; 34; 118; 34]] ex_cs.
Proof.
  constructor; [|constructor].
  apply (of_text [88] [118]); try discriminate; cbn; intuition discriminate.
Qed.
Example ex_compiled :
  compiled_text (mkCfg 8 72 false false 16384) [[88; 34; 118; 34]] (unlines (source ex_b))
  = Ok (Some [65; 10; 66; 10; 68; 10]).
Proof. vm_compute. reflexivity. Qed.
Example ex_deep :
  compiled_text (mkCfg 8 72 false false 16384) [] (unlines (repeat d_if 10 ++ repeat d_end 10)) = Ok (Some [10]) /\
  compiled_text (mkCfg 8 72 false false 16384) [] (unlines (repeat d_if 11 ++ repeat d_end 11)) = Ok None.
Proof. split; vm_compute; reflexivity. Qed.

Print Assumptions C73_conditional_compilation.
Print Assumptions C73_unbalanced.
Print Assumptions C73_too_deep.
Print Assumptions C73_line_numbers_refuted.
Print Assumptions C73_missing_end_refuted.
Print Assumptions C73_left_out_error_refuted.
Print Assumptions C73_debug_line_refuted.
Print Assumptions C73_blank_in_literal_refuted.
