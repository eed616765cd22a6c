(** C72: fixed format source.  The lines of the file become the program text:
    comment lines, margins and trailing blanks are left out, continuation
    lines are joined, and every line of text stays on its line number. *)
From Verif Require Import Base FixedSrc SpecFixedSrc FixedSrcThm FixedSrcThm2.
From Coq Require Import Lia.
Local Open Scope Z_scope.

(** For every file of lines that end with LF or CR LF, with tabs, at most 255
    columns each: the text that the compiler's scanner reads is the program. *)
Theorem C72_fixed_source_text : forall c (rs : list (list Z * list Z)),
  c_col c = 72%nat -> (0 < c_tab c)%nat ->
  Forall (fun x => ~ In 10 (fst x) /\ ~ In 13 (fst x) /\
                   (length (expand (c_tab c) 0 (fst x)) <= 255)%nat) rs ->
  Forall (fun x => snd x = [10] \/ snd x = [13; 10]) rs ->
  Forall (fun x => plain (expand (c_tab c) 0 (fst x))) rs ->
  Z.of_nat (length rs) + 75 <= c_cap c ->
  source_text c (concat (map (fun x => fst x ++ snd x) rs))
  = Ok (option_map program_text
         (program ENo (map (fun x => kind_of (c_debug c) (c_mfc c) (expand (c_tab c) 0 (fst x))) rs))).
Proof.
  intros c rs Hc Ht Hr He Hp Hcap. apply source_spec; auto.
  rewrite Forall_forall in *. intros x Hx. split; [apply Hr, Hx|apply He, Hx].
Qed.

(** Text on source line n is on line n of what the scanner reads: there are as
    many lines, and no text contains a line feed of its own. *)
Theorem C72_fixed_line_numbers : forall c ls out,
  c_col c = 72%nat -> (0 < c_tab c)%nat -> Forall typed ls ->
  Z.of_nat (length ls) + 75 <= c_cap c ->
  source_text c (unlines ls) = Ok (Some out) ->
  exists tl sl,
    program ENo (map (kind_of (c_debug c) (c_mfc c)) ls) = Some (tl, sl) /\
    out = tl ++ unlines sl /\ length sl = length ls /\
    ~ In 10 tl /\ Forall (fun l => ~ In 10 l) sl.
Proof.
  intros c ls out Hc Ht H Hcap E. rewrite source_typed in E by assumption.
  destruct (program ENo _) as [[tl sl]|] eqn:P; cbn [option_map] in E; [|discriminate].
  inversion E; subst out. exists tl, sl. split; [reflexivity|]. split; [reflexivity|].
  assert (L := program_length _ _ _ _ P). rewrite map_length in L. split; [exact L|].
  apply (program_no10 _) in P; [exact P|].
  apply Forall_map. eapply Forall_impl; [|exact H]. intros l (_ & _ & _ & D).
  apply kind_of_no10. apply D.
Qed.

(** Columns 1 to 6 and the columns after 72 do not matter. *)
Theorem C72_fixed_margins : forall c ls ls',
  c_col c = 72%nat -> (0 < c_tab c)%nat -> c_mfc c = false ->
  Forall typed ls -> Forall typed ls' -> Z.of_nat (length ls) + 75 <= c_cap c ->
  Forall2 (fun l l' => (7 <= length l)%nat /\ (7 <= length l')%nat /\
                       firstn 66 (skipn 6 l) = firstn 66 (skipn 6 l')) ls ls' ->
  source_text c (unlines ls) = source_text c (unlines ls').
Proof.
  intros c ls ls' Hc Ht Hm H H' Hcap F.
  assert (L : length ls = length ls') by (clear - F; induction F; cbn [length]; congruence).
  rewrite !source_typed by (auto; rewrite <- ?L; auto). rewrite Hm.
  assert (E : map (kind_of (c_debug c) false) ls = map (kind_of (c_debug c) false) ls').
  { clear - F. induction F as [|l l' ls ls' (A & B & E) _ IH]; [reflexivity|].
    cbn [map]. f_equal; [|exact IH].
    rewrite <- (firstn_skipn 6 l), <- (firstn_skipn 6 l').
    apply kind_margins; auto; rewrite ?firstn_length, ?skipn_length; lia. }
  rewrite E. reflexivity.
Qed.

(** A literal that is continued over any number of lines is the pieces, each
    up to column 72, joined; the lines it took remain as empty lines. *)
Theorem C72_literal_continuation : forall c q pre p0 mids k pn post z s0 sm sl,
  c_col c = 72%nat -> (0 < c_tab c)%nat -> c_mfc c = false ->
  q = 39 \/ q = 34 ->
  Forall (fun x => x <> 39 /\ x <> 34) pre ->
  Forall (fun x => x <> 39 /\ x <> 34) (post ++ [z]) -> z <> 32 ->
  ~ In q p0 -> Forall (fun m : nat * list Z => ~ In q (snd m)) mids -> ~ In q pn ->
  length s0 = 6%nat -> length sm = 6%nat -> length sl = 6%nat ->
  let first := s0 ++ 32 :: pre ++ q :: p0 in
  let mid (m : nat * list Z) := sm ++ 45 :: repeat 32 (fst m) ++ q :: snd m in
  let last := sl ++ 45 :: repeat 32 k ++ q :: pn ++ q :: post ++ [z] in
  let lines := first :: map mid mids ++ [last] in
  let to72 (l p : list Z) := p ++ repeat 32 (72 - length l) in
  Forall (fun l => (length l <= 72)%nat) lines -> Forall typed lines ->
  Z.of_nat (length lines) + 75 <= c_cap c ->
  source_text c (unlines lines)
  = Ok (Some (pre ++ q :: to72 first p0
              ++ concat (map (fun m => to72 (mid m) (snd m)) mids)
              ++ pn ++ q :: post ++ z :: repeat 10 (length lines))).
Proof.
  intros c q pre p0 mids k pn post z s0 sm sl Hc Ht Hm Hq Hpre Hpost Hz H0 Hmids Hpn L0 Lm Ll
    first mid last lines to72 Hlen Hty Hcap.
  assert (Q : is_quote q = true) by (destruct Hq as [-> | ->]; reflexivity).
  assert (NQ : forall l, Forall (fun x => x <> 39 /\ x <> 34) l -> forall x, In x l -> is_quote x = false).
  { intros l Hl x Hx. rewrite Forall_forall in Hl. destruct (Hl x Hx) as [A B].
    unfold is_quote. apply orb_false_iff. split; apply Z.eqb_neq; assumption. }
  rewrite source_typed by assumption. rewrite Hm.
  inversion Hlen as [|? ? Hf Hrest]; subst.
  apply Forall_app in Hrest. destruct Hrest as [Hmid Hlast].
  inversion Hlast as [|? ? Hl _]; subst. apply Forall_map in Hmid. clear Hlast.
  assert (NE : forall j t, drop_blanks (repeat 32 j ++ q :: t) = q :: t)
    by (intros; apply drop_blanks_repeat, quote_not_blank, Q).
  assert (K1 : kind_of (c_debug c) false first = KText (pre ++ q :: p0)).
  { unfold first in *. rewrite app_length in Hf. cbn [length] in Hf.
    destruct (kind_area (c_debug c) 32 s0 (pre ++ q :: p0) L0 ltac:(lia)) as (_ & _ & _ & K & _).
    rewrite K. destruct (drop_blanks (pre ++ q :: p0)) eqn:D; [|reflexivity]. exfalso.
    assert (G : forall l, drop_blanks l = [] -> forall x, In x l -> x = 32).
    { clear. induction l as [|a l IH]; intros D x Hx; [destruct Hx|].
      cbn [drop_blanks] in D. destruct (Z.eqb_spec a 32); [|discriminate].
      destruct Hx as [<-|Hx]; [assumption|auto]. }
    apply (quote_not_blank q Q). apply (G _ D). apply in_or_app. right. left. reflexivity. }
  assert (K2 : kind_of (c_debug c) false last = KCont (repeat 32 k ++ q :: pn ++ q :: post ++ [z])).
  { unfold last in *. rewrite app_length in Hl. cbn [length] in Hl.
    destruct (kind_area (c_debug c) 45 sl (repeat 32 k ++ q :: pn ++ q :: post ++ [z]) Ll ltac:(lia))
      as (_ & _ & _ & _ & K).
    rewrite K, NE. reflexivity. }
  assert (K3 : map (kind_of (c_debug c) false) (map mid mids)
               = map (fun m => KCont (cont_piece q (fst m) (snd m))) mids).
  { rewrite map_map. apply map_ext_in. intros m Hin. rewrite Forall_forall in Hmid.
    specialize (Hmid m Hin). unfold mid in *. rewrite app_length in Hmid. cbn [length] in Hmid.
    destruct (kind_area (c_debug c) 45 sm (repeat 32 (fst m) ++ q :: snd m) Lm ltac:(lia))
      as (_ & _ & _ & _ & K).
    rewrite K, NE. reflexivity. }
  unfold lines. cbn [map]. rewrite map_app. cbn [map]. rewrite K1, K2, K3.
  rewrite (program_literal q pre p0 post z k pn mids Q (NQ _ Hpre) H0 Hz (NQ _ Hpost) Hpn Hmids).
  cbn [option_map]. unfold program_text. cbn [fst snd app].
  assert (M1 : filled (pre ++ q :: p0) p0 = to72 first p0).
  { unfold filled, missing, to72, first. f_equal. f_equal. rewrite (app_length s0). cbn [length]. lia. }
  assert (M2 : map (fun m => filled (cont_piece q (fst m) (snd m)) (snd m)) mids
               = map (fun m => to72 (mid m) (snd m)) mids).
  { apply map_ext. intro m. unfold filled, missing, to72, mid, cont_piece. f_equal. f_equal.
    rewrite (app_length sm). cbn [length]. lia. }
  rewrite M1, M2.
  assert (U : forall n, unlines (repeat [] n) = repeat 10 n).
  { intro n. induction n as [|n IH]; [reflexivity|]. cbn [repeat]. rewrite <- IH. reflexivity. }
  f_equal. f_equal.
  match goal with |- unlines (?a :: ?b) = _ => change (unlines (a :: b)) with ((a ++ [10]) ++ unlines b) end.
  rewrite U.
  replace (length (first :: map mid mids ++ [last])) with (S (S (length mids)))
    by (cbn [length]; rewrite app_length, map_length; cbn [length]; lia).
  cbn [repeat]. rewrite <- !app_assoc. cbn [app]. rewrite <- !app_assoc. cbn [app].
  rewrite <- ?app_assoc. cbn [app]. rewrite <- ?app_assoc. reflexivity.
Qed.

(** Outside literals the blanks at the end of the line and before the
    continuation are left out. *)
Theorem C72_word_continuation : forall c s0 s1 t k u z,
  c_col c = 72%nat -> (0 < c_tab c)%nat -> c_mfc c = false ->
  length s0 = 6%nat -> length s1 = 6%nat ->
  Forall (fun x => x <> 39 /\ x <> 34) t -> (exists x, In x t /\ x <> 32) ->
  Forall (fun x => x <> 39 /\ x <> 34) (u ++ [z]) -> hd z u <> 32 -> z <> 32 ->
  let lines := [s0 ++ 32 :: t; s1 ++ 45 :: repeat 32 k ++ u ++ [z]] in
  Forall (fun l => (length l <= 72)%nat) lines -> Forall typed lines -> 77 <= c_cap c ->
  source_text c (unlines lines) = Ok (Some (trim_end t ++ u ++ [z; 10; 10])).
Proof.
  intros c s0 s1 t k u z Hc Ht Hm L0 L1 Hq (x & Hx & Nx) Hu Hh Hz lines Hlen Hty Hcap.
  assert (NQ : forall l, Forall (fun x => x <> 39 /\ x <> 34) l -> forall x, In x l -> is_quote x = false).
  { intros l Hl y Hy. rewrite Forall_forall in Hl. destruct (Hl y Hy) as [A B].
    unfold is_quote. apply orb_false_iff. split; apply Z.eqb_neq; assumption. }
  rewrite source_typed by (auto; exact Hcap). rewrite Hm. unfold lines in *. cbn [map].
  inversion Hlen as [|? ? Ha Hr]; subst. inversion Hr as [|? ? Hb _]; subst.
  rewrite app_length in Ha, Hb. cbn [length] in Ha, Hb.
  destruct (kind_area (c_debug c) 32 s0 t L0 ltac:(lia)) as (_ & _ & _ & K1 & _).
  destruct (kind_area (c_debug c) 45 s1 (repeat 32 k ++ u ++ [z]) L1 ltac:(lia)) as (_ & _ & _ & _ & K2).
  rewrite K1, K2.
  assert (D1 : drop_blanks t <> []).
  { assert (G : forall l, drop_blanks l = [] -> forall x, In x l -> x = 32).
    { clear. induction l as [|a l IH]; intros D x Hx; [destruct Hx|].
      cbn [drop_blanks] in D. destruct (Z.eqb_spec a 32); [|discriminate].
      destruct Hx as [<-|Hx]; [assumption|auto]. }
    intro D. apply Nx. exact (G _ D x Hx). }
  assert (D2 : drop_blanks (repeat 32 k ++ u ++ [z]) = u ++ [z]).
  { destruct u as [|a v]; cbn [hd app] in *; apply drop_blanks_repeat; assumption. }
  rewrite D2. destruct (drop_blanks t) eqn:D; [congruence|].
  destruct (u ++ [z]) eqn:E; [destruct u; discriminate|]. rewrite <- E in *. clear E.
  rewrite (program_word t k u z (NQ _ Hq) Hh Hz (NQ _ Hu)). cbn [option_map]. unfold program_text, unlines. cbn [fst snd map concat app].
  rewrite <- !app_assoc. reflexivity.
Qed.

(** A comment that begins with *> in column 8 or later and contains no
    quotation mark changes nothing. *)
Theorem C72_inline_comments : forall c ls ls', (0 < c_tab c)%nat ->
  Forall2 (fun l l' => l' = l \/
     ((7 <= length l)%nat /\ ~ has_inline l /\
      exists b, ~ In 34 b /\ ~ In 0 b /\ l' = l ++ 42 :: 62 :: b)) ls ls' ->
  Forall (fun l => ~ In 9 l /\ ~ In 10 l /\ ~ In 13 l /\ (length l <= 255)%nat) ls ->
  Forall (fun l => ~ In 9 l /\ ~ In 10 l /\ ~ In 13 l /\ (length l <= 255)%nat) ls' ->
  source_text c (unlines ls') = source_text c (unlines ls).
Proof.
  intros c ls ls' Ht F H H'.
  assert (R : forall ls, Forall (fun l => ~ In 9 l /\ ~ In 10 l /\ ~ In 13 l /\ (length l <= 255)%nat) ls ->
     rd_lines (length (unlines ls)) (c_tab c) (unlines ls) = ls).
  { clear - Ht. intros ls H.
    assert (E : unlines ls = file_of (map (fun l => (l, [10])) ls))
      by (unfold unlines, file_of; rewrite map_map; reflexivity).
    rewrite E. unfold file_of. rewrite rd_lines_spec; [|exact Ht| |].
    - rewrite map_map. cbn [fst]. rewrite <- (map_id ls) at 2. apply map_ext_in. intros l Hl.
      rewrite Forall_forall in H. destruct (H l Hl) as (A & _). apply expand_id, A.
    - apply Forall_map. eapply Forall_impl; [|exact H]. intros l (A & B & C & D). cbn [fst snd].
      split; [|left; reflexivity]. unfold raw_ok. rewrite expand_id by exact A. auto.
    - apply file_len. apply Forall_map. apply Forall_forall. intros; left; reflexivity. }
  unfold source_text. rewrite !R by assumption. apply do_lines_commented. exact F.
Qed.

(** *** Where the reader does not keep its word *)

(** A blank continuation line makes the next line its continuation: the words
    A and B of two lines become the word AB. *)
Definition line (t : list Z) : list Z := repeat 32 7 ++ t.
Theorem C72_blank_continuation_refuted :
  source_text (mkCfg 8 72 false false 16384) (unlines [line [65]; repeat 32 6 ++ [45]; line [66]])
  = Ok (Some [65; 66; 10; 10; 10]) /\
  ~ (forall c ls, c_col c = 72%nat -> (0 < c_tab c)%nat -> Z.of_nat (length ls) + 75 <= c_cap c ->
     Forall (fun l => ~ In 9 l /\ ~ In 13 l /\ (length l <= 255)%nat /\
                      ~ In 0 l /\ ~ In 10 l /\ ~ has_inline l /\ ~ directive l) ls ->
     source_text c (unlines ls)
     = Ok (option_map program_text (program ENo (map (kind_of (c_debug c) (c_mfc c)) ls)))).
Proof.
  split; [vm_compute; reflexivity|]. intro H.
  specialize (H (mkCfg 8 72 false false 16384) [line [65]; repeat 32 6 ++ [45]; line [66]]
    eq_refl ltac:(cbn; lia) ltac:(vm_compute; discriminate)).
  assert (A : Forall (fun l => ~ In 9 l /\ ~ In 13 l /\ (length l <= 255)%nat /\
                      ~ In 0 l /\ ~ In 10 l /\ ~ has_inline l /\ ~ directive l)
     [line [65]; repeat 32 6 ++ [45]; line [66]]).
  { assert (NI : forall l, find_inline 0 l = None -> ~ has_inline l).
    { intros l E (x & y & ->). revert E.
      assert (G : forall i, find_inline i (x ++ 42 :: 62 :: y) <> None).
      { induction x as [|a x IH]; intro i; [discriminate|].
        cbn [app find_inline]. specialize (IH (S i)).
        repeat match goal with |- context [match ?v with _ => _ end] => is_var v; destruct v end;
          try exact IH; try discriminate.
        all: destruct (x ++ 42 :: 62 :: y) as [|b w] eqn:E; try exact IH.
        all: repeat match goal with |- context [match ?v with _ => _ end] => is_var v; destruct v end;
          try exact IH; try discriminate. }
      apply G. }
    assert (ND : forall l, is_directive l = false -> ~ directive l).
    { intros l E [L D]. unfold is_directive in E.
      replace (7 <=? length l)%nat with true in E by (symmetry; apply Nat.leb_le, L).
      rewrite (nth_default l 6 0 32) in E by lia. fold (indicator l) in E. rewrite skip_sp_drop in E.
      destruct D as [D|[D [r D2]]]; rewrite D in E; [|rewrite D2 in E]; discriminate. }
    repeat constructor; try (apply NI; reflexivity); try (apply ND; reflexivity);
      cbn; try lia; intuition discriminate. }
  specialize (H A). vm_compute in H. discriminate.
Qed.

(** The rest of a comment line of more than 256 columns is read as a line of
    the program. *)
Theorem C72_long_comment_refuted :
  source_text (mkCfg 8 72 false false 16384)
    (unlines [repeat 32 6 ++ 42 :: repeat 45 249 ++ line [65]]) = Ok (Some [10; 65; 10]).
Proof. vm_compute. reflexivity. Qed.

(** The characters *> in a literal between apostrophes cut the line there and
    leave the literal open: DISPLAY '*>'. *)
Theorem C72_inline_in_literal_refuted :
  source_text (mkCfg 8 72 false false 16384)
    (unlines [line ([68; 73; 83; 80; 76; 65; 89; 32; 39; 42; 62; 39; 46])])
  = Ok (Some ([68; 73; 83; 80; 76; 65; 89; 32; 39] ++ repeat 32 56 ++ [10])).
Proof. vm_compute. reflexivity. Qed.

(** With another text column a continued literal is still filled up to column
    72, not to the end of the text. *)
Theorem C72_text_column_refuted :
  source_text (mkCfg 8 80 false false 16384)
    (unlines [line [39; 65]; repeat 32 6 ++ [45; 39; 66; 39; 46]])
  = Ok (Some ([39; 65] ++ repeat 32 63 ++ [66; 39; 46; 10; 10])).
Proof. vm_compute. reflexivity. Qed.

(** The newlines of skipped lines are collected in the scanner's buffer of
    fixed size: enough comment lines overrun it. *)
Definition comment_line : list Z := [32; 32; 32; 32; 32; 32; 42].
Lemma comments_ub c s : forall n,
  do_lines c (repeat comment_line n) s
  = (if c_cap c <? Z.of_nat (r_nl s + n) + 1 then UB else Ok (Some (repeat 10 (r_nl s + n)))).
Proof.
  intro n. revert s. induction n as [|n IH]; intro s.
  - cbn [repeat do_lines]. rewrite Nat.add_0_r. reflexivity.
  - cbn [repeat do_lines].
    assert (E : do_line c comment_line s = Ok (skip s))
      by (unfold do_line, comment_line; destruct (c_mfc c); reflexivity).
    rewrite E. cbn [obind skip].
    rewrite IH. cbn [r_nl]. replace (S (r_nl s) + n)%nat with (r_nl s + S n)%nat by lia. reflexivity.
Qed.
Theorem C72_many_comments_refuted : forall c, (0 < c_tab c)%nat ->
  exists ls, Forall (fun l => l = comment_line) ls /\ source_text c (unlines ls) = UB.
Proof.
  intros c Ht. set (n := Z.to_nat (Z.max 0 (c_cap c))).
  exists (repeat comment_line n). split.
  - apply Forall_forall. intros x Hx. apply repeat_spec in Hx. exact Hx.
  - unfold source_text.
    set (ls := repeat comment_line n).
    assert (E : unlines ls = concat (map (fun x => fst x ++ snd x) (map (fun l => (l, [10])) ls))).
    { rewrite map_map. reflexivity. }
    rewrite E, rd_lines_spec; [|exact Ht| |].
    + rewrite map_map. cbn [fst].
      assert (M : map (fun x => expand (c_tab c) 0 x) ls = ls).
      { rewrite <- (map_id ls) at 2. apply map_ext_in. intros x Hx. apply repeat_spec in Hx. subst x.
        apply expand_id. cbn. intuition discriminate. }
      rewrite M. unfold ls. rewrite comments_ub. cbn [rst0 r_nl Nat.add].
      replace (c_cap c <? Z.of_nat n + 1) with true; [reflexivity|].
      symmetry. apply Z.ltb_lt. unfold n. lia.
    + apply Forall_map. apply Forall_forall. intros l Hl. apply repeat_spec in Hl. subst l.
      cbn [fst snd]. split; [|left; reflexivity]. unfold raw_ok.
      rewrite expand_id by (cbn; intuition discriminate).
      split; [|split]; cbn; try lia; intuition discriminate.
    + apply file_len. apply Forall_map. apply Forall_forall. intros; left; reflexivity.
Qed.

(** *** The hypotheses are met *)

(** 000100 MOVE 'AB    (to column 72)   / *comment / -    'CD' TO X. *)
Example ex_literal :
  source_text (mkCfg 8 72 false false 16384)
   (unlines [[48;48;48;49;48;48;32; 77;79;86;69;32;39;65;66];
             [32;32;32;32;32;32;42;99];
             [32;32;32;32;32;32;45;32;39;67;68;39;32;84;79;32;88;46];
             line [66;46]])
  = Ok (Some ([77;79;86;69;32;39;65;66] ++ repeat 32 57 ++ [67;68;39;32;84;79;32;88;46;10;10;10;66;46;10])).
Proof. vm_compute. reflexivity. Qed.
Example ex_program :
  program ENo (map (kind_of false false)
    [[48;48;48;49;48;48;32; 65; 66]; [32;32;32;32;32;32;42;99]; [32;32;32;32;32;32;45;32;67;46]])
  = Some ([], [[65; 66; 67; 46]; []; []]).
Proof. vm_compute. reflexivity. Qed.
(** A tab, CR LF. *)
Example ex_tab :
  source_text (mkCfg 8 72 false false 16384) [9; 65; 46; 13; 10] = Ok (Some [32; 65; 46; 10]) /\
  expand 8 0 [9; 65; 46] = repeat 32 8 ++ [65; 46].
Proof. split; vm_compute; reflexivity. Qed.
(** A delimiter doubled across the margin. *)
Example ex_edge :
  source_text (mkCfg 8 72 false false 16384)
    (unlines [line (39 :: repeat 65 63 ++ [39]); repeat 32 6 ++ [45; 32; 39; 39; 66; 39; 46]])
  = Ok (Some (39 :: repeat 65 63 ++ [39; 39; 66; 39; 46; 10; 10])).
Proof. vm_compute. reflexivity. Qed.

Print Assumptions C72_fixed_source_text.
Print Assumptions C72_fixed_line_numbers.
Print Assumptions C72_fixed_margins.
Print Assumptions C72_literal_continuation.
Print Assumptions C72_word_continuation.
Print Assumptions C72_inline_comments.
Print Assumptions C72_blank_continuation_refuted.
Print Assumptions C72_long_comment_refuted.
Print Assumptions C72_inline_in_literal_refuted.
Print Assumptions C72_text_column_refuted.
Print Assumptions C72_many_comments_refuted.
