(** Proofs about the reading of fixed format source. *)
From Verif Require Import Base FixedSrc SpecFixedSrc.
From Coq Require Import Lia.
Local Open Scope Z_scope.

Lemma skip_sp_drop l : skip_sp l = drop_blanks l.
Proof. induction l as [|c r IH]; [reflexivity|]. cbn [skip_sp drop_blanks]. rewrite IH. reflexivity. Qed.

Lemma drop_blanks_app_ne a b :
  drop_blanks a <> [] -> drop_blanks (a ++ b) = drop_blanks a ++ b.
Proof.
  induction a as [|c r IH]; intro H; [exfalso; apply H; reflexivity|].
  cbn [drop_blanks app] in *. destruct (c =? 32); [apply IH; exact H | reflexivity].
Qed.
Lemma drop_blanks_app_nil a b : drop_blanks a = [] -> drop_blanks (a ++ b) = drop_blanks b.
Proof.
  induction a as [|c r IH]; intro H; [reflexivity|].
  cbn [drop_blanks app] in *. destruct (c =? 32); [apply IH; exact H | discriminate].
Qed.

Lemma rtrim_trim l : rtrim_sp l = trim_end l.
Proof.
  unfold trim_end. induction l as [|c r IH]; [reflexivity|].
  cbn [rtrim_sp rev]. rewrite IH.
  destruct (drop_blanks (rev r)) as [|x y] eqn:E.
  - rewrite (drop_blanks_app_nil _ _ E). cbn [rev drop_blanks].
    destruct (c =? 32); reflexivity.
  - rewrite drop_blanks_app_ne by (rewrite E; discriminate). rewrite E.
    rewrite rev_app_distr. cbn [rev app].
    destruct (rev y ++ [x]) eqn:F; [destruct (rev y); discriminate|]. reflexivity.
Qed.

Lemma drop_blanks_suffix l : exists a, l = a ++ drop_blanks l.
Proof.
  induction l as [|c r [a IH]]; [exists []; reflexivity|].
  cbn [drop_blanks]. destruct (c =? 32); [|exists []; reflexivity].
  exists (c :: a). cbn [app]. f_equal. exact IH.
Qed.
Lemma drop_blanks_len l : (length (drop_blanks l) <= length l)%nat.
Proof.
  destruct (drop_blanks_suffix l) as [a H]. rewrite H at 2. rewrite app_length. lia.
Qed.
Lemma trim_end_len l : (length (trim_end l) <= length l)%nat.
Proof.
  unfold trim_end. rewrite rev_length. etransitivity; [apply drop_blanks_len|].
  rewrite rev_length. lia.
Qed.

(** *** The search for quotation marks *)

Definition qz (q : option Z) : Z := match q with None => 0 | Some d => d end.
Definition qok (q : option Z) : Prop := match q with None => True | Some d => is_quote d = true end.

Lemma is_quote_nz d : is_quote d = true -> (d =? 0) = false.
Proof.
  unfold is_quote. rewrite orb_true_iff, !Z.eqb_eq. intros [-> | ->]; reflexivity.
Qed.

Lemma toggle_ok q c : qok q -> qok (toggle q c).
Proof.
  destruct q as [d|]; cbn [toggle qok]; intro H.
  - destruct (c =? d); cbn [qok]; auto.
  - destruct (is_quote c) eqn:E; cbn [qok]; auto.
Qed.
Lemma open_after_ok t : forall q, qok q -> qok (open_after q t).
Proof.
  unfold open_after. induction t as [|c r IH]; intros q H; [exact H|].
  cbn [fold_left]. apply IH, toggle_ok, H.
Qed.

(** As long as the last column is not reached the search is [open_after]. *)
Lemma scan_short col t : forall i q, qok q ->
  (i + length t < col)%nat ->
  scan col i t (qz q) false = (qz (open_after q t), false).
Proof.
  induction t as [|c r IH]; intros i q Hq Hi; [reflexivity|].
  cbn [length] in Hi.
  assert (IH' : scan col (S i) r (qz (toggle q c)) false
                = (qz (open_after (toggle q c) r), false))
    by (apply IH; [apply toggle_ok, Hq | lia]).
  unfold open_after in *. cbn [fold_left]. rewrite <- IH'. clear IH IH'.
  cbn [scan]. fold (is_quote c).
  destruct q as [d|]; cbn [qz toggle qok] in *.
  - rewrite (is_quote_nz d Hq), Z.eqb_sym.
    destruct (c =? d) eqn:E.
    + apply Z.eqb_eq in E; subst d. rewrite Hq.
      replace (Nat.eqb i (col - 1)) with false by (symmetry; apply Nat.eqb_neq; lia).
      reflexivity.
    + destruct (is_quote c); reflexivity.
  - destruct (is_quote c); reflexivity.
Qed.

Lemma scan_app col a : forall b i q cq,
  scan col i (a ++ b) q cq =
  scan col (i + length a) b (fst (scan col i a q cq)) (snd (scan col i a q cq)).
Proof.
  induction a as [|c r IH]; intros b i q cq.
  - cbn [app length scan fst snd]. rewrite Nat.add_0_r. reflexivity.
  - cbn [app length scan]. rewrite <- Nat.add_succ_comm.
    destruct ((c =? 39) || (c =? 34)); [destruct (q =? 0); [|destruct (q =? c); [destruct (Nat.eqb i (col - 1))|]]|];
      apply IH.
Qed.

Definition eq_ (e : ending) : Z := match e with ENo => 0 | EIn d => d | EEdge d => d end.
Definition ecq (e : ending) : bool := match e with EEdge _ => true | _ => false end.

Lemma scan_ending col t i q f :
  (0 < col)%nat -> qok q -> (i + length t <= col)%nat ->
  f = Nat.eqb (i + length t) col ->
  scan col i t (qz q) false = (eq_ (ending_of f q t), ecq (ending_of f q t)).
Proof.
  intros Hc Hq Hl Hf.
  destruct t as [|x y] using rev_ind.
  - unfold ending_of, open_after. cbn [fold_left scan rev].
    destruct q as [d|]; reflexivity.
  - clear IHy. rewrite app_length in *. cbn [length] in *.
    rewrite scan_app, scan_short by (auto; lia). cbn [fst snd].
    unfold ending_of. rewrite rev_app_distr. cbn [rev app].
    unfold open_after at 2 3. rewrite fold_left_app. fold (open_after q y). cbn [fold_left].
    assert (Hq' := open_after_ok y q Hq).
    cbn [scan]. fold (is_quote x).
    destruct (open_after q y) as [d|]; cbn [qz toggle qok] in *.
    + rewrite (is_quote_nz d Hq'), Z.eqb_sym.
      destruct (x =? d) eqn:E.
      * apply Z.eqb_eq in E; subst d. rewrite Hq'. rewrite andb_true_r.
        subst f. replace (Nat.eqb (i + length y) (col - 1)) with (Nat.eqb (i + (length y + 1)) col).
        2:{ destruct (Nat.eqb_spec (i + (length y + 1)) col) as [A|A];
            destruct (Nat.eqb_spec (i + length y) (col - 1)) as [B|B]; try reflexivity; lia. }
        destruct (Nat.eqb (i + (length y + 1)) col); reflexivity.
      * destruct (is_quote x); reflexivity.
    + destruct (is_quote x) eqn:E; [reflexivity|]. rewrite andb_false_r. reflexivity.
Qed.

Lemma ending_quote f q t : qok q ->
  match ending_of f q t with ENo => True | EIn d => is_quote d = true
  | EEdge d => is_quote d = true /\ f = true end.
Proof.
  intro Hq. unfold ending_of. assert (H := open_after_ok t q Hq).
  destruct (open_after q t); [exact H|].
  destruct (rev t) as [|c r]; [exact I|].
  destruct f; cbn [andb]; [|exact I]. destruct (is_quote c) eqn:E; auto.
Qed.

(** *** What is put out for a line *)
Lemma finish_shown b t e pad :
  (match e with ENo => True | EIn d => is_quote d = true | EEdge d => is_quote d = true end) ->
  pad = (72 - (b + length t))%nat ->
  finish b t (eq_ e) = shown pad t e.
Proof.
  intros He Hp. unfold finish, shown, ends_quote.
  destruct e as [|d|d]; cbn [eq_].
  - change (0 =? 0) with true. cbv zeta. rewrite rtrim_trim.
    destruct (rev (trim_end t)) as [|c r]; [reflexivity|].
    unfold is_quote. destruct ((c =? 39) || (c =? 34)); reflexivity.
  - rewrite (is_quote_nz d He), Hp. reflexivity.
  - rewrite (is_quote_nz d He), Hp. reflexivity.
Qed.

(** *** Lines *)

Lemma find_inline_none l : ~ has_inline l -> forall i, find_inline i l = None.
Proof.
  intro H. assert (G : forall i j, find_inline i l = Some j -> has_inline l).
  { clear H. induction l as [|a r IH]; intros i j F; [discriminate|].
    assert (K : (exists b, a :: r = 42 :: 62 :: b) \/ find_inline (S i) r = Some j).
    { cbn [find_inline] in F.
      destruct r as [|b r']; [right; destruct a as [|p|p]; try exact F; destruct p as [p|p|]; try exact F;
        destruct p as [p|p|]; try exact F; destruct p as [p|p|]; try exact F; destruct p as [p|p|]; try exact F;
        destruct p as [p|p|]; try exact F; destruct p as [p|p|]; exact F|].
      destruct (Z.eq_dec a 42) as [->|Na]; [destruct (Z.eq_dec b 62) as [->|Nb]|].
      - left. exists r'. reflexivity.
      - right. revert F Nb. destruct b as [|p|p]; intros F Nb; try exact F.
        do 6 (try (destruct p as [p|p|]; try exact F)). exfalso; apply Nb; reflexivity.
      - right. revert F Na. destruct a as [|p|p]; intros F Na; try exact F.
        do 6 (try (destruct p as [p|p|]; try exact F)). exfalso; apply Na; reflexivity. }
    destruct K as [[b K]|K].
    - exists [], b. exact K.
    - destruct (IH _ _ K) as (x & y & E). exists (a :: x), y. rewrite E. reflexivity. }
  intro i. destruct (find_inline i l) eqn:E; [|reflexivity].
  exfalso. apply H. eapply G; exact E.
Qed.
Lemma cut_plain l : ~ has_inline l -> cut_inline l = l.
Proof. intro H. unfold cut_inline. rewrite find_inline_none by exact H. reflexivity. Qed.

Lemma nth_default (l : list Z) n a b : (n < length l)%nat -> nth n l a = nth n l b.
Proof. intro H. apply nth_indep. exact H. Qed.

Lemma not_directive l : ~ directive l -> is_directive l = false.
Proof.
  intro H. unfold is_directive.
  destruct (7 <=? length l)%nat eqn:L; [|reflexivity]. apply Nat.leb_le in L. cbn [andb].
  rewrite (nth_default l 6 0 32) by lia. fold (indicator l).
  destruct (indicator l =? 36) eqn:E.
  { exfalso. apply H. split; [exact L|]. left. apply Z.eqb_eq, E. }
  destruct (indicator l =? 32) eqn:E2; [|reflexivity]. cbn [orb andb].
  rewrite skip_sp_drop.
  destruct (drop_blanks (skipn 7 l)) as [|a [|b r]] eqn:D.
  - reflexivity.
  - destruct a as [|p|p]; try reflexivity. do 6 (try (destruct p as [p|p|]; try reflexivity)).
  - destruct (Z.eq_dec a 62) as [->|Na]; [destruct (Z.eq_dec b 62) as [->|Nb]|].
    + exfalso. apply H. split; [exact L|]. right. split; [apply Z.eqb_eq, E2|].
      exists r. exact D.
    + destruct b as [|p|p]; try reflexivity.
      do 6 (try (destruct p as [p|p|]; try reflexivity)). exfalso; apply Nb; reflexivity.
    + destruct a as [|p|p]; try reflexivity.
      do 6 (try (destruct p as [p|p|]; try reflexivity)). exfalso; apply Na; reflexivity.
Qed.

Definition eok (e : ending) : Prop :=
  match e with ENo => True | EIn d => is_quote d = true | EEdge d => is_quote d = true end.
Definition state (nl : nat) (e : ending) : rst := mkRst nl (eq_ e) (ecq e) false.

Lemma ending_eok f q t : qok q -> eok (ending_of f q t).
Proof.
  intro H. assert (G := ending_quote f q t H). destruct (ending_of f q t); cbn; auto. apply G.
Qed.

Lemma shown_len pad t e : (length (shown pad t e) <= length t + pad + 1)%nat.
Proof.
  unfold shown. destruct e.
  - assert (H := trim_end_len t). destruct (rev (trim_end t)) as [|c r]; [lia|].
    destruct (is_quote c); rewrite ?app_length; cbn [length]; lia.
  - rewrite app_length, repeat_length. lia.
  - rewrite app_length, repeat_length. lia.
Qed.

Lemma text_area_len l : (length (text_area l) <= 65)%nat.
Proof. unfold text_area. rewrite skipn_length, firstn_length. lia. Qed.

Lemma resume_len e t u q : resume e t = Some (u, q) -> (length u <= length t)%nat.
Proof.
  unfold resume. assert (H := drop_blanks_len t). intro R.
  destruct e; destruct (drop_blanks t) as [|a [|b v]]; cbn [length] in *; try discriminate R;
    repeat match type of R with context [if ?b then _ else _] => destruct b end;
    inversion R; subst; cbn [length] in *; lia.
Qed.

Lemma line_text_spec c l (nl : nat) e : c_col c = 72%nat -> (7 <= length l)%nat ->
  eok e -> Z.of_nat nl + 73 + 1 <= c_cap c ->
  drop_blanks (text_area l) <> [] ->
  let t := text_area l in
  (let e' := ending_of (full t) None t in
   line_text c l (state nl e)
   = Ok (LOut (repeat 10 nl ++ shown (missing t) t e') (state 1 e'))) /\
  line_text c l (mkRst nl (eq_ e) (ecq e) true) =
    match resume e t with
    | None => Ok LErr
    | Some (u, q) =>
      let e' := ending_of (full t) q u in
      Ok (LOut (shown (missing t) u e') (state (S nl) e'))
    end.
Proof.
  intros Hc Hl He Hcap Hb t.
  assert (Ht := text_area_len l).
  unfold line_text. rewrite Hc. cbv zeta. fold (text_area l). fold t.
  rewrite !skip_sp_drop.
  assert (Lf : length (firstn 72 l) = (7 + length t)%nat).
  { unfold t, text_area. rewrite skipn_length, firstn_length. lia. }
  fold t in Ht, Hb.
  assert (GO : forall u q, qok q -> (length u <= length t)%nat ->
     scan 72 (length (firstn 72 l) - length u) u (qz q) false
     = (eq_ (ending_of (full t) q u), ecq (ending_of (full t) q u)) /\
     finish (length (firstn 72 l) - length u) u (eq_ (ending_of (full t) q u))
     = shown (missing t) u (ending_of (full t) q u) /\
     Z.of_nat (length (shown (missing t) u (ending_of (full t) q u))) <= 66).
  { intros u q Hq Hu. split; [|split].
    - apply scan_ending; [lia | exact Hq | lia |].
      unfold full, missing. rewrite Lf.
      destruct (Nat.eqb_spec (65 - length t) 0) as [A|A];
      destruct (Nat.eqb_spec (7 + length t - length u + length u) 72) as [B|B]; try reflexivity; lia.
    - apply finish_shown; [|unfold missing; lia].
      assert (G := ending_eok (full t) q u Hq). destruct (ending_of (full t) q u); auto.
    - assert (G := shown_len (missing t) u (ending_of (full t) q u)). unfold missing in *. lia. }
  destruct (drop_blanks t) as [|x y] eqn:D; [congruence|].
  split.
  - cbn [state r_cont r_nl r_q r_cq].
    destruct (GO t None I (le_n _)) as (G1 & G2 & G3). cbn [qz] in G1.
    rewrite G1. cbn [fst snd]. rewrite G2.
    replace (c_cap c <? _) with false by (symmetry; apply Z.ltb_ge; lia).
    reflexivity.
  - cbn [r_cont r_nl r_q r_cq]. assert (Dl := drop_blanks_len t). rewrite D in Dl.
    unfold resume. rewrite D. destruct e as [|d|d]; cbn [eq_ ecq eok] in *.
    + change (0 =? 0) with true. cbn [negb].
      destruct (GO (x :: y) None I Dl) as (G1 & G2 & G3). cbn [qz] in G1.
      rewrite G1. cbn [fst snd]. rewrite G2.
      replace (c_cap c <? _) with false by (symmetry; apply Z.ltb_ge; lia). reflexivity.
    + rewrite (is_quote_nz d He). cbn [negb nth skipn].
      destruct (x =? d); [|reflexivity].
      cbn [length] in Dl.
      destruct (GO y (Some d) He ltac:(lia)) as (G1 & G2 & G3). cbn [qz] in G1.
      rewrite G1. cbn [fst snd]. rewrite G2.
      replace (c_cap c <? _) with false by (symmetry; apply Z.ltb_ge; lia). reflexivity.
    + cbn [nth skipn].
      destruct y as [|z y].
      { cbn [nth]. replace (0 =? d) with false
          by (rewrite Z.eqb_sym; symmetry; apply is_quote_nz, He).
        rewrite andb_false_r. reflexivity. }
      cbn [nth]. destruct ((x =? d) && (z =? d)); [|reflexivity].
      cbn [length] in Dl.
      destruct (GO (z :: y) None I ltac:(cbn [length]; lia)) as (G1 & G2 & G3). cbn [qz] in G1.
      rewrite G1. cbn [fst snd]. rewrite G2.
      replace (c_cap c <? _) with false by (symmetry; apply Z.ltb_ge; lia). reflexivity.
Qed.

Lemma line_text_blank c l s : c_col c = 72%nat -> drop_blanks (text_area l) = [] ->
  line_text c l s = Ok (skip s).
Proof.
  intros Hc H. unfold line_text. rewrite Hc. cbv zeta. fold (text_area l).
  rewrite skip_sp_drop, H. reflexivity.
Qed.

Lemma do_line_spec c l (nl : nat) e : c_col c = 72%nat -> plain l ->
  eok e -> Z.of_nat nl + 73 + 1 <= c_cap c ->
  do_line c l (state nl e) =
  match kind_of (c_debug c) (c_mfc c) l with
  | KSkip => Ok (LSkip (state (S nl) e))
  | KBad => Ok LErr
  | KText t => let e' := ending_of (full t) None t in
               Ok (LOut (repeat 10 nl ++ shown (missing t) t e') (state 1 e'))
  | KCont t => match resume e t with
               | None => Ok LErr
               | Some (u, q) => let e' := ending_of (full t) q u in
                                Ok (LOut (shown (missing t) u e') (state (S nl) e'))
               end
  end.
Proof.
  intros Hc (P0 & _ & P1 & P2 & P3) He Hcap.
  unfold do_line.
  replace (existsb (Z.eqb 0) l) with false.
  2:{ symmetry. destruct (existsb (Z.eqb 0) l) eqn:E; [|reflexivity].
      apply existsb_exists in E. destruct E as (x & Hx & Ex). apply Z.eqb_eq in Ex. subst x.
      contradiction. }
  cbv zeta. rewrite (cut_plain l P1), (not_directive l P2).
  unfold kind_of. destruct (length l <? 7)%nat eqn:L; [reflexivity|].
  apply Nat.ltb_ge in L.
  rewrite (nth_default l 0 0 32), (nth_default l 6 0 32) by lia. fold (indicator l).
  cbn [existsb]. rewrite !orb_false_r.
  destruct (c_mfc c && ((nth 0 l 32 =? 42) || (nth 0 l 32 =? 47))); [reflexivity|].
  cbv zeta.
  destruct (drop_blanks (text_area l)) as [|x y] eqn:D.
  - assert (NB := fun s => line_text_blank c l s Hc D).
    rewrite !NB.
    assert (N45 : (indicator l =? 45) = false).
    { apply Z.eqb_neq. intro E. apply P3. split; [exact L|]. split; [exact E|exact D]. }
    rewrite N45.
    destruct (indicator l =? 32) eqn:E32.
    { apply Z.eqb_eq in E32. rewrite E32. reflexivity. }
    destruct (indicator l =? 42) eqn:E42.
    { apply Z.eqb_eq in E42. rewrite E42. reflexivity. }
    destruct (indicator l =? 47) eqn:E47.
    { apply Z.eqb_eq in E47. rewrite E47. reflexivity. }
    cbn [orb]. destruct ((indicator l =? 100) || (indicator l =? 68)); [|reflexivity].
    rewrite andb_false_r. destruct (c_debug c); reflexivity.
  - destruct (line_text_spec c l nl e Hc L He Hcap ltac:(rewrite D; discriminate)) as [T1 T2].
    cbv zeta in T1, T2. cbn [r_nl r_q r_cq state]. rewrite T1.
    unfold state at 1 2 3. cbn [r_nl r_q r_cq]. rewrite T2.
    destruct (indicator l =? 32) eqn:E32.
    { apply Z.eqb_eq in E32. rewrite E32. reflexivity. }
    destruct (indicator l =? 45) eqn:E45.
    { apply Z.eqb_eq in E45. rewrite E45. reflexivity. }
    destruct (indicator l =? 42) eqn:E42.
    { apply Z.eqb_eq in E42. rewrite E42. reflexivity. }
    destruct (indicator l =? 47) eqn:E47.
    { apply Z.eqb_eq in E47. rewrite E47. reflexivity. }
    cbn [orb]. destruct ((indicator l =? 100) || (indicator l =? 68)); [|reflexivity].
    cbn [negb]. rewrite andb_true_r. destruct (c_debug c); reflexivity.
Qed.

(** *** The whole source *)

Lemma repeat_snoc (n : nat) (x : Z) l : repeat x n ++ x :: l = repeat x (S n) ++ l.
Proof. induction n as [|n IH]; [reflexivity|]. cbn [repeat app] in *. f_equal. exact IH. Qed.

Lemma do_lines_spec c : c_col c = 72%nat -> forall ls nl e,
  Forall plain ls -> eok e -> Z.of_nat nl + Z.of_nat (length ls) + 75 <= c_cap c ->
  do_lines c ls (state nl e) =
  Ok (match program e (map (kind_of (c_debug c) (c_mfc c)) ls) with
      | None => None
      | Some (tl, sl) => Some (tl ++ repeat 10 nl ++ unlines sl)
      end).
Proof.
  intro Hc. induction ls as [|l ls IH]; intros nl e Hp He Hcap.
  - cbn [do_lines map program state r_nl length] in *.
    replace (c_cap c <? _) with false by (symmetry; apply Z.ltb_ge; lia).
    unfold unlines. cbn [map concat]. rewrite app_nil_r. reflexivity.
  - inversion Hp as [|? ? Hl Hls]; subst. cbn [length] in Hcap.
    cbn [do_lines map program].
    rewrite (do_line_spec c l nl e Hc Hl He) by lia.
    destruct (kind_of (c_debug c) (c_mfc c) l) as [|t|t|].
    + cbn [obind]. rewrite (IH (S nl) e Hls He) by lia.
      destruct (program e _) as [[tl sl]|]; [|reflexivity].
      rewrite <- repeat_snoc. reflexivity.
    + cbv zeta. cbn [obind].
      set (e' := ending_of (full t) None t).
      assert (He' : eok e') by (apply ending_eok; exact I).
      rewrite (IH 1%nat e' Hls He') by lia. cbn [obind].
      destruct (program e' _) as [[tl sl]|]; [|reflexivity].
      unfold unlines. cbn [map concat repeat app]. rewrite <- !app_assoc. reflexivity.
    + destruct (resume e t) as [[u q]|] eqn:R; [|reflexivity]. cbv zeta. cbn [obind].
      set (e' := ending_of (full t) q u).
      assert (He' : eok e').
      { apply ending_eok. revert R He. unfold resume.
        destruct e as [|d|d]; destruct (drop_blanks t) as [|a [|b v]]; try discriminate;
          repeat match goal with |- context [if ?b then _ else _] => destruct b end;
          intros R He; inversion R; subst; cbn [qok]; auto. }
      rewrite (IH (S nl) e' Hls He') by lia. cbn [obind].
      destruct (program e' _) as [[tl sl]|]; [|reflexivity].
      rewrite <- repeat_snoc. rewrite <- app_assoc. reflexivity.
    + reflexivity.
Qed.

(** *** Reading the lines *)

Lemma expand_app w a : (0 < w)%nat -> forall n b,
  expand w n (a ++ b) = expand w n a ++ expand w (n + length (expand w n a)) b.
Proof.
  intro Hw. induction a as [|c r IH]; intros n b.
  - cbn [expand app length]. rewrite Nat.add_0_r. reflexivity.
  - cbn [expand app]. destruct (c =? 9).
    + rewrite IH, app_length, repeat_length, Nat.add_assoc, app_assoc. reflexivity.
    + rewrite IH. cbn [length app]. rewrite <- Nat.add_succ_comm. reflexivity.
Qed.

Lemma put_tab_expand w acc : (0 < w)%nat ->
  put_tab w acc = acc ++ repeat 32 (w - length acc mod w).
Proof.
  intro Hw. unfold put_tab. f_equal.
  assert (Hm := Nat.mod_upper_bound (length acc) w ltac:(lia)).
  set (m := (length acc mod w)%nat) in *.
  assert (Es : (S (length acc) mod w)%nat = if Nat.eqb (S m) w then 0%nat else S m).
  { replace (S (length acc)) with (1 + length acc)%nat by lia.
    rewrite <- Nat.add_mod_idemp_r by lia. fold m.
    destruct (Nat.eqb_spec (S m) w) as [E|E].
    - change (1 + m)%nat with (S m). rewrite E. apply Nat.mod_same. lia.
    - apply Nat.mod_small. lia. }
  rewrite Es. destruct (Nat.eqb_spec (S m) w) as [E|E].
  - cbn [Nat.eqb]. replace (w - m)%nat with 1%nat by lia. reflexivity.
  - cbn [Nat.eqb]. replace (w - m)%nat with (S (w - S m)) by lia. reflexivity.
Qed.

Definition eol (l : list Z) : Prop := l = [10] \/ l = [13; 10].

Lemma rd_line w raw : (0 < w)%nat -> forall acc r e,
  ~ In 10 raw -> ~ In 13 raw -> eol e ->
  (length acc + length (expand w (length acc) raw) <= 255)%nat ->
  rd w (raw ++ e ++ r) acc false = Some (acc ++ expand w (length acc) raw, r).
Proof.
  intro Hw. induction raw as [|c t IH]; intros acc r e H10 H13 He Hl.
  - cbn [expand app length] in *. rewrite app_nil_r.
    assert (K : (256 <=? length acc)%nat = false) by (apply Nat.leb_gt; lia).
    destruct He as [-> | ->]; cbn [app rd]; rewrite K;
      [reflexivity | cbn [andb]; change (13 =? 13) with true; cbv iota; rewrite K; reflexivity].
  - assert (H10' : ~ In 10 t) by (intro; apply H10; right; assumption).
    assert (H13' : ~ In 13 t) by (intro; apply H13; right; assumption).
    assert (N13 : (c =? 13) = false) by (apply Z.eqb_neq; intros ->; apply H13; left; reflexivity).
    assert (N10 : (c =? 10) = false) by (apply Z.eqb_neq; intros ->; apply H10; left; reflexivity).
    cbn [app rd].
    replace (256 <=? length acc)%nat with false by (symmetry; apply Nat.leb_gt; lia).
    cbn [andb]. rewrite N13, N10. cbn [expand] in *.
    destruct (c =? 9).
    + rewrite put_tab_expand by exact Hw.
      cbv zeta in Hl. rewrite app_length, repeat_length in Hl.
      rewrite (IH _ r e H10' H13' He);
        rewrite app_length, repeat_length; [|lia].
      rewrite <- app_assoc. reflexivity.
    + cbn [length] in Hl.
      rewrite (IH _ r e H10' H13' He); rewrite app_length; cbn [length];
        rewrite Nat.add_1_r; [|lia].
      rewrite <- app_assoc. reflexivity.
Qed.

Definition raw_ok (w : nat) (r : list Z) : Prop :=
  ~ In 10 r /\ ~ In 13 r /\ (length (expand w 0 r) <= 255)%nat.

Lemma rd_lines_spec w : (0 < w)%nat -> forall (rs : list (list Z * list Z)) fuel,
  Forall (fun x => raw_ok w (fst x) /\ eol (snd x)) rs ->
  (length rs <= fuel)%nat ->
  rd_lines fuel w (concat (map (fun x => fst x ++ snd x) rs))
  = map (fun x => expand w 0 (fst x)) rs.
Proof.
  intro Hw. induction rs as [|[r e] rs IH]; intros fuel H Hf.
  - destruct fuel; reflexivity.
  - inversion H as [|? ? [(A & B & C) D] E]; subst. cbn [fst snd] in *.
    cbn [length] in Hf. destruct fuel as [|k]; [lia|].
    cbn [map concat rd_lines fst snd]. rewrite <- app_assoc.
    rewrite (rd_line w r Hw [] _ e A B D) by exact C.
    cbn [app length]. f_equal. apply IH; [exact E|lia].
Qed.
Lemma file_len (rs : list (list Z * list Z)) :
  Forall (fun x => eol (snd x)) rs ->
  (length rs <= length (concat (map (fun x => fst x ++ snd x) rs)))%nat.
Proof.
  induction 1 as [|[r e] rs H _ IH]; [apply le_n|].
  cbn [map concat length fst snd] in *. rewrite !app_length.
  destruct H as [-> | ->]; cbn [length]; lia.
Qed.
