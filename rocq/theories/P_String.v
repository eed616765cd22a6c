(** * STRING (C28) and UNSTRING (C29)
    Model: StringStmt.v (libcob/strings.c).  Specification: SpecString.v. *)
From Verif Require Import Base BaseFacts Field SpecNum SpecStore Numeric SpecMove MoveAll DispInt P_Num P_Int P_Move IntAccess MoveMore
  Inspect SpecInspect InspectProofs InspectMore StringStmt SpecString StringProofs.

Local Open Scope nat_scope.

(** ** C28 STRING *)
Theorem C28_string : forall m dst parts,
  exists texts,
    Forall2 (fun x t => delimited (dlm_text (fst x)) (fd (snd x)) t) parts texts /\
    (forall ts, Forall2 (fun x t => delimited (dlm_text (fst x)) (fd (snd x)) t) parts ts -> ts = texts) /\
    let text := concat texts in
    (* no POINTER phrase *)
    string_stmt m dst None parts =
      Ok (set_fd dst (written (fd dst) 0 text), None, f_size dst <? length text) /\
    (* POINTER item p with the value x *)
    forall p x, get_int m p = Ok (x, p) ->
      ((1 <= x <= Z.of_nat (f_size dst))%Z ->
         let off := Z.to_nat (x - 1) in
         let n := Nat.min (length text) (f_size dst - off) in
         string_stmt m dst (Some p) parts =
           (do p' <- set_int m p (x + Z.of_nat n);
            Ok (set_fd dst (written (fd dst) off text), Some p', f_size dst - off <? length text))) /\
      ((INT_MIN < x < 1 \/ Z.of_nat (f_size dst) < x)%Z ->
         string_stmt m dst (Some p) parts = (do p' <- set_int m p x; Ok (dst, Some p', true))).
Proof.
  intros m dst parts.
  destruct (string_fold_spec parts (fd dst) 0 ltac:(lia)) as (texts & T & F0).
  exists texts. split; [exact T|].
  assert (UNI : forall ts, Forall2 (fun x t => delimited (dlm_text (fst x)) (fd (snd x)) t) parts ts -> ts = texts).
  { intros ts H. clear F0. revert ts H. induction T as [|x t l l' D T IH]; intros ts H; inversion H as [|? t' ? ts' D' H']; subst; auto.
    f_equal; [eapply delimited_unique; eauto|]. now apply IH. }
  split; [exact UNI|]. intros text. split.
  - unfold string_stmt. cbn [string_init obind fst snd]. cbv zeta in F0. change (Z.of_nat 0) with 0%Z in F0. unfold dlm_text in *. rewrite F0. cbn [ss_dst ss_ovf].
    rewrite Nat.sub_0_r. reflexivity.
  - intros p x G. split.
    + intros HX off n. unfold string_stmt. cbn [string_init]. rewrite G. cbn [obind fst snd]. unfold ptr_offset.
      destruct (Z.eqb_spec x INT_MIN) as [E|_]; [unfold INT_MIN in E; lia|]. cbn [obind fst snd].
      replace ((x - 1 <? 0) || (Z.of_nat (f_size dst) <=? x - 1))%Z with false by lia.
      assert (HO : off <= length (fd dst)) by (unfold off, f_size in *; lia).
      destruct (string_fold_spec parts (fd dst) off HO) as (texts' & T' & F).
      rewrite (UNI texts' T') in F. cbv zeta in F.
      replace (x - 1)%Z with (Z.of_nat off) by (unfold off; lia). rewrite F. cbn [ss_dst ss_ovf ss_off].
      replace (Z.of_nat (off + Nat.min (length (concat texts)) (length (fd dst) - off)) + 1)%Z with (x + Z.of_nat n)%Z
        by (unfold n, off, text, f_size; lia).
      reflexivity.
    + intros HX. unfold string_stmt. cbn [string_init]. rewrite G. cbn [obind fst snd]. unfold ptr_offset.
      destruct (Z.eqb_spec x INT_MIN) as [E|_]; [unfold INT_MIN in *; lia|]. cbn [obind fst snd].
      replace ((x - 1 <? 0) || (Z.of_nat (f_size dst) <=? x - 1))%Z with true by lia.
      rewrite fold_overflown by reflexivity. cbn [ss_dst ss_ovf ss_off].
      replace (x - 1 + 1)%Z with x by lia. destruct dst; reflexivity.
Qed.
Print Assumptions C28_string.

(** Which characters of the receiver change, and to what. *)
Theorem C28_positions : forall dst off text, off <= length dst ->
  let n := Nat.min (length text) (length dst - off) in
  length (written dst off text) = length dst /\
  (forall i, off <= i < off + n -> nth i (written dst off text) 0%Z = nth (i - off) text 0%Z) /\
  (forall i, i < off \/ off + n <= i -> nth i (written dst off text) 0%Z = nth i dst 0%Z).
Proof.
  intros dst off text HO n. split; [now apply written_length|].
  assert (L1 : length (firstn off dst) = off) by (rewrite firstn_length; lia).
  assert (L2 : length (firstn n text) = n) by (rewrite firstn_length; lia).
  unfold written. fold n. split.
  - intros i Hi. rewrite app_nth2 by lia. rewrite L1, app_nth1 by lia.
    rewrite <- (firstn_skipn n text) at 2. now rewrite app_nth1 by lia.
  - intros i [Hi|Hi].
    + rewrite app_nth1 by lia. rewrite <- (firstn_skipn off dst) at 2. now rewrite app_nth1 by lia.
    + rewrite app_nth2 by lia. rewrite L1, app_nth2 by lia. rewrite L2.
      rewrite <- (firstn_skipn (off + n) dst) at 2. rewrite (app_nth2 (firstn (off + n) dst)) by (rewrite firstn_length; lia).
      rewrite firstn_length. f_equal. lia.
Qed.
Print Assumptions C28_positions.

(** The POINTER item afterwards, when it can hold the value. *)
Theorem C28_pointer : forall m dst parts p x,
  get_int m p = Ok (x, p) -> (1 <= x <= Z.of_nat (f_size dst))%Z -> (Z.of_nat (f_size dst) < INT_MAX)%Z ->
  numeric_item p -> a_scale (fa p) = 0%Z ->
  (forall y, 1 <= y <= Z.of_nat (f_size dst) + 1 -> held p (kept_digits m p y) = y)%Z ->
  (a_type (fa p) = TBinary -> (c_bintrunc m && negb (a_realbin (fa p)) = true -> (a_digits (fa p) <= 18)%Z) /\
     forall y, (1 <= y <= Z.of_nat (f_size dst) + 1)%Z -> bin_range p y) ->
  exists texts dst' p' ov, Forall2 (fun x t => delimited (dlm_text (fst x)) (fd (snd x)) t) parts texts /\
    string_stmt m dst (Some p) parts = Ok (dst', Some p', ov) /\
    get_int m p' = Ok (x + Z.of_nat (Nat.min (length (concat texts)) (f_size dst - Z.to_nat (x - 1))), p')%Z.
Proof.
  intros m dst parts p x G HX HM NI SC HH HB.
  destruct (C28_string m dst parts) as (texts & T & _ & _ & PT).
  destruct (PT p x G) as [P1 _]. specialize (P1 HX). cbv zeta in P1.
  set (y := (x + Z.of_nat (Nat.min (length (concat texts)) (f_size dst - Z.to_nat (x - 1))))%Z) in *.
  assert (HY : (1 <= y <= Z.of_nat (f_size dst) + 1)%Z) by (unfold y; lia).
  destruct (C52_set_get m p y) as (p' & E1 & E2); auto.
  - unfold INT_MAX in *. lia.
  - intros TB. destruct (HB TB) as [B1 B2]. auto.
  - exists texts, (set_fd dst (written (fd dst) (Z.to_nat (x - 1)) (concat texts))), p',
      (f_size dst - Z.to_nat (x - 1) <? length (concat texts)).
    split; [exact T|]. split; [|exact E2]. rewrite P1, E1. reflexivity.
Qed.
Print Assumptions C28_pointer.

Definition txt (l : list Z) : field := mkField alnum l.
Definition num2 (v : Z) : field := mkField (disp 2 0 false false false) [48 + v / 10; 48 + v mod 10]%Z.
(** STRING "AB C" DELIMITED BY SPACE "XY" DELIMITED BY SIZE INTO "......" POINTER 3. *)
Example C28_ex : string_stmt default_cfg (txt [46;46;46;46;46;46;46]%Z) (Some (num2 3))
   [(Some (txt [32]%Z), txt [65;66;32;67]%Z); (None, txt [88;89]%Z)]
  = Ok (txt [46;46;65;66;88;89;46]%Z, Some (num2 7), false).
Proof. reflexivity. Qed.
Example C28_ex_overflow : string_stmt default_cfg (txt [46;46;46]%Z) (Some (num2 2))
   [(None, txt [65;66;67]%Z)] = Ok (txt [46;65;66]%Z, Some (num2 4), true).
Proof. reflexivity. Qed.
Example C28_ex_hyps : get_int default_cfg (num2 3) = Ok (3%Z, num2 3) /\ numeric_item (num2 3) /\
  (forall y, 1 <= y <= 8 -> held (num2 3) (kept_digits default_cfg (num2 3) y) = y)%Z.
Proof.
  split; [reflexivity|]. split.
  - apply (ni_display _ 2). unfold wf_display, attr_ok. cbn. repeat split; try (intros; discriminate); auto; try lia.
  - intros y Hy. assert (C : (y = 1 \/ y = 2 \/ y = 3 \/ y = 4 \/ y = 5 \/ y = 6 \/ y = 7 \/ y = 8)%Z) by lia.
    destruct C as [->|[->|[->|[->|[->|[->|[->| ->]]]]]]]; reflexivity.
Qed.

(** ** C29 UNSTRING *)

(** The statement cuts the sender into the pieces of the specification, which
    are unique; the first receivers get them, the others are untouched; the
    tally goes up by the number of pieces; the pointer stands behind what was
    consumed; OVERFLOW iff characters are left (or the pointer was out of
    range). *)
Theorem C29_unstring : forall m src dlms rs off,
  Forall (fun d => fd (fst d) <> []) dlms -> Forall (fun r => 1 <= data_size (rc_dst r)) rs ->
  off < f_size src ->
  let delims := map (fun d => (fd (fst d), snd d)) dlms in
  let sizes := map (fun r => data_size (rc_dst r)) rs in
  exists ps, unstrung (fd src) delims off sizes ps /\
    (forall ps', unstrung (fd src) delims off sizes ps' -> ps' = ps) /\
    let till := off + length (consumed ps) in
    (* no POINTER, no TALLYING *)
    (off = 0 -> unstring_stmt m src dlms rs None None =
      (do rs' <- put_pieces m ps rs; Ok (rs', None, None, till <? f_size src))) /\
    (* with both *)
    (forall p t, get_int m p = Ok (Z.of_nat off + 1, p)%Z ->
      unstring_stmt m src dlms rs (Some p) (Some t) =
      (do rs' <- put_pieces m ps rs;
       do c <- add_int m t (Z.of_nat (length ps));
       do p' <- set_int m p (Z.of_nat till + 1);
       Ok (rs', Some p', Some (snd c), till <? f_size src))).
Proof.
  intros m src dlms rs off HD HS HO delims sizes.
  assert (HN : Forall (fun x : list Z * bool => fst x <> []) delims).
  { apply Forall_forall. intros x I. unfold delims in I. apply in_map_iff in I as (d & <- & I). rewrite Forall_forall in HD. now apply HD. }
  destruct (unstring_run_spec rs m (fd src) delims off HN ltac:(unfold f_size in *; lia) HS) as (ps & U & B & R).
  exists ps. split; [exact U|]. split.
  { intros ps' U'. symmetry. eapply unstrung_det; eauto. }
  intros till.
  assert (LT : forall o, o = off + length (consumed ps) -> (Z.of_nat o <? Z.of_nat (f_size src))%Z = (till <? f_size src)).
  { intros o ->. fold till. destruct (till <? f_size src) eqn:E; [apply Nat.ltb_lt in E|apply Nat.ltb_ge in E]; lia. }
  split.
  - intros ->. unfold unstring_stmt. cbn [obind]. change (Z.to_nat 0) with 0. fold delims. rewrite R.
    destruct (put_pieces m ps rs) as [rs'| |]; cbn [obind fst snd]; auto. cbn [orb]. now rewrite LT.
  - intros p t G. unfold unstring_stmt. rewrite G. cbn [obind fst snd]. unfold ptr_offset.
    destruct (Z.eqb_spec (Z.of_nat off + 1) INT_MIN) as [E|_]; [unfold INT_MIN in E; lia|]. cbn [obind fst snd].
    replace ((Z.of_nat off + 1 - 1 <? 0) || (Z.of_nat (f_size src) <=? Z.of_nat off + 1 - 1))%Z with false by lia.
    replace (Z.of_nat off + 1 - 1)%Z with (Z.of_nat off) by lia. rewrite Nat2Z.id. fold delims. rewrite R.
    destruct (put_pieces m ps rs) as [rs'| |]; cbn [obind fst snd]; auto.
    fold till. destruct (add_int m t (Z.of_nat (length ps))) as [c| |]; cbn [obind fst snd]; auto.
    destruct (set_int m p (Z.of_nat till + 1)) as [p'| |]; cbn [obind fst snd]; auto. cbn [orb]. now rewrite LT.
Qed.
Print Assumptions C29_unstring.

(** Pointer out of range: nothing is received, OVERFLOW. *)
Theorem C29_pointer_range : forall m src dlms rs p t x, get_int m p = Ok (x, p) ->
  (INT_MIN < x < 1 \/ Z.of_nat (f_size src) < x)%Z ->
  unstring_stmt m src dlms rs (Some p) (Some t) = (do p' <- set_int m p x; Ok (rs, Some p', Some t, true)).
Proof.
  intros m src dlms rs p t x G HX. unfold unstring_stmt. rewrite G. cbn [obind fst snd]. unfold ptr_offset.
  destruct (Z.eqb_spec x INT_MIN) as [E|_]; [unfold INT_MIN in *; lia|]. cbn [obind fst snd].
  replace ((x - 1 <? 0) || (Z.of_nat (f_size src) <=? x - 1))%Z with true by lia. cbn [obind].
  destruct (C14_add_int_dispatch m t 0) as [Z0 _]. change (Z.of_nat 0) with 0%Z. rewrite Z0. cbn [obind snd].
  replace (x - 1 + 1)%Z with x by lia. destruct (set_int m p x); reflexivity.
Qed.
Print Assumptions C29_pointer_range.

(** The pieces with their separators are the sender from the pointer on, cut. *)
Theorem C29_partition : forall src dlms from sizes ps, from <= length src -> unstrung src dlms from sizes ps ->
  let till := from + length (consumed ps) in
  till <= length src /\ src = firstn from src ++ consumed ps ++ skipn till src.
Proof.
  intros src dlms from sizes ps HF H till. destruct (unstrung_partition _ _ _ _ _ HF H) as [A B]. fold till in A, B.
  split; [exact B|]. rewrite <- A. unfold slice.
  rewrite <- (firstn_skipn from src) at 1. f_equal.
  rewrite <- (firstn_skipn (till - from) (skipn from src)) at 1. f_equal. rewrite skipn_skipn. f_equal. unfold till. lia.
Qed.
Print Assumptions C29_partition.

(** What an alphanumeric receiver gets: the piece, left justified (or right
    justified), padded with spaces or cut. *)
Theorem C29_receiver : forall m t d r, a_type (fa (rc_dst r)) = TAlnum ->
  rc_dlm r = None -> rc_cnt r = None ->
  store_piece m t d r = Ok (mkRecv (set_fd (rc_dst r)
     (if a_just (fa (rc_dst r)) then right_justified (f_size (rc_dst r)) t
      else left_justified (f_size (rc_dst r)) t)) None None).
Proof.
  intros m t d r HT HD HC. unfold store_piece, move_text. rewrite HD, HC.
  rewrite (C18_text_move m (mkField alnum_attr t) (rc_dst r)).
  - reflexivity.
  - exact I.
  - rewrite HT. exact I.
  - right. right. split; [now left|exact HT].
Qed.
Print Assumptions C29_receiver.
Theorem C29_delimiter_count : forall m t d r f c, a_type (fa (rc_dst r)) = TAlnum ->
  rc_dlm r = Some f -> a_type (fa f) = TAlnum -> a_just (fa f) = false -> f_size f <> 0 -> rc_cnt r = Some c ->
  store_piece m t d r =
    (do c' <- set_int m c (Z.of_nat (length t));
     Ok (mkRecv (set_fd (rc_dst r)
       (if a_just (fa (rc_dst r)) then right_justified (f_size (rc_dst r)) t
        else left_justified (f_size (rc_dst r)) t))
      (Some (set_fd f (left_justified (f_size f) (match d with Some x => x | None => [] end)))) (Some c'))).
Proof.
  intros m t d r f c HT HD HF HJ HS HC. unfold store_piece, move_text. rewrite HD, HC.
  rewrite (C18_text_move m (mkField alnum_attr t) (rc_dst r));
    [|exact I|rewrite HT; exact I|right; right; split; [now left|exact HT]].
  cbn [obind snd fd]. destruct d as [x|].
  - rewrite (C18_text_move m (mkField alnum_attr x) f);
      [|exact I|rewrite HF; exact I|right; right; split; [now left|exact HF]].
    rewrite HJ. cbn [obind snd fd]. destruct (set_int m c (Z.of_nat (length t))); reflexivity.
  - rewrite HF. cbn [is_numeric_type].
    rewrite (move_all_text m cob_space f); [| reflexivity | discriminate | repeat constructor | now left | exact HS].
    cbn [obind snd fd cob_space]. rewrite CmpProofs.fill_all_one.
    replace (left_justified (f_size f) []) with (repeat 32%Z (f_size f)).
    { destruct (set_int m c (Z.of_nat (length t))); reflexivity. }
    unfold left_justified, padded. rewrite app_nil_l. rewrite firstn_all2; [f_equal; cbn; lia|rewrite repeat_length; cbn; lia].
Qed.
Print Assumptions C29_delimiter_count.

(** UNSTRING "A,,BB;C" DELIMITED BY ALL "," OR ";" INTO two receivers with
    DELIMITER IN and COUNT IN, POINTER 1, TALLYING. *)
Definition rcv (n : nat) : receiver :=
  mkRecv (txt (repeat 46%Z n)) (Some (txt [46;46]%Z)) (Some (num2 0)).
Example C29_ex : unstring_stmt default_cfg (txt [65;44;44;66;66;59;67]%Z)
  [(txt [44]%Z, true); (txt [59]%Z, false)] [rcv 3; rcv 1] (Some (num2 1)) (Some (num2 5)) =
  Ok ([mkRecv (txt [65;32;32]%Z) (Some (txt [44;32]%Z)) (Some (num2 1));
       mkRecv (txt [66]%Z) (Some (txt [59;32]%Z)) (Some (num2 2))],
      Some (num2 7), Some (num2 7), true).
Proof. reflexivity. Qed.
Example C29_ex_hyps : Forall (fun d : field * bool => fd (fst d) <> []) [(txt [44]%Z, true); (txt [59]%Z, false)] /\
  Forall (fun r => 1 <= data_size (rc_dst r)) [rcv 3; rcv 1].
Proof. split; repeat constructor; discriminate. Qed.
