(** INSPECT statements, continued: replacing, converting, the subject. *)
From Verif Require Import Base BaseFacts Field Sign SpecNum SpecStore DispProofs StoreProofs MoveProofs CmpProofs
  Numeric MoveAll DispInt Inspect SpecInspect InspectProofs InspectStmt.

Local Open Scope nat_scope.

(** ** The subject *)
Lemma data_digits_length : forall f, length (data_digits f) = data_size f.
Proof.
  intros f. unfold data_digits, data_size, data_off, f_size. rewrite firstn_length, skipn_length.
  destruct (a_sep (fa f)), (a_lead (fa f)); cbn [andb]; lia.
Qed.

Lemma init_subject : forall m a neg bytes text, subject (c_ebcdic m) a neg bytes text ->
  let st := inspect_init m (mkField a bytes) in
  i_data st = text /\ i_marks st = repeat (-1)%Z (length text) /\
  forall bytes' text', subject (c_ebcdic m) a neg bytes' text' -> length text' = length text ->
    put_sign m (put_digits (i_f st) text') (i_sign st) = mkField a bytes'.
Proof.
  intros m a neg bytes text H. unfold inspect_init.
  inversion H as [t HS HP|ds HT HS HN HD]; subst.
  - unfold get_sign. cbn [fa]. rewrite HS. cbv zeta. unfold i_data, i_marks, i_f, i_sign.
    assert (DD : data_digits (mkField a text) = text).
    { unfold data_digits, data_size, data_off, f_size. cbn [fa fd]. rewrite HP. cbn [andb skipn].
      rewrite Nat.sub_0_r. apply firstn_all. }
    split; [exact DD|]. split; [rewrite <- data_digits_length, DD; reflexivity|].
    intros bytes' text' H' HL. unfold put_sign, put_digits, set_fd. cbn [fa fd]. rewrite HS.
    unfold data_off. rewrite HP. cbn [andb firstn app Nat.add].
    inversion H' as [t' _ _|]; subst; [|congruence].
    rewrite HL, skipn_all, app_nil_r. reflexivity.
  - assert (HA : attr_ok a) by (intros _; exact HS).
    destruct (get_sign_digits m a neg ds HT HN HD HA ltac:(congruence)) as (s & g & G & HSg & HFa & HDd & HG & HPp).
    rewrite G. cbv zeta. unfold i_data, i_marks, i_f, i_sign.
    split; [exact HDd|]. split; [rewrite <- data_digits_length, HDd; reflexivity|].
    intros bytes' text' H' HL. destruct H' as [t' X _|ds' _ _ HN' HD']; [congruence|]. subst g.
    rewrite put_sign_any; auto; cbn [fa fd]; auto.
    + rewrite HSg. reflexivity.
    + rewrite !map_length in HL.
      pose proof (data_digits_length (mkField a (plain a neg ds))) as DL. rewrite HDd, map_length in DL.
      unfold data_size, f_size in DL. cbn [fa fd] in DL. rewrite HL.
      assert (length ds > 0) by (destruct ds; [congruence|cbn; lia]).
      destruct (a_sep a); lia.
Qed.

(** ** REPLACING *)

(** The replacing value: a figurative constant or ALL literal is repeated. *)
Definition replacing_value (by_ pat : field) : list Z :=
  match a_type (fa by_) with
  | TAlnumAll => if f_size by_ =? f_size pat then fd by_ else fill_all (fd by_) (f_size pat)
  | _ => fd by_
  end.
Definition rwhat_of (k : rep_kind) : rwhat :=
  match k with
  | RChars by_ => CharsBy (nth 0 (fd by_) 0%Z)
  | RPat ty pat by_ => PatBy (kind_of ty) (fd pat) (replacing_value by_ pat)
  end.
Definition rphrase_of (p : rphrase) : rep_phrase := mkRep (rwhat_of (rp_kind p)) (map delim_of (rp_reg p)).
Definition rphrase_ok (p : rphrase) : Prop :=
  Forall region_ok (rp_reg p) /\
  match rp_kind p with
  | RChars by_ => length (fd by_) = 1 /\ bytes_ok (fd by_)
  | RPat _ pat by_ => fd pat <> [] /\ fd by_ <> [] /\ bytes_ok (fd by_)
  end.

Lemma fill_all_bytes : forall l n, l <> [] -> bytes_ok l -> bytes_ok (fill_all l n).
Proof.
  intros l n HN HB. apply Forall_forall. intros x I. apply (In_nth _ _ 0%Z) in I as (i & L & <-).
  rewrite fill_all_len in L. rewrite nth_fill_all by auto. apply Forall_nth_Z; auto.
  apply Nat.mod_upper_bound. destruct l; [congruence|discriminate].
Qed.
Lemma bytes_not_neg : forall l, bytes_ok l -> Forall (fun x => x <> -1)%Z l.
Proof. intros l H. eapply Forall_impl; [|exact H]. unfold is_byte. intros; lia. Qed.

Lemma inspect_replace_spec : forall ty st pat by_, wf_insp st -> fd pat <> [] -> fd by_ <> [] -> bytes_ok (fd by_) ->
  let vals := replacing_value by_ pat in
  (length vals = f_size pat -> exists ps mk, inspect_replace ty st by_ pat = Ok (set_imarks st mk, false) /\
     matches (kind_of ty) (i_data st) (ov_of (i_marks st)) (i_s st) (i_e st) (fd pat) ps /\
     stamped (ov_of (i_marks st)) (ov_of mk) ps vals /\ length mk = length (i_marks st) /\ bytes_ok vals) /\
  (length vals <> f_size pat -> inspect_replace ty st by_ pat = Ok (st, true)).
Proof.
  intros ty st pat by_ W HP HB HY vals.
  assert (LP : 1 <= length (fd pat)) by (destruct (fd pat); [congruence|cbn; lia]).
  assert (GO : forall v, length v = f_size pat -> bytes_ok v ->
    exists ps mk, (do r <- scan ty st (fd pat) v; Ok (set_imarks st (snd r), false)) = Ok (set_imarks st mk, false) /\
     matches (kind_of ty) (i_data st) (ov_of (i_marks st)) (i_s st) (i_e st) (fd pat) ps /\
     stamped (ov_of (i_marks st)) (ov_of mk) ps v /\ length mk = length (i_marks st) /\ bytes_ok v).
  { intros v LV BV. destruct (scan_spec ty st (fd pat) v W LP) as (ps & mk & A & B & C & D).
    - split; [exact LV|now apply bytes_not_neg].
    - exists ps, mk. rewrite A. auto. }
  unfold inspect_replace, vals, replacing_value.
  destruct (Nat.eqb_spec (f_size by_) (f_size pat)) as [EQ|NE].
  - destruct (a_type (fa by_)); (split; [intros _; now apply GO|intros Q; elim Q; exact EQ]).
  - assert (LB : (f_size by_ =? 0) = false) by (apply Nat.eqb_neq; unfold f_size; destruct (fd by_); [congruence|discriminate]).
    destruct (a_type (fa by_)); try (split; [intros Q; elim NE; exact Q|reflexivity]).
    rewrite LB. split.
    + intros Q. apply GO; auto. now apply fill_all_bytes.
    + intros Q. elim Q. apply fill_all_len.
Qed.

Definition ov_bytes (ov : overlay) : Prop := forall i c, ov i = Some c -> is_byte c.

Lemma ov_bytes_stamped : forall ov ov' ps vals, ov_bytes ov -> bytes_ok vals -> stamped ov ov' ps vals -> ov_bytes ov'.
Proof.
  intros ov ov' ps vals HO HV [S1 S2] i c E.
  destruct (existsb (fun p => (p <=? i) && (i <? p + length vals)) ps) eqn:X.
  - apply existsb_exists in X as (p & I & X). apply andb_true_iff in X as [X1 X2].
    apply Nat.leb_le in X1. apply Nat.ltb_lt in X2.
    specialize (S1 p (i - p) I ltac:(lia)). replace (p + (i - p)) with i in S1 by lia.
    rewrite S1 in E. injection E as <-. apply Forall_nth_Z; auto. lia.
  - rewrite S2 in E; [now apply (HO i)|]. intros p I [X1 X2].
    assert (existsb (fun p => (p <=? i) && (i <? p + length vals)) ps = true); [|congruence].
    apply existsb_exists. exists p. split; auto. apply andb_true_iff. split; [now apply Nat.leb_le|now apply Nat.ltb_lt].
Qed.

Lemma replace_run_spec : forall ps st, length (i_marks st) = length (i_data st) -> Forall rphrase_ok ps ->
  ov_bytes (ov_of (i_marks st)) ->
  exists mk s e, replace_run ps st = Ok (mkInsp (i_f st) (i_sign st) mk s e) /\
    replaced (i_data st) (ov_of (i_marks st)) (map rphrase_of ps) (ov_of mk) /\
    length mk = length (i_marks st) /\ ov_bytes (ov_of mk).
Proof.
  induction ps as [|p ps IH]; intros st Hm HF HB.
  - exists (i_marks st), (i_s st), (i_e st). split; [destruct st; reflexivity|]. split; [apply rp_nil|]. split; auto.
  - inversion HF as [|? ? [HR HK] HF']; subst.
    destruct (regions_spec (rp_reg p) (inspect_start st) (start_wf st Hm) HR) as (s & e & R1 & R2 & R3 & R4).
    set (st1 := set_region (inspect_start st) s e) in *.
    change (i_data (inspect_start st)) with (i_data st) in *.
    change (i_s (inspect_start st)) with 0 in R2. change (i_e (inspect_start st)) with (length (i_data st)) in R2.
    assert (W1 : wf_insp st1) by (unfold wf_insp; repeat split; auto).
    cbn [replace_run map]. rewrite R1. cbn [obind]. unfold rphrase_of at 1.
    destruct (rp_kind p) as [by_|ty pat by_]; cbn [rwhat_of].
    + destruct HK as [HL HY]. destruct (fd by_) as [|c [|c' r]] eqn:EB; try discriminate.
      unfold replace_characters. rewrite EB. cbn [obind nth].
      assert (HC : is_byte c) by now inversion HY.
      destruct (chars_stamped (i_marks st) s e c R3 ltac:(lia) ltac:(unfold is_byte in HC; lia)) as [C1 C2].
      change (i_e st1) with e. change (i_s st1) with s. change (i_marks st1) with (i_marks st).
      match goal with |- context [set_imarks st1 ?k] => set (mk1 := k) in * end.
      destruct (IH (set_imarks st1 mk1)) as (mk & s' & e' & X1 & X2 & X3 & X4); auto.
      { change (i_marks (set_imarks st1 mk1)) with mk1. change (i_data (set_imarks st1 mk1)) with (i_data st). lia. }
      { change (i_marks (set_imarks st1 mk1)) with mk1. eapply ov_bytes_stamped; [exact HB| |exact C1]. auto. }
      exists mk, s', e'. split; [exact X1|]. split; [|split; [|exact X4]].
      * eapply rp_chars; [exact R2|now apply (untaken_spec _ s e)|exact C1|exact X2].
      * rewrite X3. exact C2.
    + destruct HK as (HP & HBy & HY).
      destruct (inspect_replace_spec ty st1 pat by_ W1 HP HBy HY) as [A B].
      destruct (Nat.eq_dec (length (replacing_value by_ pat)) (f_size pat)) as [EQ|NE].
      * destruct (A EQ) as (qs & mk1 & A1 & A2 & A3 & A4 & A5). rewrite A1. cbn [obind fst].
        destruct (IH (set_imarks st1 mk1)) as (mk & s' & e' & X1 & X2 & X3 & X4); auto.
        { change (i_marks (set_imarks st1 mk1)) with mk1. change (i_data (set_imarks st1 mk1)) with (i_data st).
          rewrite A4. exact Hm. }
        { change (i_marks (set_imarks st1 mk1)) with mk1. eapply ov_bytes_stamped; [exact HB| |exact A3]. auto. }
        exists mk, s', e'. split; [exact X1|]. split; [|split; [|exact X4]].
        -- eapply rp_pat; [exact R2|exact EQ|exact A2|exact A3|exact X2].
        -- rewrite X3. exact A4.
      * rewrite (B NE). cbn [obind fst].
        destruct (IH st1) as (mk & s' & e' & X1 & X2 & X3 & X4); auto.
        exists mk, s', e'. split; [exact X1|]. split; [|split; [|exact X4]].
        -- apply rp_ignored; auto.
        -- exact X3.
Qed.

(** The final overlay. *)
Lemma overlay_text : forall data mk, length mk = length data -> ov_bytes (ov_of mk) ->
  overlaid data (ov_of mk)
    (map (fun xc => if (snd xc =? -1)%Z then fst xc else u8 (snd xc)) (combine data mk)).
Proof.
  intros data mk HL HB. split.
  - rewrite map_length, combine_length. lia.
  - intros i Hi.
    assert (NE : nth_error (map (fun xc => if (snd xc =? -1)%Z then fst xc else u8 (snd xc)) (combine data mk)) i
       = Some (match ov_of mk i with Some c => c | None => nth i data 0%Z end)).
    { rewrite nth_error_map.
      assert (NC : nth_error (combine data mk) i = Some (nth i data 0%Z, nth i mk 0%Z)).
      { rewrite (nth_error_nth' (combine data mk) (0%Z, 0%Z)) by (rewrite combine_length; lia).
        now rewrite combine_nth by auto. }
      rewrite NC. cbn [option_map fst snd]. f_equal.
      specialize (HB i). unfold ov_of in *. rewrite (nth_error_nth' mk 0%Z) in * by lia.
      destruct (nth i mk 0 =? -1)%Z; auto. specialize (HB _ eq_refl). unfold is_byte, u8 in *. rewrite Z.mod_small; lia. }
    erewrite nth_error_nth; [reflexivity|exact NE].
Qed.

Lemma ov_of_fresh : forall n i, ov_of (repeat (-1)%Z n) i = None.
Proof.
  intros n i. unfold ov_of. destruct (nth_error (repeat (-1)%Z n) i) eqn:E; auto.
  apply nth_error_In in E. apply repeat_spec in E. subst. reflexivity.
Qed.

(** ** CONVERTING *)
Lemma conv_done : forall tbl cells, Forall (fun c => snd c = 1%Z) cells -> conv_loop tbl cells = cells.
Proof.
  induction tbl as [|[a b] tbl IH]; intros cells H; [reflexivity|]. cbn [conv_loop].
  replace (map (conv_cell a b) cells) with cells; [now apply IH|].
  symmetry. rewrite <- (map_id cells) at 2. apply map_ext_in. intros c I.
  rewrite Forall_forall in H. unfold conv_cell. now rewrite (H c I).
Qed.
Lemma conv_loop_map : forall tbl cells, conv_loop tbl cells = map (fun c => hd c (conv_loop tbl [c])) cells.
Proof.
  induction tbl as [|[a b] tbl IH]; intros cells; cbn [conv_loop].
  - cbn [hd]. now rewrite map_id.
  - rewrite IH, map_map. apply map_ext. intros c. cbn [map].
    rewrite IH. cbn [map hd]. rewrite (IH [conv_cell a b c]). reflexivity.
Qed.
Lemma conv_one : forall tbl c, map fst (conv_loop tbl [(c, (-1)%Z)]) = [convert_char tbl c].
Proof.
  induction tbl as [|[a b] tbl IH]; intros c; [reflexivity|]. cbn [conv_loop map]. unfold conv_cell. cbn [fst snd].
  change ((-1 =? -1)%Z) with true. cbn [andb]. unfold convert_char. cbn [lookup_char].
  rewrite Z.eqb_sym. destruct (a =? c)%Z.
  - rewrite conv_done by (repeat constructor). reflexivity.
  - apply IH.
Qed.
Lemma conv_region : forall tbl l, map fst (conv_loop tbl (map (fun c => (c, (-1)%Z)) l)) = map (convert_char tbl) l.
Proof.
  intros tbl l. rewrite conv_loop_map, !map_map. apply map_ext. intros c.
  pose proof (conv_one tbl c) as H. destruct (conv_loop tbl [(c, (-1)%Z)]) as [|x r]; [discriminate|].
  cbn [hd]. cbn [map] in H. now injection H.
Qed.
Lemma combine_repeat : forall (l : list Z) n, length l <= n -> combine l (repeat (-1)%Z n) = map (fun c => (c, (-1)%Z)) l.
Proof.
  induction l as [|x l IH]; intros n H; [reflexivity|]. destruct n as [|n]; [cbn in H; lia|].
  cbn [repeat combine map]. rewrite IH; auto. cbn in H. lia.
Qed.

(** The conversion table of the phrase. *)
Definition table_of (f1 f2 : field) (fig : bool) : list (Z * Z) :=
  if fig then map (fun c => (c, nth 0 (fd f2) 0%Z)) (fd f1) else combine (fd f1) (fd f2).
Lemma table_of_eq : forall f1 f2 (fig : bool),
  combine (fd f1) (if fig then repeat (nth 0 (fd f2) 0%Z) (f_size f1) else fd f2) = table_of f1 f2 fig.
Proof.
  intros f1 f2 [|]; [|reflexivity]. unfold table_of, f_size. induction (fd f1) as [|x l IH]; [reflexivity|].
  cbn [length repeat combine map]. now rewrite IH.
Qed.
Definition table_ok (f1 f2 : field) (fig : bool) : Prop :=
  if fig then fd f2 <> [] else f_size f1 <= f_size f2.

Lemma put_digits_data : forall f d, length d = length (data_digits f) -> data_digits (put_digits f d) = d.
Proof.
  intros f d HL. rewrite data_digits_length in HL. unfold data_digits, put_digits, data_size, f_size, set_fd in *.
  cbn [fa fd]. assert (LF : data_off (fa f) <= length (fd f) \/ d = []).
  { unfold data_off. destruct (a_sep (fa f)) eqn:S; cbn [andb]; [|lia].
    destruct (a_lead (fa f)); [|lia]. destruct (fd f); [right|left; cbn; lia].
    destruct d; [reflexivity|cbn in HL; lia]. }
  rewrite !app_length, firstn_length, !skipn_length.
  destruct LF as [LF| ->].
  - rewrite skipn_app, skipn_all2 by (rewrite firstn_length; lia). rewrite firstn_length. cbn [app].
    replace (data_off (fa f) - Nat.min (data_off (fa f)) (length (fd f))) with 0 by lia. cbn [skipn].
    assert (X : Nat.min (data_off (fa f)) (length (fd f)) + (length d + (length (fd f) - (data_off (fa f) + length d))) -
      (if a_sep (fa f) then 1 else 0) = length d).
    { unfold data_off in *. destruct (a_sep (fa f)), (a_lead (fa f)); cbn [andb] in *; lia. }
    rewrite X. apply firstn_app_exact || (rewrite firstn_app, firstn_all, Nat.sub_diag; cbn [firstn]; apply app_nil_r).
  - cbn [length app] in *. rewrite Nat.add_0_r.
    match goal with |- ?X = [] => destruct X as [|z0 l0] eqn:E; auto end. exfalso.
    assert (L : length (z0 :: l0) <= 0); [|cbn in L; lia]. rewrite <- E, firstn_length, skipn_length, app_length, firstn_length, skipn_length.
    unfold data_off in *. destruct (a_sep (fa f)), (a_lead (fa f)); cbn [andb] in *; lia.
Qed.

Lemma put_digits_twice : forall f d, length d = length (data_digits f) ->
  put_digits (put_digits f d) d = put_digits f d.
Proof.
  intros f d HL. rewrite data_digits_length in HL. unfold data_size, f_size in HL.
  unfold put_digits, set_fd. cbn [fa fd]. f_equal.
  set (o := data_off (fa f)) in *.
  assert (LO : o <= length (fd f) \/ d = []).
  { unfold o, data_off. destruct (a_sep (fa f)) eqn:S; cbn [andb]; [|lia].
    destruct (a_lead (fa f)); [|lia]. destruct (fd f); [right|left; cbn; lia].
    destruct d; [reflexivity|cbn in *; lia]. }
  destruct LO as [LO|HE].
  - rewrite firstn_app, firstn_length, firstn_firstn.
    replace (Nat.min o o) with o by lia. replace (o - Nat.min o (length (fd f))) with 0 by lia.
    cbn [firstn]. rewrite app_nil_r. f_equal. f_equal.
    rewrite skipn_app, skipn_all2 by (rewrite firstn_length; lia). rewrite firstn_length. cbn [app].
    rewrite skipn_app, skipn_all2 by lia.
    replace (o + length d - Nat.min o (length (fd f)) - length d) with 0 by lia. reflexivity.
  - rewrite HE. cbn [app length]. rewrite Nat.add_0_r, !firstn_skipn. reflexivity.
Qed.

Lemma inspect_convert_spec : forall m a neg bytes text f1 f2 fig rs,
  subject (c_ebcdic m) a neg bytes text -> Forall region_ok rs -> table_ok f1 f2 fig ->
  exists s e, region_is text (map delim_of rs) (0, length text) (s, e) /\ s <= e <= length text /\
    let text' := firstn s text ++ map (convert_char (table_of f1 f2 fig)) (firstn (e - s) (skipn s text)) ++ skipn e text in
    exists g, inspect_convert m (mkField a bytes) f1 f2 fig rs = Ok g /\
    forall bytes', subject (c_ebcdic m) a neg bytes' text' -> g = mkField a bytes'.
Proof.
  intros m a neg bytes text f1 f2 fig rs HS HR HT. unfold inspect_convert.
  destruct (init_subject m a neg bytes text HS) as (I1 & I2 & I3).
  set (st := inspect_init m (mkField a bytes)) in *.
  assert (HM : length (i_marks st) = length (i_data st)) by (rewrite I1, I2; apply repeat_length).
  destruct (regions_spec rs (inspect_start st) (start_wf st HM) HR) as (s & e & R1 & R2 & R3 & R4).
  change (i_data (inspect_start st)) with (i_data st) in *.
  change (i_s (inspect_start st)) with 0 in R2. change (i_e (inspect_start st)) with (length (i_data st)) in R2.
  rewrite I1 in R2, R4. exists s, e. split; [exact R2|]. split; [lia|]. match goal with |- context [firstn s text ++ ?X] => set (text' := firstn s text ++ X) end.
  rewrite R1. cbn [obind]. unfold inspect_converting.
  change (i_e (set_region (inspect_start st) s e)) with e. change (i_s (set_region (inspect_start st) s e)) with s.
  change (i_marks (set_region (inspect_start st) s e)) with (i_marks st).
  change (i_data (set_region (inspect_start st) s e)) with (i_data st).
  change (i_f (set_region (inspect_start st) s e)) with (i_f st).
  change (i_sign (set_region (inspect_start st) s e)) with (i_sign st).
  assert (NB : (if fig then f_size f2 =? 0 else f_size f2 <? f_size f1) && (0 <? f_size f1) = false).
  { apply andb_false_iff. left. destruct fig; cbn [table_ok] in HT.
    - apply Nat.eqb_neq. unfold f_size. destruct (fd f2); [congruence|discriminate].
    - apply Nat.ltb_ge. exact HT. }
  rewrite NB. rewrite table_of_eq, I1, I2.
  assert (LR : length (firstn (e - s) (skipn s text)) = e - s) by (rewrite firstn_length, skipn_length; lia).
  assert (FR : firstn (e - s) (repeat (-1)%Z (length text)) = repeat (-1)%Z (e - s)).
  { replace (length text) with ((e - s) + (length text - (e - s))) by lia. rewrite repeat_app, firstn_app, repeat_length, Nat.sub_diag.
    cbn [firstn]. rewrite app_nil_r. rewrite <- (repeat_length (-1)%Z (e - s)) at 1. apply firstn_all. }
  rewrite FR, combine_repeat by (rewrite LR; lia). rewrite conv_region. cbn [obind].
  set (mid := map (convert_char (table_of f1 f2 fig)) (firstn (e - s) (skipn s text))) in *.
  assert (LM : length mid = e - s) by (unfold mid; rewrite map_length; exact LR).
  assert (WT : write_at text s mid = text').
  { unfold write_at, text'. rewrite LM. replace (s + (e - s)) with e by lia. reflexivity. }
  rewrite WT. eexists. split; [reflexivity|]. intros bytes' HS'.
  assert (LT : length text' = length text) by (rewrite <- WT; apply write_at_length; lia).
  assert (LD : length (data_digits (i_f st)) = length text) by (change (data_digits (i_f st)) with (i_data st); now rewrite I1).
  rewrite <- (I3 bytes' text' HS' LT). unfold inspect_finish.
  match goal with |- context [i_data ?x] => change (i_data x) with (data_digits (put_digits (i_f st) text')) end.
  cbn [i_f i_sign].
  rewrite put_digits_data by (rewrite LD; exact LT).
  rewrite put_digits_twice by (rewrite LD; exact LT). reflexivity.
Qed.
