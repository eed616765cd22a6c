(** MOVE of text (proof file). *)
From Coq Require Import QArith Qabs.
From Verif Require Import Base BaseFacts Field Sign Decimal SpecNum Numeric SpecStore NumFacts.
From Verif Require Import DispProofs DecProofs BinProofs PackedProofs StoreProofs.
From Verif Require Import Move Edited MoveAll MoveProofs MovePacked MoveBin MoveNum SpecMove.
Local Open Scope Z_scope.

(** ** Alphanumeric receivers *)

Lemma justified_eq : forall f1 f2,
  alphanum_to_alphanum f1 f2 =
  (f1, set_fd f2 (if a_just (fa f2) then right_justified (f_size f2) (fd f1)
                  else left_justified (f_size f2) (fd f1))).
Proof.
  intros. unfold alphanum_to_alphanum. f_equal. f_equal.
  unfold right_justified, left_justified, padded, f_size.
  set (n := length (fd f2)). set (l := fd f1).
  destruct (Nat.leb_spec n (length l)).
  - assert (E : forall k, firstn n (l ++ repeat 32 k) = firstn n l).
    { intros. rewrite firstn_app. replace (n - length l)%nat with 0%nat by lia. cbn [firstn]. apply app_nil_r. }
    destruct (a_just (fa f2)).
    + rewrite rev_length. replace (n - length l)%nat with 0%nat by lia. cbn [repeat]. rewrite app_nil_r.
      rewrite firstn_rev, rev_involutive. rewrite firstn_all2; [reflexivity|]. rewrite skipn_length. lia.
    + rewrite E. reflexivity.
  - destruct (a_just (fa f2)).
    + rewrite rev_length. rewrite firstn_all2 by (rewrite app_length, rev_length, repeat_length; lia).
      rewrite rev_app_distr, rev_involutive. f_equal.
      unfold c_sp. clear. induction (n - length l)%nat; auto.
      cbn [repeat rev]. rewrite <- IHn0 at 1. clear. induction n0; auto. cbn [repeat app]. now rewrite <- IHn0.
    + rewrite firstn_all2 by (rewrite app_length, repeat_length; lia). reflexivity.
Qed.

(** ** Text to number *)

Definition digs (l : list Z) : list Z := filter is_digitb l.

Lemma text_digits_digs : forall l, text_digits l = map (fun c => c - 48) (digs l).
Proof. reflexivity. Qed.
Lemma digs_digits : forall l, digits_ok (digs l).
Proof.
  intros. apply Forall_forall. intros x H. apply filter_In in H. now apply is_digitb_spec.
Qed.
Lemma digs_text : forall l, digs l = map digit_char (text_digits l).
Proof.
  intros. rewrite text_digits_digs, map_map. rewrite <- (map_id (digs l)) at 1. apply map_ext.
  intros. unfold digit_char. lia.
Qed.
Lemma text_digits_dig : forall l, Forall is_dig (text_digits l).
Proof.
  intros. rewrite text_digits_digs. apply Forall_map. eapply Forall_impl; [|apply digs_digits].
  intros a H. unfold is_digit, is_dig in *. lia.
Qed.
Lemma digs_app : forall a b, digs (a ++ b) = digs a ++ digs b.
Proof. intros. apply filter_app. Qed.
Lemma text_digits_app : forall a b, text_digits (a ++ b) = text_digits a ++ text_digits b.
Proof. intros. rewrite !text_digits_digs, digs_app, map_app. reflexivity. Qed.

Lemma white_space : forall c, white c <-> is_space c = true.
Proof. intros. unfold white, is_space. lia. Qed.
Lemma white_not_digit : forall c, white c -> is_digitb c = false.
Proof. intros c H. unfold white in H. unfold is_digitb. lia. Qed.

Section Text.
Variable m : cfg.
Hypothesis HM : point_cfg m.

Lemma dp_not_digit : is_digitb (c_decpoint m) = false.
Proof. unfold is_digitb. destruct HM as [[-> _]|[-> _]]; reflexivity. Qed.

Lemma plain_char : forall c, is_digit c \/ white c \/ c = c_numsep m ->
  (c =? c_decpoint m) = false /\ (is_digitb c = true \/ (is_digitb c = false /\ is_space c || (c =? c_numsep m) = true)) /\
  c <> 43 /\ c <> 45.
Proof.
  intros c H. unfold is_digit, white, is_digitb, is_space in *.
  destruct HM as [[E1 E2]|[E1 E2]]; rewrite E1, E2 in *; clear E1 E2 HM; (split; [lia|split; [|lia]]);
  destruct ((48 <=? c) && (c <=? 57)) eqn:E; try (left; reflexivity); right; split; auto; lia.
Qed.

Lemma count_plain : forall l r, digit_text m l ->
  count_int_digits m (l ++ r) = Z.of_nat (length (digs l)) + count_int_digits m r.
Proof.
  induction l as [|c l IH]; intros r H; [cbn [app digs filter length]; lia|].
  inversion H as [|? ? H1 H2]; subst. destruct (plain_char c H1) as (P1 & P2 & _).
  cbn [app count_int_digits]. rewrite P1, IH by auto. unfold digs. cbn [filter].
  destruct (is_digitb c); cbn [length]; lia.
Qed.

Lemma move_plain : forall l r room pts, digit_text m l -> 0 <= room ->
  move_digits m (l ++ r) room pts =
  option_map (app (firstn (Z.to_nat room) (digs l)))
    (if Z.of_nat (length (digs l)) <? room then move_digits m r (room - Z.of_nat (length (digs l))) pts
     else Some []).
Proof.
  induction l as [|c l IH]; intros r room pts H HR.
  - cbn [app digs filter length]. rewrite firstn_nil. change (Z.of_nat 0) with 0. rewrite Z.sub_0_r.
    destruct (Z.ltb_spec 0 room).
    + destruct (move_digits m r room pts); reflexivity.
    + replace room with 0 by lia. destruct r; reflexivity.
  - inversion H as [|? ? H1 H2]; subst. destruct (plain_char c H1) as (P1 & P2 & _).
    cbn [app move_digits]. destruct (Z.leb_spec room 0).
    + replace room with 0 by lia. change (Z.to_nat 0) with 0%nat. cbn [firstn].
      destruct (Z.ltb_spec (Z.of_nat (length (digs (c :: l)))) 0); [lia|reflexivity].
    + unfold digs. cbn [filter]. destruct (is_digitb c) eqn:D.
      * fold (digs l). rewrite IH by (auto; lia). cbn [length].
        replace (Z.to_nat room) with (S (Z.to_nat (room - 1))) by lia. cbn [firstn].
        replace (room - Z.of_nat (S (length (digs l)))) with (room - 1 - Z.of_nat (length (digs l))) by lia.
        destruct (Z.ltb_spec (Z.of_nat (length (digs l))) (room - 1));
          destruct (Z.ltb_spec (Z.of_nat (S (length (digs l)))) room); try lia.
        -- destruct (move_digits m r _ pts); reflexivity.
        -- reflexivity.
      * destruct P2 as [P2|[_ P2]]; [congruence|]. rewrite P1, P2. fold (digs l). rewrite IH by (auto; lia). reflexivity.
Qed.

Lemma move_plain_end : forall l room pts, digit_text m l ->
  move_digits m l room pts = Some (firstn (Z.to_nat room) (digs l)).
Proof.
  intros l room pts H. destruct (Z.leb_spec 0 room).
  - rewrite <- (app_nil_r l) at 1. rewrite move_plain by auto.
    destruct (_ <? _); cbn [move_digits option_map]; now rewrite app_nil_r.
  - replace (Z.to_nat room) with 0%nat by lia. cbn [firstn]. destruct l; auto.
    cbn [move_digits]. destruct (Z.leb_spec room 0); [reflexivity|lia].
Qed.

(** A body: digits, optionally a point and more digits. *)
Inductive body : list Z -> list Z -> list Z -> Prop :=
| body_int : forall ip, digit_text m ip -> body ip ip (@nil Z)
| body_frac : forall ip fp, digit_text m ip -> digit_text m fp ->
    body (ip ++ [c_decpoint m] ++ fp) ip fp.

Lemma body_digs : forall b ip fp, body b ip fp -> digs b = digs ip ++ digs fp.
Proof.
  intros b ip fp H. inversion H; subst.
  - cbn [digs filter]. now rewrite app_nil_r.
  - rewrite digs_app. f_equal. unfold digs. cbn [app filter]. rewrite dp_not_digit. reflexivity.
Qed.

Lemma body_count : forall b ip fp, body b ip fp -> count_int_digits m b = Z.of_nat (length (digs ip)).
Proof.
  intros b ip fp H. inversion H; subst.
  - rewrite <- (app_nil_r ip) at 1. rewrite count_plain by auto. cbn [count_int_digits]. lia.
  - rewrite count_plain by auto. cbn [app count_int_digits]. rewrite Z.eqb_refl. lia.
Qed.

Lemma body_move : forall b ip fp room, body b ip fp ->
  move_digits m b room 0 = Some (firstn (Z.to_nat room) (digs b)).
Proof.
  intros b ip fp room H. rewrite (body_digs b ip fp H). inversion H; subst.
  - cbn [digs filter]. rewrite app_nil_r. now apply move_plain_end.
  - destruct (Z.leb_spec 0 room).
    2:{ replace (Z.to_nat room) with 0%nat by lia. cbn [firstn].
        destruct (ip ++ [c_decpoint m] ++ fp) as [|x r]; auto. cbn [move_digits].
        destruct (Z.leb_spec room 0); [reflexivity|lia]. }
    rewrite move_plain by auto. rewrite firstn_app.
    destruct (Z.ltb_spec (Z.of_nat (length (digs ip))) room).
    + cbn [app move_digits].
      destruct (Z.leb_spec (room - Z.of_nat (length (digs ip))) 0); [lia|].
      rewrite dp_not_digit, Z.eqb_refl. change (0 <? 0) with false. cbv iota.
      rewrite move_plain_end by auto. cbn [option_map]. do 2 f_equal. f_equal. lia.
    + replace (Z.to_nat room - length (digs ip))%nat with 0%nat by lia. reflexivity.
Qed.

(** Skipping digits keeps the rest of the digits, and the shape. *)
Lemma skip_digit_spec : forall l, digs l <> [] -> exists p c r, l = p ++ c :: r /\ digs p = [] /\
  is_digitb c = true /\ skip_digit l = Ok r.
Proof.
  induction l as [|c l IH]; intros H; [now elim H|]. unfold digs in H. cbn [filter] in H.
  cbn [skip_digit]. destruct (is_digitb c) eqn:D.
  - exists [], c, l. auto.
  - destruct (IH H) as (p & c' & r & E1 & E2 & E3 & E4). exists (c :: p), c', r. subst l.
    split; [reflexivity|]. split; [unfold digs; cbn [filter]; now rewrite D|]. auto.
Qed.

Definition shape (b : list Z) : Prop := digit_text m b \/ exists ip fp, body b ip fp.

Lemma shape_suffix : forall p c r, is_digitb c = true -> shape (p ++ c :: r) -> shape r.
Proof.
  intros p c r Hc [H|(ip & fp & H)].
  - left. apply Forall_app in H. destruct H as [_ H]. now inversion H.
  - inversion H as [ip' HI|ip' fp' HI HF]; subst.
    + left. apply Forall_app in HI. destruct HI as [_ HI]. now inversion HI.
    + clear H. revert ip HI H0. induction p as [|x p IH]; intros ip HI E.
      * destruct ip as [|y ip]; cbn [app] in E; injection E as E1 E2; subst.
        -- rewrite dp_not_digit in Hc. discriminate.
        -- right. exists ip, fp. inversion HI; subst. now constructor.
      * destruct ip as [|y ip]; cbn [app] in E; injection E as E1 E2; subst.
        -- left. rewrite E2 in HF || idtac. apply Forall_app in HF. destruct HF as [_ HF]. now inversion HF.
        -- inversion HI; subst. now apply (IH ip).
Qed.

Lemma skip_n_spec : forall n b, (n <= length (digs b))%nat -> shape b ->
  exists b', skip_n_digits n b = Ok b' /\ digs b' = skipn n (digs b) /\ shape b'.
Proof.
  induction n as [|n IH]; intros b HL HB.
  - exists b. auto.
  - destruct (digs b) as [|d0 dr] eqn:E; [cbn [length] in HL; lia|].
    destruct (skip_digit_spec b) as (p & c & r & E1 & E2 & E3 & E4); [congruence|].
    cbn [skip_n_digits]. rewrite E4. cbn [obind].
    assert (ER : digs r = dr).
    { rewrite E1, digs_app, E2 in E. unfold digs in E at 1. cbn [app filter] in E. rewrite E3 in E.
      fold (digs r) in E. congruence. }
    cbn [length] in HL.
    destruct (IH r) as (b' & F1 & F2 & F3).
    { rewrite ER. lia. }
    { apply (shape_suffix p c r); auto. now rewrite <- E1. }
    exists b'. split; auto. split; auto. cbn [skipn]. now rewrite F2, ER.
Qed.

Lemma shape_move : forall b room, shape b -> move_digits m b room 0 = Some (firstn (Z.to_nat room) (digs b)).
Proof.
  intros b room [H|(ip & fp & H)]; [now apply move_plain_end|eapply body_move; eauto].
Qed.

(** Leading blanks. *)
Lemma skip_spaces_white : forall ws l, Forall white ws -> skip_spaces (ws ++ l) = skip_spaces l.
Proof.
  induction ws as [|c ws IH]; intros l H; auto. inversion H as [|? ? H1 H2]; subst.
  cbn [app skip_spaces]. apply white_space in H1. rewrite H1. auto.
Qed.

Lemma skip_spaces_body : forall b ip fp, body b ip fp -> exists ip', body (skip_spaces b) ip' fp /\
  digs ip' = digs ip /\ (forall c r, skip_spaces b = c :: r -> c <> 43 /\ c <> 45).
Proof.
  intros b ip fp H.
  assert (DPS : is_space (c_decpoint m) = false /\ c_decpoint m <> 43 /\ c_decpoint m <> 45).
  { unfold is_space. destruct HM as [[-> _]|[-> _]]; split; auto; lia. }
  destruct DPS as (DPS & DP1 & DP2).
  assert (K : forall ip r, digit_text m ip -> exists ip', (skip_spaces (ip ++ r) = ip' ++ r \/
      (ip' = [] /\ skip_spaces (ip ++ r) = skip_spaces r)) /\ digit_text m ip' /\ digs ip' = digs ip /\
      (forall c t, ip' = c :: t -> c <> 43 /\ c <> 45)).
  { clear - HM. induction ip as [|c ip IH]; intros r HI.
    - exists []. cbn [app]. split; [right; auto|]. split; auto. split; auto. discriminate.
    - inversion HI as [|? ? H1 H2]; subst. cbn [app skip_spaces]. destruct (is_space c) eqn:SC.
      + destruct (IH r H2) as (ip' & A & B & C & D). exists ip'. split; auto. split; auto. split; auto.
        rewrite C. unfold digs. cbn [filter]. apply white_space in SC. now rewrite white_not_digit.
      + exists (c :: ip). split; [left; reflexivity|]. split; auto. split; auto.
        intros c' t E. injection E as <- <-. now apply plain_char. }
  inversion H as [ip0 HI|ip0 fp0 HI HF]; subst.
  - destruct (K ip [] HI) as (ip' & A & B & C & D). rewrite app_nil_r in A.
    exists ip'. assert (E : skip_spaces ip = ip').
    { destruct A as [A|[A1 A2]]; [now rewrite app_nil_r in A|]. rewrite A2, A1. reflexivity. }
    rewrite E. split; [now constructor|]. split; [auto|intros c r EC; eapply D; eauto].
  - destruct (K ip ([c_decpoint m] ++ fp) HI) as (ip' & A & B & C & D).
    exists ip'. assert (E : skip_spaces (ip ++ [c_decpoint m] ++ fp) = ip' ++ [c_decpoint m] ++ fp).
    { destruct A as [A|[A1 A2]]; [auto|]. rewrite A2, A1. cbn [app skip_spaces]. rewrite DPS. reflexivity. }
    rewrite E. split; [now constructor|]. split; auto.
    intros c r EC. destruct ip' as [|y ip']; cbn [app] in EC; injection EC as EC _.
    + subst c. auto.
    + subst c. eapply D. reflexivity.
Qed.

End Text.

Lemma region_text : forall m f2 k zero ip fp b start room,
  wf_display f2 k -> zero = set_fd f2 (repeat c_0 (f_size f2)) ->
  let c := Z.of_nat (length (text_digits ip)) in
  let F := Z.of_nat (length (text_digits fp)) in
  let size := Z.of_nat k - a_scale (fa f2) in
  - size <= F ->
  start = Z.max 0 (size - c) -> room = Z.of_nat k - start ->
  digs b = skipn (Z.to_nat (c - size)) (digs ip ++ digs fp) ->
  forall s v neg, v = signed_value neg (text_digits ip ++ text_digits fp) -> (s <? 0) = neg ->
  let d := if Z.of_nat k <=? start then repeat c_0 k
           else firstn k (repeat c_0 (Z.to_nat start) ++ firstn (Z.to_nat room) (digs b) ++ repeat c_0 k) in
  let f2' := put_sign m (put_digits zero d) s in
  denotes (c_ebcdic m) f2' (held f2 (low_part k (aligns v F (a_scale (fa f2))))) /\
  fa f2' = fa f2 /\ f_size f2' = f_size f2.
Proof.
  intros m f2 k zero ip fp b start room W -> c F size HF Hst Hroom Hb s v neg Hv Hs d.
  set (zero := set_fd f2 (repeat c_0 (f_size f2))).
  assert (WZ : wf_display zero k).
  { destruct W as (A & B & C & D). subst zero. unfold wf_display. cbn [set_fd fa fd]. rewrite repeat_length.
    unfold f_size. auto. }
  set (ds := text_digits ip ++ text_digits fp).
  assert (Hd : Forall is_dig ds) by (apply Forall_app; split; apply text_digits_dig).
  pose proof (region_digits ds k F (a_scale (fa f2)) (length ds) Hd eq_refl) as R. cbv zeta in R.
  assert (ED : d = map digit_char (low_digits k (alignz (digits_value ds) F (a_scale (fa f2))))).
  { rewrite <- R. clear R. subst d. rewrite Hb, !digs_text, <- map_app. fold ds.
    assert (LD : Z.of_nat (length ds) = c + F) by (subst ds c F; rewrite app_length; lia).
    set (hf1 := Z.of_nat (length ds) - F). set (hf2 := Z.of_nat k - a_scale (fa f2)).
    set (gcf := Z.min hf1 hf2). set (lcf := Z.max (- F) (- a_scale (fa f2))).
    assert (HC : hf1 = c) by (subst hf1; lia). assert (HS : hf2 = size) by reflexivity.
    rewrite skipn_map, firstn_map.
    destruct (Z.leb_spec (Z.of_nat k) start) as [L|L].
    - destruct (Z.ltb_spec lcf gcf); [|now rewrite map_repeat_digit].
      subst lcf gcf. lia.
    - assert (LS : (length (skipn (Z.to_nat (c - size)) ds) = Z.to_nat (c + F - Z.max 0 (c - size)))%nat).
      { rewrite skipn_length. lia. }
      destruct (Z.ltb_spec lcf gcf) as [L2|L2].
      + rewrite !map_app, !map_repeat_digit.
        replace (Z.to_nat (hf2 - gcf)) with (Z.to_nat start) by (subst gcf; lia).
        replace (Z.to_nat (hf1 - gcf)) with (Z.to_nat (c - size)) by (subst gcf; lia).
        set (X := skipn (Z.to_nat (c - size)) ds) in *.
        assert (FX : firstn (Z.to_nat room) X = firstn (Z.to_nat (gcf - lcf)) X).
        { destruct (Z.leb_spec F (a_scale (fa f2))).
          - rewrite !firstn_all2; auto; rewrite LS; subst gcf lcf; lia.
          - f_equal. subst gcf lcf. lia. }
        rewrite FX. set (Y := firstn (Z.to_nat (gcf - lcf)) X).
        assert (LY : length Y = Z.to_nat (gcf - lcf)).
        { subst Y. rewrite firstn_length_le; auto. rewrite LS. subst gcf lcf. lia. }
        rewrite firstn_app, firstn_all2 by (rewrite repeat_length; lia).
        rewrite repeat_length. f_equal. rewrite firstn_app, map_length, LY.
        rewrite firstn_all2 by (rewrite map_length, LY; subst gcf lcf; lia). f_equal.
        set (q := (k - Z.to_nat start - Z.to_nat (gcf - lcf))%nat).
        replace (repeat c_0 k) with (repeat c_0 q ++ repeat c_0 (k - q)) by (rewrite <- repeat_app; f_equal; subst q; lia).
        rewrite firstn_app, firstn_all2 by (rewrite repeat_length; lia).
        rewrite repeat_length, Nat.sub_diag. cbn [firstn]. apply app_nil_r.
      + assert (FX : firstn (Z.to_nat room) (skipn (Z.to_nat (c - size)) ds) = []).
        { apply length_zero_iff_nil. rewrite firstn_length, LS. subst gcf lcf. lia. }
        rewrite FX. cbn [map app]. rewrite map_repeat_digit, <- repeat_app.
        replace (Z.to_nat start + k)%nat with (k + Z.to_nat start)%nat by lia. rewrite repeat_app, firstn_app.
        rewrite firstn_all2 by (rewrite repeat_length; lia). rewrite repeat_length, Nat.sub_diag. cbn [firstn]. apply app_nil_r. }
  pose proof (store_region_denotes m zero k ds F v s neg WZ Hd Hv (fun _ => Hs)) as SR. cbv zeta in SR.
  rewrite (store_common_region_spec zero k ds F (wf_display_data_size _ _ WZ) Hd) in SR.
  change (a_scale (fa zero)) with (a_scale (fa f2)) in SR. rewrite <- ED in SR.
  destruct SR as (_ & S1 & S2 & S3). cbv zeta. split; [exact S1|]. split; [exact S2|].
  rewrite S3. subst zero. unfold f_size. cbn [set_fd fd]. apply repeat_length.
Qed.

Theorem alphanum_to_display_spec : forall m f1 f2 k v F,
  point_cfg m -> number_text m (fd f1) v F -> wf_display f2 k ->
  a_scale (fa f2) - Z.of_nat k <= F ->
  exists f2', alphanum_to_display m f1 f2 = Ok (f1, f2') /\
    denotes (c_ebcdic m) f2' (held f2 (low_part k (aligns v F (a_scale (fa f2))))) /\
    fa f2' = fa f2 /\ f_size f2' = f_size f2.
Proof.
  intros m f1 f2 k v F HM HT W HF.
  assert (PARSE : exists b ip fp neg s,
    (match skip_spaces (fd f1) with
     | c :: r => if c =? c_plus then (1, r) else if c =? c_minus then (-1, r) else (0, skip_spaces (fd f1))
     | [] => (0, skip_spaces (fd f1)) end) = (s, b) /\
    body m b ip fp /\ v = signed_value neg (text_digits ip ++ text_digits fp) /\ (s <? 0) = neg /\
    F = Z.of_nat (length (text_digits fp))).
  { assert (GO : forall ws sg b ip fp neg, Forall white ws ->
       (sg = [] /\ neg = false \/ sg = [43] /\ neg = false \/ sg = [45] /\ neg = true) ->
       body m b ip fp -> fd f1 = ws ++ sg ++ b -> v = signed_value neg (text_digits ip ++ text_digits fp) ->
       F = Z.of_nat (length (text_digits fp)) ->
       exists b ip fp neg s,
    (match skip_spaces (fd f1) with
     | c :: r => if c =? c_plus then (1, r) else if c =? c_minus then (-1, r) else (0, skip_spaces (fd f1))
     | [] => (0, skip_spaces (fd f1)) end) = (s, b) /\
    body m b ip fp /\ v = signed_value neg (text_digits ip ++ text_digits fp) /\ (s <? 0) = neg /\
    F = Z.of_nat (length (text_digits fp))).
    { intros ws sg b ip fp neg Hws Hsg Hbody E Ev EF. rewrite E, skip_spaces_white by auto.
      destruct Hsg as [[-> ->]|[[-> ->]|[-> ->]]].
      - cbn [app]. destruct (skip_spaces_body m HM b ip fp Hbody) as (ip' & A & B & C).
        exists (skip_spaces b), ip', fp, false, 0.
        split; [|split; [auto|split; [|split; auto]]].
        + destruct (skip_spaces b) as [|c r] eqn:Q; auto. destruct (C c r eq_refl) as (C1 & C2).
          unfold c_plus, c_minus. destruct (Z.eqb_spec c 43); [lia|]. destruct (Z.eqb_spec c 45); [lia|reflexivity].
        + rewrite Ev. f_equal. f_equal. rewrite !text_digits_digs. now rewrite B.
      - exists b, ip, fp, false, 1. cbn [app skip_spaces]. change (is_space 43) with false. cbv iota.
        change (43 =? c_plus) with true. cbv iota. auto 10.
      - exists b, ip, fp, true, (-1). cbn [app skip_spaces]. change (is_space 45) with false. cbv iota.
        change (45 =? c_plus) with false. change (45 =? c_minus) with true. cbv iota. auto 10. }
    revert GO. set (t := fd f1) in *. clearbody t. clear HF. intros GO.
    destruct HT as [ws sg ip neg Hws Hsg HI|ws sg ip fp neg Hws Hsg HI HFP].
    - apply (GO ws sg ip ip (@nil Z) neg); auto.
      + now constructor.
      + change (text_digits []) with (@nil Z). now rewrite app_nil_r.
    - apply (GO ws sg (ip ++ [c_decpoint m] ++ fp) ip fp neg); auto. now constructor. }
  destruct PARSE as (b & ip & fp & neg & s & EP & HB & Hv & Hs & EF).
  unfold alphanum_to_display. rewrite EP.
  rewrite (wf_display_data_size _ _ W), (body_count m HM b ip fp HB).
  set (size := Z.of_nat k - a_scale (fa f2)).
  assert (LI : length (digs ip) = length (text_digits ip)) by (rewrite digs_text; apply map_length).
  assert (LF : length (digs fp) = length (text_digits fp)) by (rewrite digs_text; apply map_length).
  rewrite LI. set (c := Z.of_nat (length (text_digits ip))).
  assert (SK : exists b', (if c <? size then Ok b else skip_n_digits (Z.to_nat (c - size)) b) = Ok b' /\
     digs b' = skipn (Z.to_nat (c - size)) (digs ip ++ digs fp) /\ shape m b').
  { rewrite <- (body_digs m HM b ip fp HB). destruct (Z.ltb_spec c size).
    - exists b. replace (Z.to_nat (c - size)) with 0%nat by lia. split; auto. split; auto. right. eauto.
    - apply skip_n_spec; auto.
      + rewrite (body_digs m HM b ip fp HB), app_length, LI, LF. subst c size. lia.
      + right; eauto. }
  destruct SK as (b' & E1 & E2 & E3). rewrite E1. cbn [obind].
  set (start := if c <? size then size - c else 0).
  assert (EST : start = Z.max 0 (size - c)) by (subst start; destruct (Z.ltb_spec c size); lia).
  rewrite (shape_move m HM b' _ E3).
  pose proof (region_text m f2 k _ ip fp b' start (Z.of_nat k - start) W eq_refl) as RT. cbv zeta in RT.
  destruct (RT ltac:(subst F; lia) EST eq_refl E2 s v neg Hv Hs) as (R1 & R2 & R3).
  eexists. split; [reflexivity|]. rewrite EF. split; [exact R1|]. split; [exact R2|exact R3].
Qed.


(** ** Text that is not a number *)

Section Garbage.
Variable m : cfg.
Hypothesis HM : point_cfg m.

Lemma skip_plain : forall n ip t, (n <= length (digs ip))%nat -> digit_text m ip ->
  exists ip', skip_n_digits n (ip ++ t) = Ok (ip' ++ t) /\ digs ip' = skipn n (digs ip) /\ digit_text m ip'.
Proof.
  induction n as [|n IH]; intros ip t HL HI.
  - exists ip. auto.
  - destruct (digs ip) as [|d0 dr] eqn:E; [cbn [length] in HL; lia|].
    assert (K : exists r, skip_digit (ip ++ t) = Ok (r ++ t) /\ digs r = dr /\ digit_text m r).
    { clear IH HL. revert E HI. induction ip as [|c ip IH]; intros E HI; [discriminate|].
      inversion HI as [|? ? H1 H2]; subst. unfold digs in E. cbn [filter] in E. cbn [app skip_digit].
      destruct (is_digitb c) eqn:D.
      - exists ip. injection E as E1 E2. auto.
      - apply IH; auto. }
    destruct K as (r & K1 & K2 & K3). cbn [skip_n_digits]. rewrite K1. cbn [obind].
    cbn [length] in HL. destruct (IH r t) as (ip' & A & B & C); [rewrite K2; lia|auto|].
    exists ip'. rewrite A, B, K2. auto.
Qed.

Lemma count_before : forall l, count_int_digits m l = Z.of_nat (length (text_digits (before_point m l))).
Proof.
  induction l as [|c l IH]; [reflexivity|]. cbn [count_int_digits before_point].
  destruct (c =? c_decpoint m) eqn:E; [reflexivity|]. rewrite IH. rewrite !text_digits_digs, !map_length.
  unfold digs. cbn [filter]. destruct (is_digitb c); cbn [length]; lia.
Qed.

Lemma move_foreign : forall x r room pts, ~ (is_digit x \/ white x \/ x = c_numsep m) ->
  (x = c_decpoint m -> 0 < pts) -> 0 < room -> move_digits m (x :: r) room pts = None.
Proof.
  intros x r room pts H1 H2 H3. cbn [move_digits]. destruct (Z.leb_spec room 0); [lia|].
  destruct (is_digitb x) eqn:D. { elim H1. left. now apply is_digitb_spec. }
  destruct (Z.eqb_spec x (c_decpoint m)) as [E|E].
  - destruct (Z.ltb_spec 0 pts); [reflexivity|specialize (H2 E); lia].
  - destruct (is_space x) eqn:S. { elim H1. right. left. now apply white_space. }
    destruct (Z.eqb_spec x (c_numsep m)). { elim H1. auto. } reflexivity.
Qed.

Lemma dp_not_plain : forall l, digit_text m l -> ~ In (c_decpoint m) l.
Proof.
  intros l H I. pose proof (proj1 (Forall_forall _ _) H _ I) as K. cbv beta in K.
  destruct (plain_char m HM _ K) as (A & _). rewrite Z.eqb_refl in A. discriminate.
Qed.

(** Skipping leading blanks in front of something that starts with a non-blank. *)
Lemma skip_spaces_lead : forall p t, (forall c u, t = c :: u -> is_space c = false) -> t <> [] ->
  exists ws p', p = ws ++ p' /\ Forall white ws /\ skip_spaces (p ++ t) = p' ++ t /\
    (forall c u, p' = c :: u -> is_space c = false).
Proof.
  induction p as [|c p IH]; intros t Ht Hn.
  - exists [], []. cbn [app]. split; auto. split; auto. split; [|discriminate].
    destruct t as [|c u]; [congruence|]. cbn [skip_spaces]. now rewrite (Ht c u eq_refl).
  - cbn [app skip_spaces]. destruct (is_space c) eqn:S.
    + destruct (IH t Ht Hn) as (ws & p' & A & B & C & D). exists (c :: ws), p'. rewrite A at 1.
      split; [reflexivity|]. split; [constructor; auto; now apply white_space|]. auto.
    + exists [], (c :: p). split; auto. split; auto. split; auto. intros c' u E. injection E as <- <-. auto.
Qed.

Lemma zero_stored : forall f2 k, wf_display f2 k ->
  let z := put_sign m (set_fd f2 (repeat c_0 (f_size f2))) 0 in
  denotes (c_ebcdic m) z 0 /\ fa z = fa f2 /\ f_size z = f_size f2.
Proof.
  intros f2 k W z.
  assert (WZ : put_digits (set_fd f2 (repeat c_0 (f_size f2))) (repeat c_0 k) = set_fd f2 (repeat c_0 (f_size f2))).
  { unfold put_digits, set_fd. cbn [fa fd]. f_equal. rewrite repeat_length.
    destruct W as (A & B & C & D). unfold f_size. rewrite D.
    set (n := (k + (if a_sep (fa f2) then 1 else 0))%nat).
    assert (data_off (fa f2) + k <= n)%nat.
    { subst n. unfold data_off. destruct (a_sep (fa f2)), (a_lead (fa f2)); cbn [andb]; lia. }
    set (o := data_off (fa f2)) in *.
    replace n with (o + (k + (n - (o + k))))%nat at 3 by lia. rewrite !repeat_app. 
    replace n with (o + (n - o))%nat at 1 by lia. rewrite repeat_app, firstn_app, firstn_all2 by (rewrite repeat_length; lia).
    rewrite repeat_length, Nat.sub_diag. cbn [firstn]. rewrite app_nil_r. f_equal. f_equal.
    replace n with ((o + k) + (n - (o + k)))%nat at 1 by lia. rewrite repeat_app, skipn_app, repeat_length, Nat.sub_diag.
    rewrite skipn_all2 by (rewrite repeat_length; lia). reflexivity. }
  subst z. rewrite <- WZ.
  destruct W as (A & B & C & D).
  pose proof (put_sign_any m (set_fd f2 (repeat c_0 (f_size f2))) (repeat 0 k) 0) as P.
  cbn [set_fd fa fd] in P. rewrite map_repeat_digit in P.
  assert (HD : Forall is_dig (repeat 0 k)).
  { apply Forall_forall. intros x I. apply repeat_spec in I. subst. unfold is_dig. lia. }
  assert (HN : repeat 0 k <> []) by (destruct k; [lia|discriminate]).
  fold (set_fd f2 (repeat c_0 (f_size f2))) in P. unfold set_fd in P |- *. 
  rewrite P; auto.
  2:{ rewrite !repeat_length. exact D. }
  change (0 <? 0) with false.
  assert (V : 0 = signed_value false (repeat 0 k)).
  { unfold signed_value. clear. unfold digits_value. generalize k. induction k0; auto. }
  split.
  - pose proof (den_display (c_ebcdic m) (fa f2) false (repeat 0 k)) as DD. rewrite <- V in DD. apply DD; auto.
  - split; [reflexivity|]. unfold f_size. cbn [fd]. rewrite zoned_length by auto. rewrite repeat_length. now rewrite D.
Qed.

Theorem alphanum_to_display_garbage : forall f1 f2 k ws sg p x r,
  fd f1 = ws ++ sg ++ p ++ x :: r -> Forall white ws -> (sg = [] \/ sg = [43] \/ sg = [45]) ->
  (digit_text m p \/ exists ip fp, p = ip ++ c_decpoint m :: fp /\ digit_text m ip /\ digit_text m fp) ->
  foreign m sg p x ->
  wf_display f2 k -> a_scale (fa f2) <= Z.of_nat k ->
  let c := Z.of_nat (length (text_digits (before_point m (p ++ x :: r)))) in
  let d := Z.of_nat (length (text_digits p)) in
  c - (Z.of_nat k - a_scale (fa f2)) <= d < c + a_scale (fa f2) ->
  exists f2', alphanum_to_display m f1 f2 = Ok (f1, f2') /\ denotes (c_ebcdic m) f2' 0 /\
    fa f2' = fa f2 /\ f_size f2' = f_size f2.
Proof.
  intros f1 f2 k ws sg p x r E Hws Hsg Hp Hx W HS c d HD.
  destruct (zero_stored f2 k W) as (Z1 & Z2 & Z3).
  exists (put_sign m (set_fd f2 (repeat c_0 (f_size f2))) 0). split; [|auto].
  destruct Hx as (X1 & X2 & X3).
  assert (XS : is_space x = false).
  { destruct (is_space x) eqn:S; auto. elim X1. right; left. now apply white_space. }
  (* parsing of blanks and sign *)
  assert (PARSE : exists s p',
    (match skip_spaces (fd f1) with
     | c :: r => if c =? c_plus then (1, r) else if c =? c_minus then (-1, r) else (0, skip_spaces (fd f1))
     | [] => (0, skip_spaces (fd f1)) end) = (s, p' ++ x :: r) /\ digs p' = digs p /\
    (In (c_decpoint m) p -> In (c_decpoint m) p') /\
    text_digits (before_point m (p' ++ x :: r)) = text_digits (before_point m (p ++ x :: r)) /\
    (digit_text m p' \/ exists ip fp, p' = ip ++ c_decpoint m :: fp /\ digit_text m ip /\ digit_text m fp)).
  { rewrite E, skip_spaces_white by auto. destruct Hsg as [-> | [-> | ->]].
    - cbn [app].
      destruct (skip_spaces_lead p (x :: r)) as (w2 & p' & A & B & C & D).
      { intros c0 u EE. injection EE as <- <-. auto. } { discriminate. }
      assert (DW : digs w2 = []).
      { clear - B. induction B; auto. unfold digs. cbn [filter]. rewrite (white_not_digit _ H). auto. }
      assert (DPW : is_space (c_decpoint m) = false) by (destruct HM as [[-> _]|[-> _]]; reflexivity).
      exists 0, p'. rewrite C. split.
      { destruct p' as [|c0 u].
        - cbn [app]. rewrite app_nil_r in A. subst p.
          unfold c_plus, c_minus. destruct (Z.eqb_spec x 43).
          { destruct X3 as [X3|X3]; auto; [congruence|]. elim X3. rewrite text_digits_digs, DW. reflexivity. }
          destruct (Z.eqb_spec x 45); auto.
          { destruct X3 as [X3|X3]; auto; [congruence|]. elim X3. rewrite text_digits_digs, DW. reflexivity. }
        - cbn [app]. assert (NS : c0 <> 43 /\ c0 <> 45).
          { assert (I : In c0 p) by (rewrite A; apply in_or_app; right; left; reflexivity).
            assert (DPN : c_decpoint m <> 43 /\ c_decpoint m <> 45) by (destruct HM as [[-> _]|[-> _]]; lia).
            assert (PL : is_digit c0 \/ white c0 \/ c0 = c_numsep m \/ c0 = c_decpoint m).
            { destruct Hp as [Hp|(ip & fp & Ep & H1 & H2)].
              - pose proof (proj1 (Forall_forall _ _) Hp _ I). cbv beta in H. tauto.
              - rewrite Ep in I. apply in_app_or in I. destruct I as [I|[I|I]]; auto.
                + pose proof (proj1 (Forall_forall _ _) H1 _ I). cbv beta in H. tauto.
                + pose proof (proj1 (Forall_forall _ _) H2 _ I). cbv beta in H. tauto. }
            destruct PL as [P|[P|[P|P]]]; try (destruct (plain_char m HM c0) as (_ & _ & Q); tauto).
            subst c0. auto. }
          destruct NS as (N1 & N2). unfold c_plus, c_minus.
          destruct (Z.eqb_spec c0 43); [lia|]. destruct (Z.eqb_spec c0 45); [lia|reflexivity]. }
      split. { rewrite A, digs_app, DW. reflexivity. }
      split. { intros I. rewrite A in I. apply in_app_or in I. destruct I as [I|I]; auto.
        pose proof (proj1 (Forall_forall _ _) B _ I) as BW. apply white_space in BW. congruence. }
      split.
      { rewrite A. clear - B DPW. induction B as [|c0 l H B IH]; auto. rewrite <- app_assoc in *.
        cbn [app before_point]. destruct (Z.eqb_spec c0 (c_decpoint m)) as [Q|Q].
        { apply white_space in H. congruence. }
        rewrite IH. rewrite !text_digits_digs. unfold digs at 2. cbn [filter]. now rewrite (white_not_digit _ H). }
      destruct Hp as [Hp|(ip & fp & Ep & H1 & H2)].
      + left. rewrite A in Hp. apply Forall_app in Hp. tauto.
      + right. rewrite A in Ep. revert B ip Ep H1. clear - DPW H2. intros B ip.
        revert ip. induction B as [|c0 l H B IH]; intros ip Ep H1; cbn [app] in Ep.
        * exists ip, fp. auto.
        * destruct ip as [|y ip]; cbn [app] in Ep; injection Ep as E1 E2.
          -- apply white_space in H. congruence.
          -- inversion H1; subst. apply (IH ip); auto.
    - exists 1, p. split; [reflexivity|]. auto.
    - exists (-1), p. split; [reflexivity|]. auto. }
  clear E Hp. destruct PARSE as (s & p' & EP & PD & PI & PB & PS).
  unfold alphanum_to_display. rewrite EP, count_before, PB. fold c.
  rewrite (wf_display_data_size _ _ W). set (size := Z.of_nat k - a_scale (fa f2)) in *.
  assert (LD : Z.of_nat (length (digs p')) = d).
  { rewrite PD. subst d. rewrite text_digits_digs, map_length. reflexivity. }
  set (start := if c <? size then size - c else 0).
  assert (EST : start = Z.max 0 (size - c)) by (subst start; destruct (Z.ltb_spec c size); lia).
  assert (SN : (if c <? size then Ok (p' ++ x :: r) else skip_n_digits (Z.to_nat (c - size)) (p' ++ x :: r)) =
               skip_n_digits (Z.to_nat (c - size)) (p' ++ x :: r)).
  { destruct (Z.ltb_spec c size); auto. replace (Z.to_nat (c - size)) with 0%nat by lia. reflexivity. }
  rewrite SN.
  assert (KEY : exists q, skip_n_digits (Z.to_nat (c - size)) (p' ++ x :: r) = Ok q /\
                          move_digits m q (Z.of_nat k - start) 0 = None).
  { destruct PS as [PS|(ip & fp & Ep & H1 & H2)].
    - destruct (skip_plain (Z.to_nat (c - size)) p' (x :: r)) as (q & A & B & C); [lia|auto|].
      exists (q ++ x :: r). split; auto.
      assert (LQ : Z.of_nat (length (digs q)) = d - Z.max 0 (c - size)) by (rewrite B, skipn_length; lia).
      rewrite move_plain by (auto; lia). rewrite LQ.
      destruct (Z.ltb_spec (d - Z.max 0 (c - size)) (Z.of_nat k - start)); [|subst size; lia].
      rewrite move_foreign; auto; [|lia].
      intros XE. specialize (X2 XE). apply PI in X2. exfalso. now apply (dp_not_plain p').
    - assert (EC : c = Z.of_nat (length (digs ip))).
      { subst c. rewrite <- PB, <- count_before, Ep, <- app_assoc, count_plain by auto.
        cbn [app count_int_digits]. rewrite Z.eqb_refl. lia. }
      assert (LL : d = c + Z.of_nat (length (digs fp))).
      { rewrite <- LD, Ep, digs_app, app_length. unfold digs at 2. cbn [filter]. rewrite (dp_not_digit m HM).
        fold (digs fp). lia. }
      destruct (skip_plain (Z.to_nat (c - size)) ip (c_decpoint m :: fp ++ x :: r)) as (q & A & B & C); [subst size; lia|auto|].
      assert (EQ : p' ++ x :: r = ip ++ c_decpoint m :: fp ++ x :: r) by (rewrite Ep, <- app_assoc; reflexivity).
      rewrite EQ, A. exists (q ++ c_decpoint m :: fp ++ x :: r). split; auto.
      assert (LQ : Z.of_nat (length (digs q)) = c - Z.max 0 (c - size)) by (rewrite B, skipn_length; lia).
      rewrite move_plain by (auto; lia). rewrite LQ.
      destruct (Z.ltb_spec (c - Z.max 0 (c - size)) (Z.of_nat k - start)); [|subst size; lia].
      cbn [move_digits]. destruct (Z.leb_spec (Z.of_nat k - start - (c - Z.max 0 (c - size))) 0); [lia|].
      rewrite (dp_not_digit m HM), Z.eqb_refl. change (0 <? 0) with false. cbv iota. change (0 + 1) with 1.
      rewrite move_plain by (auto; lia).
      destruct (Z.ltb_spec (Z.of_nat (length (digs fp))) (Z.of_nat k - start - (c - Z.max 0 (c - size)))); [|subst size; lia].
      rewrite move_foreign; auto; lia. }
  destruct KEY as (q & K1 & K2). rewrite K1. cbn [obind]. rewrite K2. reflexivity.
Qed.

End Garbage.
