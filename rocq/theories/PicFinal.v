(** PICTURE strings: final statements (proof file). *)
From Verif Require Import Base BaseFacts Field Picture SpecPic PicProofs PicAttr PicStep PicEnd PicOk PicMain PicAccept.
From Verif Require Import SpecEdit.
Local Open Scope Z_scope.

Lemma body_split : forall t0 e, Forall body_char (t0 ++ e) -> ending e -> e = [].
Proof.
  intros t0 e F HE. apply Forall_app in F as [_ F]. destruct HE as [-> | [-> | ->]]; [reflexivity| |];
    apply Forall_cons_iff in F as [F _]; exfalso; apply F; cbn; tauto.
Qed.

Lemma spelled_body : forall s t, spelled_out s t -> Forall body_char t -> spells s t.
Proof.
  intros s t (s0 & t0 & e & -> & -> & H & HE) F. pose proof (body_split t0 e F HE) as ->. now rewrite !app_nil_r.
Qed.

Lemma end_unique : forall t e t' e', Forall body_char t -> Forall body_char t' -> ending e -> ending e' ->
  t ++ e = t' ++ e' -> t = t' /\ e = e'.
Proof.
  intros t e t' e' F F' HE HE' E.
  assert (X : e = e').
  { destruct HE as [-> | HE].
    - rewrite app_nil_r in E. subst t. now rewrite (body_split t' e' F HE').
    - destruct HE' as [-> | HE'].
      + rewrite app_nil_r in E. subst t'. rewrite (body_split t e F' ltac:(right; exact HE)). reflexivity.
      + assert (LS : rev e ++ rev t = rev e' ++ rev t') by (rewrite <- !rev_app_distr; now rewrite E).
        destruct HE as [-> | ->], HE' as [-> | ->]; cbn in LS; auto; discriminate LS. }
  subst e'. split; [|reflexivity]. now apply app_inv_tail in E.
Qed.

Theorem same_picture : forall m am nm s1 s2 t, pic_cfg m -> spelled_out s1 t -> spelled_out s2 t ->
  (length s1 <= 50)%nat -> (length s2 <= 50)%nat -> Z.of_nat (length t) <= INT_MAX ->
  build_picture m am nm s1 = build_picture m am nm s2.
Proof.
  intros m am nm s1 s2 t CF H1 H2 L1 L2 L.
  rewrite (spelling m am nm s1 t CF H1 L1 L), (spelling m am nm s2 t CF H2 L2 L). reflexivity.
Qed.

(** The full information about an accepted picture. *)
Lemma accepted_full : forall m am nm s T p, pic_cfg m -> spelled_out s T -> ~ In 78 T ->
  (length s <= 50)%nat -> Z.of_nat (length T) <= INT_MAX ->
  build_picture m am nm s = Ok (Some p) ->
  pc_size p = positions T /\
  (pc_cat p = CNumeric \/ pc_cat p = CNumEdited ->
     pc_digits p = digit_places m T /\ digit_places m T <= 160 /\
     (-128 <= scale_of m T <= 127 -> pc_scale p = scale_of m T) /\
     (pc_sign p <> 0 <-> has_sign T = true)) /\
  (pc_cat p = CNumeric -> digit_places m T <= 36 /\ -128 <= scale_of m T <= 127).
Proof.
  intros m am nm s T p CF (s0 & t & e & -> & -> & HS & HE) NN L1 L2 H.
  assert (NT : ~ In 78 t) by (intros IN; apply NN, in_app_iff; auto).
  destruct (accepted m CF am nm s0 t e p HS HE NT L1 L2 H) as (A1 & A2 & A3 & A4 & A5 & A6 & A7 & A8 & A9 & A10).
  pose proof (dp_nonneg m (t ++ e)) as DP. pose proof (count_nonneg other_sym t) as CO.
  assert (D160 : pc_cat p = CNumeric \/ pc_cat p = CNumEdited -> digit_places m (t ++ e) <= 160).
  { intros [E|E]; [specialize (A4 E); lia|]. destruct (A5 E) as (B1 & _). lia. }
  split; [exact A1|]. split.
  - intros HC. specialize (D160 HC).
    split; [rewrite A2; apply Z.mod_small; lia|]. split; [auto|]. split; [|apply A6; auto].
    intros B. rewrite A3, Z.mod_small by lia. lia.
  - intros E. split; [auto|]. specialize (A4 E).
    unfold scale_of. pose proof (count_nonneg digit_sym (t ++ e)).
    assert (CD : count digit_sym (t ++ e) <= digit_places m (t ++ e)) by (unfold digit_places; lia).
    destruct (leads_P (t ++ e)); [lia|].
    pose proof (count_after_le m digit_sym (t ++ e)). pose proof (count_before_le m (Z.eqb 80) (t ++ e)).
    pose proof (count_nonneg digit_sym (after m (t ++ e))). pose proof (count_nonneg (Z.eqb 80) (before m (t ++ e))).
    assert (CP : count (Z.eqb 80) (t ++ e) <= count digit_sym (t ++ e)).
    { clear. unfold count. induction (t ++ e) as [|c r IH]; [cbn; lia|]. cbn [filter].
      destruct (Z.eqb_spec 80 c) as [<-|N]; [change (digit_sym 80) with true; cbn [length]; lia|].
      destruct (digit_sym c); cbn [length]; lia. }
    lia.
Qed.

(** Categories. *)
Lemma occurs_false : forall q t, occurs q t = false <-> Forall (fun c => q c = false) t.
Proof.
  intros q t. unfold occurs. induction t as [|c t IH]; [split; auto|]. cbn [existsb]. rewrite orb_false_iff, IH, Forall_cons_iff. tauto.
Qed.


Lemma legal_classes : forall m c, pic_cfg m -> legal m c ->
  (numeric_sym c = true <-> text_sym c = false /\ edit_sym m c = false) /\
  (c = 65 <-> text_sym c = true /\ isN c = false) /\
  (text_sym c = true -> edit_sym m c = false) /\
  (insert_sym c = true <-> text_sym c = false /\ isN c = false).
Proof.
  intros m c CF H. unfold legal in H. cbn [In] in H.
  destruct H as [H|[H|[H|[H|[H|[H|[H|[H|[H|[H|[H|[H|[H|[H|[H|[H|[]]]]]]]]]]]]]]]]]; subst c;
    try (unfold numeric_sym, text_sym, isN, edit_sym, insert_sym; rewrite ?(cur_ne' m CF) by (cbn; tauto); cbn; intuition discriminate).
  unfold numeric_sym, text_sym, isN, edit_sym, insert_sym. rewrite !(cur_ne m CF) by (cbn; tauto). rewrite Z.eqb_refl.
  pose proof (cur_ne m CF 65 ltac:(cbn; tauto)) as N. apply Z.eqb_neq in N. cbn. intuition discriminate.
Qed.

Lemma forall_iff : forall (P Q : Z -> Prop) l, (forall c, In c l -> (P c <-> Q c)) -> (Forall P l <-> Forall Q l).
Proof. intros P Q l H. rewrite !Forall_forall. split; intros F c IN; apply H; auto. Qed.

Lemma category_full : forall m am nm s T p, pic_cfg m -> spelled_out s T -> ~ In 78 T ->
  (length s <= 50)%nat -> Z.of_nat (length T) <= INT_MAX ->
  build_picture m am nm s = Ok (Some p) ->
  T <> [] /\
  (pc_cat p = CNumeric <-> Forall (fun c => numeric_sym c = true) T) /\
  (pc_cat p = CAlphabetic <-> Forall (fun c => c = 65) T) /\
  (pc_cat p = CAlnum <-> occurs text_sym T = true /\ occurs (edit_sym m) T = false /\ ~ Forall (fun c => c = 65) T) /\
  (pc_cat p = CNumEdited <-> occurs text_sym T = false /\ occurs (edit_sym m) T = true /\ ~ Forall (fun c => insert_sym c = true) T) /\
  (pc_cat p = CAlnumEdited <-> occurs text_sym T = true /\ occurs (edit_sym m) T = true \/ Forall (fun c => insert_sym c = true) T).
Proof.
  intros m am nm s T p CF (s0 & t & e & -> & -> & HS & HE) NN L1 L2 H.
  assert (NT : ~ In 78 t) by (intros IN; apply NN, in_app_iff; auto).
  destruct (accepted m CF am nm s0 t e p HS HE NT L1 L2 H) as (_ & _ & _ & _ & _ & _ & FL & NE & CT & _).
  split; [exact NE|].
  assert (F1 : Forall (fun c => numeric_sym c = true) (t ++ e) <-> occurs text_sym (t ++ e) = false /\ occurs (edit_sym m) (t ++ e) = false).
  { destruct HE as [-> | HE].
    - rewrite app_nil_r, !occurs_false. rewrite (forall_iff _ (fun c => text_sym c = false /\ edit_sym m c = false)).
      + rewrite !Forall_forall. split; [intros F; split; intros c IN; apply F; auto|intros (A & B) c IN; auto].
      + intros c IN. rewrite Forall_forall in FL. apply (legal_classes m c CF (FL c IN)).
    - split.
      + intros F. apply Forall_app in F as [_ F]. destruct HE as [-> | ->]; apply Forall_cons_iff in F as [F _]; discriminate F.
      + intros (_ & F). rewrite occurs_app in F. apply orb_false_iff in F as [_ F]. destruct HE as [-> | ->]; discriminate F. }
  assert (F2 : Forall (fun c => c = 65) (t ++ e) <-> occurs (edit_sym m) (t ++ e) = false /\ occurs isN (t ++ e) = false).
  { destruct HE as [-> | HE].
    - rewrite app_nil_r, !occurs_false. rewrite (forall_iff _ (fun c => edit_sym m c = false /\ isN c = false)).
      + rewrite !Forall_forall. split; [intros F; split; intros c IN; apply F; auto|intros (A & B) c IN; auto].
      + intros c IN. rewrite Forall_forall in FL. destruct (legal_classes m c CF (FL c IN)) as (Q1 & Q2 & Q3 & Q4). split.
        * intros E. apply Q2 in E as (E1 & E2). auto.
        * intros (E1 & E2). apply Q2. split; [|exact E2]. destruct (text_sym c) eqn:TS; [reflexivity|].
          assert (X : insert_sym c = true) by (apply Q4; auto). unfold edit_sym in E1. rewrite X in E1. discriminate E1.
    - split.
      + intros F. apply Forall_app in F as [_ F]. destruct HE as [-> | ->]; apply Forall_cons_iff in F as [F _]; discriminate F.
      + intros (F & _). rewrite occurs_app in F. apply orb_false_iff in F as [_ F]. destruct HE as [-> | ->]; discriminate F. }
  assert (F3 : Forall (fun c => insert_sym c = true) (t ++ e) <-> occurs text_sym (t ++ e) = false /\ occurs isN (t ++ e) = false).
  { destruct HE as [-> | HE].
    - rewrite app_nil_r, !occurs_false. rewrite (forall_iff _ (fun c => text_sym c = false /\ isN c = false)).
      + rewrite !Forall_forall. split; [intros F; split; intros c IN; apply F; auto|intros (A & B) c IN; auto].
      + intros c IN. rewrite Forall_forall in FL. apply (legal_classes m c CF (FL c IN)).
    - split.
      + intros F. apply Forall_app in F as [_ F]. destruct HE as [-> | ->]; apply Forall_cons_iff in F as [F _]; discriminate F.
      + intros (_ & F). rewrite occurs_app in F. apply orb_false_iff in F as [_ F]. destruct HE as [-> | ->]; discriminate F. }
  assert (F4 : occurs text_sym (t ++ e) = false -> occurs (edit_sym m) (t ++ e) = false -> occurs isN (t ++ e) = true).
  { intros E1 E2. destruct (occurs isN (t ++ e)) eqn:E3; [reflexivity|]. exfalso.
    pose proof (proj2 F3 (conj E1 eq_refl)) as G1. pose proof (proj2 F1 (conj E1 E2)) as G2.
    destruct (t ++ e) as [|c r]; [congruence|]. apply Forall_cons_iff in G1 as [G1 _]. apply Forall_cons_iff in G2 as [G2 _].
    unfold insert_sym, numeric_sym in *. apply orb_true_iff in G1 as [G1|G1]; [apply orb_true_iff in G1 as [G1|G1]|]; apply Z.eqb_eq in G1; subst c; discriminate G2. }
  assert (F5 : occurs text_sym (t ++ e) = false -> occurs (edit_sym m) (t ++ e) = false -> occurs isN (t ++ e) = false -> False).
  { intros E1 E2 E3. rewrite (F4 E1 E2) in E3. discriminate E3. }
  rewrite F1, F2, F3. rewrite CT. clear - F4 F5.
  destruct (occurs text_sym (t ++ e)), (occurs (edit_sym m) (t ++ e)), (occurs isN (t ++ e));
    try (specialize (F4 eq_refl eq_refl); discriminate F4); intuition discriminate.
Qed.

(** ** Numeric pictures *)
Definition signed (b : bool) : list Z := if b then [83] else [].

Lemma body_57 : body_char 57. Proof. unfold body_char. cbn. lia. Qed.
Lemma body_86 : body_char 86. Proof. unfold body_char. cbn. lia. Qed.
Lemma body_83 : body_char 83. Proof. unfold body_char. cbn. lia. Qed.
Lemma body_80 : body_char 80. Proof. unfold body_char. cbn. lia. Qed.
Lemma body_repeat : forall c n, body_char c -> Forall body_char (repeat c n).
Proof. intros c n B. apply Forall_forall. intros x IN. apply repeat_spec in IN. now subst x. Qed.

Section Forms.
Variable m : cfg.
Hypothesis CF : pic_cfg m.

Lemma ok9 : forall t n rest, ok_run m t 57 n rest.
Proof.
  intros t n rest. constructor; try congruence; try (cbn; tauto); try (split; lia); auto; try (intros PS; rewrite (point_no m CF) in PS by lia; discriminate PS).
Qed.
Lemma okV : forall t rest, count (point_sym m) t = 0 -> leads_P t = false -> ok_run m t 86 1 rest.
Proof. intros t rest C L. constructor; try congruence; try (cbn; tauto); try (split; lia); auto; try (intros PS; rewrite (point_no m CF) in PS by lia; discriminate PS). Qed.
Lemma okS : forall rest, ok_run m [] 83 1 rest.
Proof.
  intros rest. constructor; try congruence; try (cbn; tauto); try (split; lia); auto; try (intros PS; rewrite (point_no m CF) in PS by lia; discriminate PS).
Qed.
Lemma okP : forall t n rest, occurs (Z.eqb 80) t = false -> (nonS t = [] \/ nonS t = [86] \/ rest = [] \/ rest = [86]) -> ok_run m t 80 n rest.
Proof.
  intros t n rest O H. constructor; try congruence; try (cbn; tauto); try (split; lia); auto; try (intros PS; rewrite (point_no m CF) in PS by lia; discriminate PS).
Qed.

Definition nines (n : nat) : list (Z * Z) := match n with O => [] | _ => [(57, Z.of_nat n)] end.
Definition sgrun (b : bool) : list (Z * Z) := if b then [(83, 1)] else [].
Lemma nines_text : forall n, expand (nines n) = repeat 57 n.
Proof. intros [|n]; [reflexivity|]. cbn [nines]. unfold expand. cbn [flat_map fst snd]. now rewrite Nat2Z.id, app_nil_r. Qed.
Lemma sgrun_text : forall b, expand (sgrun b) = signed b.
Proof. intros []; reflexivity. Qed.
Lemma expand_app : forall a b, expand (a ++ b) = expand a ++ expand b.
Proof. intros. unfold expand. apply flat_map_app. Qed.

Lemma good_nines_end : forall n t, good m t (nines n).
Proof. intros [|n] t; [exact I|]. cbn [nines good]. split; [lia|]. split; [apply body_57|]. split; [apply ok9|]. auto. Qed.
Lemma good_nines_then : forall n t R, match R with [] => True | (d, _) :: _ => d <> 57 end ->
  good m (t ++ repeat 57 n) R -> good m t (nines n ++ R).
Proof.
  intros [|n] t R H G; [cbn [nines app repeat] in *; now rewrite app_nil_r in G|]. cbn [nines app good].
  split; [lia|]. split; [apply body_57|]. split; [apply ok9|]. split; [exact H|]. now rewrite Nat2Z.id.
Qed.
Lemma good_signed : forall b R, match R with [] => True | (d, _) :: _ => d <> 83 end -> good m (signed b) R -> good m [] (sgrun b ++ R).
Proof.
  intros [] R H G; [|exact G]. cbn [sgrun app good signed] in *. split; [lia|]. split; [apply body_83|]. split; [apply okS|]. split; [exact H|]. exact G.
Qed.

Lemma numeric_form : forall am nm s R T a, spelled_out s T -> (length s <= 50)%nat -> T = expand R ->
  good m [] R -> Forall (fun cn => numeric_sym (fst cn) = true) R -> (length T <= 100)%nat ->
  digit_places m T <= 36 -> positions T = a -> 1 <= a ->
  exists p, build_picture m am nm s = Ok (Some p) /\ pc_cat p = CNumeric /\ pc_size p = a /\
    pc_digits p = digit_places m T /\ pc_scale p = scale_of m T /\ (pc_sign p <> 0 <-> has_sign T = true).
Proof.
  intros am nm s R T a HS L50 ET G FN L D P P1. subst T.
  destruct (good_body m CF R [] G) as (FB & NN & FL).
  assert (LI : Z.of_nat (length (expand R)) <= INT_MAX) by (unfold INT_MAX; lia).
  destruct (numeric_accepted m CF am nm s R) as (p & B & C); auto; [apply spelled_body; auto|lia|].
  exists p. split; [exact B|]. split; [exact C|].
  destruct (accepted_full m am nm s (expand R) p CF HS NN L50 LI B) as (A1 & A2 & A3).
  destruct (A2 (or_introl C)) as (A4 & A5 & A6 & A7). destruct (A3 C) as (A8 & A9).
  split; [congruence|]. split; [exact A4|]. split; [auto|exact A7].
Qed.

Lemma p57 : point_sym m 57 = false. Proof. apply (point_no m CF); lia. Qed.
Lemma p83 : point_sym m 83 = false. Proof. apply (point_no m CF); lia. Qed.
Lemma p80 : point_sym m 80 = false. Proof. apply (point_no m CF); lia. Qed.
Lemma c57 : (c_currency m =? 57) = false. Proof. apply (cur_ne m CF); cbn; tauto. Qed.
Lemma c83 : (c_currency m =? 83) = false. Proof. apply (cur_ne m CF); cbn; tauto. Qed.
Lemma c80 : (c_currency m =? 80) = false. Proof. apply (cur_ne m CF); cbn; tauto. Qed.
Lemma c86 : (c_currency m =? 86) = false. Proof. apply (cur_ne m CF); cbn; tauto. Qed.

Lemma count_signed : forall q b, count q (signed b) = if b then if q 83 then 1 else 0 else 0.
Proof. intros q []; [|reflexivity]. unfold signed, count. cbn [filter]. destruct (q 83); reflexivity. Qed.
Lemma count_nil : forall q, count q [] = 0. Proof. reflexivity. Qed.
Lemma count_one : forall q c, count q [c] = if q c then 1 else 0.
Proof. intros q c. unfold count. cbn [filter]. destruct (q c); reflexivity. Qed.

Ltac counts := unfold digit_places, positions; rewrite ?count_app, ?count_signed, ?count_repeat, ?count_one, ?c57, ?c83, ?c80, ?c86, ?p57, ?p83, ?p80; cbn [count filter length].

Theorem plain_numeric : forall am nm sg a v b s, (v = [86] \/ v = [] /\ b = 0%nat) -> (1 <= a + b <= 36)%nat ->
  spelled_out s (signed sg ++ repeat 57 a ++ v ++ repeat 57 b) -> (length s <= 50)%nat ->
  exists p, build_picture m am nm s = Ok (Some p) /\ pc_cat p = CNumeric /\ pc_size p = Z.of_nat (a + b) /\
    pc_digits p = Z.of_nat (a + b) /\ pc_scale p = Z.of_nat b /\ (pc_sign p <> 0 <-> sg = true).
Proof.
  intros am nm sg a v b s HV H HS L50. set (T := signed sg ++ repeat 57 a ++ v ++ repeat 57 b) in *.
  assert (LT : (length T <= 100)%nat).
  { unfold T. rewrite !app_length, !repeat_length. destruct sg, HV as [-> | (-> & _)]; cbn [signed length]; lia. }
  assert (D : digit_places m T = Z.of_nat (a + b)).
  { unfold T. counts. change (digit_sym 57) with true. change (digit_sym 83) with false. change (sign_sym 57) with false. change (sign_sym 83) with false.
    destruct sg, HV as [-> | (-> & ->)]; rewrite ?count_one, ?count_nil, ?c86; change (digit_sym 86) with false; change (sign_sym 86) with false; cbn [count filter length]; lia. }
  assert (P : positions T = Z.of_nat (a + b)).
  { unfold T. counts. change ((83 =? 86) || (83 =? 80) || (83 =? 83)) with true. change ((57 =? 86) || (57 =? 80) || (57 =? 83)) with false. cbn [negb].
    destruct sg, HV as [-> | (-> & ->)]; rewrite ?count_one, ?count_nil; change ((86 =? 86) || (86 =? 80) || (86 =? 83)) with true; cbn [negb count filter length]; lia. }
  assert (NP : forall x, leads_P (signed sg ++ repeat 57 x) = false).
  { intros x. destruct sg, x; reflexivity. }
  assert (SC : scale_of m T = Z.of_nat b).
  { unfold T. rewrite app_assoc. destruct HV as [-> | (-> & ->)].
    - change ([86] ++ repeat 57 b) with (repeat 86 1 ++ repeat 57 b). rewrite app_assoc, scale_dig; [|reflexivity|lia|apply p57].
      rewrite occurs_app, occurs_repeat by lia. change (point_sym m 86) with true. rewrite orb_true_r. cbn [orb].
      assert (O : occurs (point_sym m) (signed sg ++ repeat 57 a) = false).
      { rewrite occurs_app. destruct a; [|rewrite occurs_repeat, p57 by lia]; destruct sg; cbn [signed occurs existsb]; rewrite ?p83; reflexivity. }
      rewrite scale_point by (auto; reflexivity).
      rewrite scale_dig; [|reflexivity|lia|apply p57].
      assert (Z0 : scale_of m (signed sg) = 0 /\ occurs (point_sym m) (signed sg) || leads_P (signed sg) = false).
      { destruct sg; [|auto]. unfold signed, scale_of. cbn [leads_P filter negb after before occurs existsb]. rewrite p83. cbn. auto. }
      destruct Z0 as (-> & ->). lia.
    - cbn [repeat app]. rewrite app_nil_r. rewrite scale_dig; [|reflexivity|lia|apply p57].
      assert (Z0 : scale_of m (signed sg) = 0 /\ occurs (point_sym m) (signed sg) || leads_P (signed sg) = false).
      { destruct sg; [|auto]. unfold signed, scale_of. cbn [leads_P filter negb after before occurs existsb]. rewrite p83. cbn. auto. }
      destruct Z0 as (-> & ->). lia. }
  assert (SG : has_sign T = true <-> sg = true).
  { unfold T, has_sign. rewrite !occurs_app.
    assert (N9 : forall k, occurs (fun c => (c =? 83) || sign_sym c || (c =? 67) || (c =? 68)) (repeat 57 k) = false).
    { intros [|k]; [reflexivity|]. rewrite occurs_repeat by lia. reflexivity. }
    rewrite !N9. destruct sg, HV as [-> | (-> & _)]; cbn; split; auto. }
  set (R := sgrun sg ++ nines a ++ (match v with [] => [] | _ => [(86, 1)] end) ++ nines b).
  assert (ER : T = expand R).
  { unfold T, R. rewrite !expand_app, sgrun_text, !nines_text. destruct HV as [-> | (-> & _)]; reflexivity. }
  destruct (numeric_form am nm s R T (Z.of_nat (a + b)) HS L50 ER) as (p & Q1 & Q2 & Q3 & Q4 & Q5 & Q6); auto; try lia.
  - unfold R. apply good_signed.
    + destruct a; cbn [nines app]; [|lia]. destruct HV as [-> | (-> & ->)]; cbn; [lia|exact I].
    + apply good_nines_then.
      * destruct HV as [-> | (-> & ->)]; cbn; [lia|exact I].
      * destruct HV as [-> | (-> & ->)]; [|exact I]. cbn [app good].
        split; [lia|]. split; [apply body_86|]. split; [|split; [destruct b; cbn; [exact I|lia]|apply good_nines_end]].
        apply okV; [|apply NP]. counts. destruct sg; lia.
  - unfold R. rewrite !Forall_app. split; [destruct sg; repeat constructor|]. split; [destruct a; repeat constructor|].
    split; [destruct v; repeat constructor|destruct b; repeat constructor].
  - exists p. rewrite D in Q4. rewrite SC in Q5. exact (conj Q1 (conj Q2 (conj Q3 (conj Q4 (conj Q5 (iff_trans Q6 SG)))))).
Qed.

(** 9(a)P(b), with or without V behind it. *)
Theorem scaled_up : forall am nm sg a b v s, v = [86] \/ v = [] -> (1 <= a)%nat -> (1 <= b)%nat -> (a + b <= 36)%nat ->
  spelled_out s (signed sg ++ repeat 57 a ++ repeat 80 b ++ v) -> (length s <= 50)%nat ->
  exists p, build_picture m am nm s = Ok (Some p) /\ pc_cat p = CNumeric /\ pc_size p = Z.of_nat a /\
    pc_digits p = Z.of_nat (a + b) /\ pc_scale p = - Z.of_nat b /\ (pc_sign p <> 0 <-> sg = true).
Proof.
  intros am nm sg a b v s HV H1 H2 H HS L50. set (T := signed sg ++ repeat 57 a ++ repeat 80 b ++ v) in *.
  assert (LT : (length T <= 100)%nat).
  { unfold T. rewrite !app_length, !repeat_length. destruct sg, HV as [-> | ->]; cbn [signed length]; lia. }
  assert (D : digit_places m T = Z.of_nat (a + b)).
  { unfold T. counts. change (digit_sym 57) with true. change (digit_sym 80) with true. change (digit_sym 83) with false.
    change (sign_sym 57) with false. change (sign_sym 80) with false. change (sign_sym 83) with false.
    destruct sg, HV as [-> | ->]; rewrite ?count_one, ?count_nil, ?c86; change (digit_sym 86) with false; change (sign_sym 86) with false; cbn [count filter length]; lia. }
  assert (P : positions T = Z.of_nat a).
  { unfold T. counts. change ((83 =? 86) || (83 =? 80) || (83 =? 83)) with true. change ((57 =? 86) || (57 =? 80) || (57 =? 83)) with false.
    change ((80 =? 86) || (80 =? 80) || (80 =? 83)) with true. cbn [negb].
    destruct sg, HV as [-> | ->]; rewrite ?count_one, ?count_nil; change ((86 =? 86) || (86 =? 80) || (86 =? 83)) with true; cbn [negb count filter length]; lia. }
  assert (NS : nonS (signed sg ++ repeat 57 a) = repeat 57 a).
  { rewrite nonS_app, nonS_repeat. change (57 =? 83) with false. destruct sg; reflexivity. }
  assert (NP : leads_P (signed sg ++ repeat 57 a) = false).
  { destruct a as [|k]; [lia|]. destruct sg; unfold leads_P; cbn [signed app repeat filter Z.eqb Pos.eqb negb]; reflexivity. }
  assert (NPP : leads_P ((signed sg ++ repeat 57 a) ++ repeat 80 b) = false).
  { rewrite leads_late; auto; rewrite NS; destruct a as [|[|k]]; try lia; discriminate. }
  assert (O : occurs (point_sym m) (signed sg ++ repeat 57 a) = false).
  { rewrite occurs_app, occurs_repeat, p57 by lia. destruct sg; cbn [signed occurs existsb]; rewrite ?p83; reflexivity. }
  assert (OP : occurs (Z.eqb 80) (signed sg ++ repeat 57 a) = false).
  { rewrite occurs_app, occurs_repeat by lia. destruct sg; reflexivity. }
  assert (S9 : scale_of m (signed sg ++ repeat 57 a) = 0).
  { rewrite scale_dig; [|reflexivity|lia|apply p57].
      assert (Z0 : scale_of m (signed sg) = 0 /\ occurs (point_sym m) (signed sg) || leads_P (signed sg) = false).
      { destruct sg; [|auto]. unfold signed, scale_of. cbn [leads_P filter negb after before occurs existsb]. rewrite p83. cbn. auto. }
      destruct Z0 as (-> & ->). lia. }
  assert (SP : scale_of m ((signed sg ++ repeat 57 a) ++ repeat 80 b) = - Z.of_nat b).
  { destruct (scale_P m CF (signed sg ++ repeat 57 a) b H2 OP) as [E|E]; [|congruence]. rewrite E, NPP, O, S9. cbn [orb]. lia. }
  assert (OPT : occurs (point_sym m) ((signed sg ++ repeat 57 a) ++ repeat 80 b) = false).
  { rewrite occurs_app, O, occurs_repeat, p80 by lia. reflexivity. }
  assert (SC : scale_of m T = - Z.of_nat b).
  { unfold T. rewrite !app_assoc. destruct HV as [-> | ->]; [|now rewrite app_nil_r].
    change [86] with (repeat 86 1). rewrite scale_point by (auto; reflexivity). exact SP. }
  assert (SG : has_sign T = true <-> sg = true).
  { unfold T, has_sign. rewrite !occurs_app, !occurs_repeat by lia. destruct sg, HV as [-> | ->]; cbn; split; auto. }
  set (R := sgrun sg ++ nines a ++ [(80, Z.of_nat b)] ++ (match v with [] => [] | _ => [(86, 1)] end)).
  assert (EB : expand [(80, Z.of_nat b)] = repeat 80 b) by (unfold expand; cbn [flat_map fst snd]; now rewrite Nat2Z.id, app_nil_r).
  assert (ER : T = expand R).
  { unfold T, R. rewrite !expand_app, sgrun_text, !nines_text, EB. destruct HV as [-> | ->]; reflexivity. }
  destruct (numeric_form am nm s R T (Z.of_nat a) HS L50 ER) as (p & Q1 & Q2 & Q3 & Q4 & Q5 & Q6); auto; try lia.
  - unfold R. apply good_signed.
    + destruct a; cbn [nines app]; lia.
    + apply good_nines_then; [cbn; lia|]. cbn [app good].
      split; [lia|]. split; [apply body_80|]. split; [|split].
      * apply okP; [exact OP|]. right. right. destruct HV as [-> | ->]; [right; reflexivity|left; reflexivity].
      * destruct HV as [-> | ->]; [lia|exact I].
      * destruct HV as [-> | ->]; [|exact I]. cbn [good]. split; [lia|]. split; [apply body_86|]. rewrite Nat2Z.id.
        split; [|auto]. apply okV; [|exact NPP]. pose proof (point_zero m ((signed sg ++ repeat 57 a) ++ repeat 80 b)) as PZ.
        rewrite OPT in PZ. now apply Z.eqb_eq in PZ.
  - unfold R. rewrite !Forall_app. split; [destruct sg; repeat constructor|]. split; [destruct a; repeat constructor|].
    split; [repeat constructor|destruct v; repeat constructor].
  - exists p. rewrite D in Q4. rewrite SC in Q5. exact (conj Q1 (conj Q2 (conj Q3 (conj Q4 (conj Q5 (iff_trans Q6 SG)))))).
Qed.

(** P(b)9(a), with or without V in front of it. *)
Theorem scaled_down : forall am nm sg a b v s, v = [86] \/ v = [] -> (1 <= a)%nat -> (1 <= b)%nat -> (a + b <= 36)%nat ->
  spelled_out s (signed sg ++ v ++ repeat 80 b ++ repeat 57 a) -> (length s <= 50)%nat ->
  exists p, build_picture m am nm s = Ok (Some p) /\ pc_cat p = CNumeric /\ pc_size p = Z.of_nat a /\
    pc_digits p = Z.of_nat (a + b) /\ pc_scale p = Z.of_nat (a + b) /\ (pc_sign p <> 0 <-> sg = true).
Proof.
  intros am nm sg a b v s HV H1 H2 H HS L50. set (T := signed sg ++ v ++ repeat 80 b ++ repeat 57 a) in *.
  assert (LT : (length T <= 100)%nat).
  { unfold T. rewrite !app_length, !repeat_length. destruct sg, HV as [-> | ->]; cbn [signed length]; lia. }
  assert (D : digit_places m T = Z.of_nat (a + b)).
  { unfold T. counts. change (digit_sym 57) with true. change (digit_sym 80) with true. change (digit_sym 83) with false.
    change (sign_sym 57) with false. change (sign_sym 80) with false. change (sign_sym 83) with false.
    destruct sg, HV as [-> | ->]; rewrite ?count_one, ?count_nil, ?c86; change (digit_sym 86) with false; change (sign_sym 86) with false; cbn [count filter length]; lia. }
  assert (P : positions T = Z.of_nat a).
  { unfold T. counts. change ((83 =? 86) || (83 =? 80) || (83 =? 83)) with true. change ((57 =? 86) || (57 =? 80) || (57 =? 83)) with false.
    change ((80 =? 86) || (80 =? 80) || (80 =? 83)) with true. cbn [negb].
    destruct sg, HV as [-> | ->]; rewrite ?count_one, ?count_nil; change ((86 =? 86) || (86 =? 80) || (86 =? 83)) with true; cbn [negb count filter length]; lia. }
  assert (NS : nonS (signed sg ++ v) = [] \/ nonS (signed sg ++ v) = [86]).
  { destruct sg, HV as [-> | ->]; cbn; auto. }
  assert (LD : leads_P T = true).
  { unfold T. rewrite !app_assoc, leads_other by lia. apply leads_start; auto. }
  assert (OP : occurs (Z.eqb 80) (signed sg ++ v) = false).
  { destruct sg, HV as [-> | ->]; reflexivity. }
  assert (SC : scale_of m T = Z.of_nat (a + b)).
  { unfold scale_of. rewrite LD. unfold T. rewrite !count_app, count_signed, !count_repeat.
    change (digit_sym 57) with true. change (digit_sym 80) with true. change (digit_sym 83) with false.
    destruct sg, HV as [-> | ->]; rewrite ?count_one, ?count_nil; change (digit_sym 86) with false; cbn [count filter length]; lia. }
  assert (SG : has_sign T = true <-> sg = true).
  { unfold T, has_sign. rewrite !occurs_app, !occurs_repeat by lia. destruct sg, HV as [-> | ->]; cbn; split; auto. }
  set (R := sgrun sg ++ (match v with [] => [] | _ => [(86, 1)] end) ++ [(80, Z.of_nat b)] ++ nines a).
  assert (EB : expand [(80, Z.of_nat b)] = repeat 80 b) by (unfold expand; cbn [flat_map fst snd]; now rewrite Nat2Z.id, app_nil_r).
  assert (ER : T = expand R).
  { unfold T, R. rewrite !expand_app, sgrun_text, !nines_text, EB. destruct HV as [-> | ->]; reflexivity. }
  assert (GP : forall t, occurs (Z.eqb 80) t = false -> nonS t = [] \/ nonS t = [86] -> good m t ([(80, Z.of_nat b)] ++ nines a)).
  { intros t O N. cbn [app good]. split; [lia|]. split; [apply body_80|]. split; [apply okP; tauto|].
    split; [destruct a; cbn; lia|apply good_nines_end]. }
  destruct (numeric_form am nm s R T (Z.of_nat a) HS L50 ER) as (p & Q1 & Q2 & Q3 & Q4 & Q5 & Q6); auto; try lia.
  - unfold R. apply good_signed.
    + destruct HV as [-> | ->]; cbn; lia.
    + destruct HV as [-> | ->].
      * change (good m (signed sg) ((86, 1) :: [(80, Z.of_nat b)] ++ nines a)). cbn [good].
        split; [lia|]. split; [apply body_86|]. split; [|split; [cbn; lia|apply GP; auto]].
        apply okV; [rewrite count_signed, p83; destruct sg; reflexivity|destruct sg; reflexivity].
      * cbn [app]. rewrite app_nil_r in *. apply GP; auto.
  - unfold R. rewrite !Forall_app. split; [destruct sg; repeat constructor|]. split; [destruct v; repeat constructor|].
    split; [repeat constructor|destruct a; repeat constructor].
  - exists p. rewrite D in Q4. rewrite SC in Q5. exact (conj Q1 (conj Q2 (conj Q3 (conj Q4 (conj Q5 (iff_trans Q6 SG)))))).
Qed.
End Forms.
