(** EVALUATE chooses the statements of the first true phrase (proof file). *)
From Verif Require Import Base Field SpecNum Move SpecCmp PackedInt P_Int Compute SpecCompute ComputeProofs ExprParse SpecExpr ExprProofs ExprCond P_Expr.
From Verif Require Import Cond SpecCond CondProofs Evaluate SpecEvaluate.

Lemma phrase_head : forall n ts e, phrase n ts e -> match ts with INot :: _ => False | [] => False | _ => True end.
Proof.
  intros n ts e H. induction H; auto. destruct ts1; [contradiction|exact IHphrase1].
Qed.
Lemma ready_bool : forall items vals m col names t, ready items vals m col names t -> is_bool t = true.
Proof. intros items vals m col names t H. destruct t as [| |[| | |k]| | | | | | |]; try reflexivity; contradiction H. Qed.
Lemma data_88 : forall n ts e, phrase n ts e -> is_88 e = false.
Proof. intros n ts e H. induction H; try reflexivity; auto. destruct o; try reflexivity. contradiction. Qed.

Section P.
Variables (m : cfg) (debug alpha : bool) (col : option (list Z)) (nibble_c : bool) (names : nat -> name88).
Variable (vals : nat -> Z).
Variable (items : list field).
Hypothesis HCOL : col <> None -> alpha = true.
Notation evc := (eval_c m debug alpha col nibble_c names).
Notation tv := (test_value items vals col names).
Notation testable := (testable items vals m col names).
(** A condition evaluates to a value with [P]. *)
Definition gives (c : ctree) (P : bool -> Prop) : Prop :=
  c_bool c = true /\ forall s, citems s = items -> cmp_history (cpack s) -> sound items P (evc c s).

Lemma gives_imp : forall c (P Q : bool -> Prop), gives c P -> (forall b, P b -> Q b) -> gives c Q.
Proof. intros c P Q [B G] H. split; [exact B|]. intros s E K. destruct (G s E K) as (b & s' & R & X & Y). exists b, s'. split; [exact R|]. split; auto. Qed.
Lemma gives_const : forall b, gives (CConst b) (fun x => x = b).
Proof. intros b. split; [reflexivity|]. intros s E K. exists b, s. auto. Qed.
Lemma gives_tree : forall t, ready items vals m col names t -> gives (CTree t) (truth items vals col names t).
Proof.
  intros t R. split; [now apply (ready_bool items vals m col names)|]. intros s E K. exact (eval_ok m debug alpha col nibble_c names vals HCOL items t R s E K).
Qed.
Lemma gives_rel : forall r x y, comparable items vals m x y -> gives (CTree (TRel r x y)) (fun b => exists c, compares items vals col x y c /\ b = holds r c).
Proof.
  intros r x y C. split; [reflexivity|]. intros s E K. exact (eval_rel m debug alpha col nibble_c names vals HCOL items _ r x y s E K C).
Qed.
Lemma gives_not : forall c P, gives c P -> gives (CNot c) (fun b => P (negb b)).
Proof.
  intros c P [B G]. split; [reflexivity|]. intros s E K. destruct (G s E K) as (b & s' & R & X & Y). cbn [eval_c]. rewrite R. cbn [obind fst snd].
  exists (negb b), s'. rewrite negb_involutive. auto.
Qed.
Lemma c_not_some : forall c P, gives c P -> c_not c = Some (CNot c).
Proof. intros c P [B _]. unfold c_not. now rewrite B. Qed.
Lemma gives_and : forall c d P Q, gives c P -> gives d Q -> c_and c d = Some (CAnd c d) /\
  gives (CAnd c d) (fun b => if b then P true /\ Q true else P false \/ Q false).
Proof.
  intros c d P Q [B G] [B' G']. split; [unfold c_and; now rewrite B, B'|]. split; [reflexivity|]. intros s E K. destruct (G s E K) as (b & s' & R & X & Y & Z). cbn [eval_c]. rewrite R. cbn [obind fst snd].
  destruct b.
  - destruct (G' s' Y Z) as (b' & s2 & R' & X' & Y' & Z'). exists b', s2. split; [exact R'|]. split; [|auto]. destruct b'; auto.
  - exists false, s'. auto.
Qed.
Lemma gives_or : forall c d P Q, gives c P -> gives d Q -> c_or c d = Some (COr c d) /\
  gives (COr c d) (fun b => if b then P true \/ Q true else P false /\ Q false).
Proof.
  intros c d P Q [B G] [B' G']. split; [unfold c_or; now rewrite B, B'|]. split; [reflexivity|]. intros s E K. destruct (G s E K) as (b & s' & R & X & Y & Z). cbn [eval_c]. rewrite R. cbn [obind fst snd].
  destruct b.
  - exists true, s'. auto.
  - destruct (G' s' Y Z) as (b' & s2 & R' & X' & Y' & Z'). exists b', s2. split; [exact R'|]. split; [|auto]. destruct b'; auto.
Qed.

(** ** One test *)
Definition good (s : wsubject) (o : wobject) (s' : subject) (o' : object) : Prop := exists c, evaluate_test s' o' = Some c /\ gives c (tv s o).
Lemma read_with_not : forall check i n ts thru x, phrase 4 ts x -> (check i < 2)%nat ->
  read_object check i (WExpr (with_not n ts) thru) =
    match thru with None => Some (OPair n x None) | Some vs => match parse vs with Accepted y => Some (OPair n x (Some y)) | _ => None end end.
Proof.
  intros check i n ts thru x P L. pose proof (phrase_head _ _ _ P) as H. pose proof (parse_arithmetic _ _ P) as E. unfold read_object, with_not.
  destruct n.
  - destruct (Nat.ltb_spec (check i) 2) as [_|G]; [|lia]. rewrite E. destruct thru; reflexivity.
  - destruct ts as [|t ts]; [contradiction|]. replace (match t with INot => if (check i <? 2)%nat then (true, ts) else (false, t :: ts) | _ => (false, t :: ts) end) with (false, t :: ts) by (destruct t; try reflexivity; contradiction).
    rewrite E. destruct thru; reflexivity.
Qed.
Lemma subject_read : forall s, subject_ok s -> exists s', read_subject s = Some s'.
Proof.
  intros [| |ts] H; try (eexists; reflexivity). cbn [read_subject]. destruct H as [(t & H)|(e & H)].
  - rewrite (C62_condition _ _ H). now eexists.
  - rewrite (parse_arithmetic _ _ H). now eexists.
Qed.
Lemma test_ok : forall check i s o, testable s o -> subject_ok s -> (check i = kind s \/ (check i = 0%nat /\ not_ok s o)) ->
  exists s' o', read_subject s = Some s' /\ read_object check i o = Some o' /\ good s o s' o'.
Proof.
  intros check i s o T SOK CK. destruct T as [s|s o HS HO|ts t o HC R HO|s ts t HS HC R|ss s n ts x P1 P2 C|ss s n ts lo us hi P1 P2 P3 C1 C2].
  - (* ANY *) destruct (subject_read s SOK) as (s' & E). exists s', OAny. split; [exact E|]. split; [reflexivity|]. exists (CConst true). split; [reflexivity|].
    eapply gives_imp; [apply gives_const|]. intros b ->. apply tv_any.
  - (* constants *) destruct HS as [-> | ->], HO as [-> | ->]; (do 2 eexists; split; [reflexivity|]; split; [reflexivity|]).
    + exists (CConst true). split; [reflexivity|]. eapply gives_imp; [apply gives_const|]. intros b ->. apply tv_tt.
    + exists (CNot (CConst true)). split; [reflexivity|]. eapply gives_imp; [apply gives_not, gives_const|]. intros b E. cbv beta in E. destruct b; [discriminate|]. apply tv_tf.
    + exists (CConst false). split; [reflexivity|]. eapply gives_imp; [apply gives_const|]. intros b ->. apply tv_ft.
    + exists (CNot (CConst false)). split; [reflexivity|]. eapply gives_imp; [apply gives_not, gives_const|]. intros b E. cbv beta in E. destruct b; [|discriminate]. apply tv_ff.
  - (* a condition and TRUE or FALSE *)
    pose proof (gives_tree t R) as G. cbn [read_subject]. rewrite (C62_condition _ _ HC).
    destruct HO as [-> | ->]; (do 2 eexists; split; [reflexivity|]; split; [reflexivity|]).
    + exists (CTree t). split; [reflexivity|]. eapply gives_imp; [exact G|]. intros b B. eapply tv_when_true; eassumption.
    + exists (CNot (CTree t)). split; [exact (c_not_some _ _ G)|]. eapply gives_imp; [exact (gives_not _ _ G)|]. intros b B. cbv beta in B.
      rewrite <- (negb_involutive b). eapply tv_when_false; eassumption.
  - (* TRUE or FALSE and a condition *)
    assert (X : (exists o' c, read_object check i (WExpr ts None) = Some o' /\ (c = CTree t /\ o' = OPair false t None) /\ gives c (truth items vals col names t)) \/
                (exists r t', ts = INot :: r /\ t = TNot t' /\ read_object check i (WExpr ts None) = Some (OPair true t' None))).
    { cbn [read_object]. destruct ts as [|[] ts]; try (left; eexists (OPair false t None), (CTree t); split; [now rewrite (C62_condition _ _ HC)|]; split; [auto|exact (gives_tree t R)]).
      destruct CK as [CK|[CK NO]].
      - left. exists (OPair false t None), (CTree t). assert (2 <= kind s)%nat by (destruct HS as [-> | ->]; cbn; lia). destruct (Nat.ltb_spec (check i) 2); [lia|].
        split; [now rewrite (C62_condition _ _ HC)|]. split; [auto|exact (gives_tree t R)].
      - right. assert (NO' : exists t', condition ts t' /\ condition (INot :: ts) (TNot t')) by (destruct HS as [-> | ->]; exact NO).
        destruct NO' as (t' & K1 & K2). exists ts, t'. split; [reflexivity|]. split; [exact (proj1 (C62_unambiguous _) _ _ HC K2)|]. rewrite CK. cbn [Nat.ltb Nat.leb].
        now rewrite (C62_condition _ _ K1). }
    destruct X as [(o' & c & RO & (-> & ->) & G)|(r & t' & -> & -> & RO)].
    + destruct HS as [-> | ->]; (do 2 eexists; split; [reflexivity|]; split; [exact RO|]).
      * exists (CTree t). split; [reflexivity|]. eapply gives_imp; [exact G|]. intros b B. eapply tv_true; eassumption.
      * exists (CNot (CTree t)). split; [exact (c_not_some _ _ G)|]. eapply gives_imp; [exact (gives_not _ _ G)|]. intros b B. cbv beta in B.
        rewrite <- (negb_involutive b). eapply tv_false; eassumption.
    + cbn [ready] in R. pose proof (gives_tree t' R) as G. destruct HS as [-> | ->]; (do 2 eexists; split; [reflexivity|]; split; [exact RO|]).
      * exists (CNot (CTree t')). split; [exact (c_not_some _ _ G)|]. eapply gives_imp; [exact (gives_not _ _ G)|]. intros b B. cbv beta in B.
        eapply tv_true; [exact HC|]. rewrite <- (negb_involutive b). now apply tr_not.
      * exists (CTree t'). split; [reflexivity|]. eapply gives_imp; [exact G|]. intros b B.
        rewrite <- (negb_involutive b). eapply tv_false; [exact HC|]. now apply tr_not.
  - (* a value *) assert (CI : (check i < 2)%nat) by (destruct CK as [-> |[-> _]]; cbn; lia).
    cbn [read_subject]. rewrite (parse_arithmetic _ _ P1). do 2 eexists. split; [reflexivity|]. split; [exact (read_with_not _ _ n _ None _ P2 CI)|].
    exists (CTree (TRel (if n then RNe else REq) s x)). split; [cbn [evaluate_test]; now rewrite (data_88 _ _ _ P2)|].
    eapply gives_imp; [apply gives_rel, C|]. intros b (c & CC & ->).
    replace (holds (if n then RNe else REq) c) with (xorb n (is_eq c)) by (destruct n, c; reflexivity). eapply tv_value; eassumption.
  - (* a range *) assert (CI : (check i < 2)%nat) by (destruct CK as [-> |[-> _]]; cbn; lia).
    cbn [read_subject]. rewrite (parse_arithmetic _ _ P1). do 2 eexists. split; [reflexivity|].
    split; [rewrite (read_with_not _ _ n _ _ _ P2 CI), (parse_arithmetic _ _ P3); reflexivity|].
    destruct (gives_and _ _ _ _ (gives_rel RLe lo s C1) (gives_rel RLe s hi C2)) as [_ G].
    assert (G' : gives (CAnd (CTree (TRel RLe lo s)) (CTree (TRel RLe s hi))) (between items vals col lo s hi)).
    { eapply gives_imp; [exact G|]. intros [|]; cbv beta.
      - intros [(c & A1 & A2) (d & B1 & B2)]. apply (bt_in _ _ _ _ _ _ c d); auto; intros ->; discriminate.
      - intros [(c & A1 & A2)|(c & A1 & A2)]; destruct c; try discriminate; [now apply bt_low|now apply bt_high]. }
    unfold good. cbn [evaluate_test]. destruct n.
    + exists (CNot (CAnd (CTree (TRel RLe lo s)) (CTree (TRel RLe s hi)))). split; [reflexivity|]. eapply gives_imp; [exact (gives_not _ _ G')|].
      intros b B. cbv beta in B. replace b with (xorb true (negb b)) by (destruct b; reflexivity). eapply tv_range; eassumption.
    + eexists. split; [reflexivity|]. eapply gives_imp; [exact G'|]. intros b B. replace b with (xorb false b) by (destruct b; reflexivity). eapply tv_range; eassumption.
Qed.

(** ** One WHEN phrase *)
Inductive rows : list wsubject -> list wobject -> list subject -> list object -> Prop :=
| rows_nil : rows [] [] [] []
| rows_cons : forall s o s' o' ss os ss' os', good s o s' o' -> rows ss os ss' os' -> rows (s :: ss) (o :: os) (s' :: ss') (o' :: os').
Notation when_is := (when_is items vals col names).
Lemma when_cons : forall s o ss os (b : bool), (if b then tv s o true /\ when_is ss os true else tv s o false \/ when_is ss os false) -> when_is (s :: ss) (o :: os) b.
Proof.
  intros s o ss os [|]; cbn [SpecEvaluate.when_is]; [intros [A B]; now constructor|].
  intros [A|(i & s' & o' & A & B & C)]; [exists 0%nat, s, o; auto|exists (S i), s', o'; auto].
Qed.
Lemma when_acc : forall ss os ss' os', rows ss os ss' os' -> forall acc Q, gives acc Q -> exists c, when_cond (Some acc) ss' os' = Some c /\
  gives c (fun b => if b then Q true /\ when_is ss os true else Q false \/ when_is ss os false).
Proof.
  intros ss os ss' os' H. induction H as [|s o s' o' ss os ss' os' (c3 & E & G) R IH]; intros acc Q A.
  - exists acc. split; [reflexivity|]. eapply gives_imp; [exact A|]. intros [|] B; [split; [exact B|constructor]|now left].
  - cbn [when_cond]. rewrite E. destruct (gives_and _ _ _ _ A G) as [E2 G2]. rewrite E2. destruct (IH _ _ G2) as (c & EC & GC). exists c. split; [exact EC|].
    eapply gives_imp; [exact GC|]. intros [|]; cbv beta iota.
    + intros [[B1 B2] B3]. split; [exact B1|]. apply when_cons. auto.
    + intros [[B|B]|B]; auto; right; apply when_cons; auto.
Qed.
Lemma when_rows : forall ss os ss' os', rows ss os ss' os' -> ss <> [] -> exists c, when_cond None ss' os' = Some c /\ gives c (when_is ss os).
Proof.
  intros ss os ss' os' H NE. destruct H as [|s o s' o' ss os ss' os' (c3 & E & G) R]; [contradiction|].
  cbn [when_cond]. rewrite E. destruct (when_acc _ _ _ _ R _ _ G) as (c & EC & GC). exists c. split; [exact EC|].
  eapply gives_imp; [exact GC|]. intros [|]; cbv beta iota; intros B; apply when_cons; exact B.
Qed.

(** ** Reading the phrases *)
Lemma read_row : forall check ss os i, Forall subject_ok ss -> Forall2 testable ss os ->
  (forall j s o, nth_error ss j = Some s -> nth_error os j = Some o -> check (i + j)%nat = kind s \/ (check (i + j)%nat = 0%nat /\ not_ok s o)) ->
  exists ss' os', read_subjects ss = Some ss' /\ read_objects check i os = Some os' /\ rows ss os ss' os'.
Proof.
  intros check ss os i SK T. revert i. induction T as [|s o ss os TS T IH]; intros i CK; [exists [], []; repeat split; constructor|].
  inversion SK as [|? ? S1 S2]; subst.
  destruct (test_ok check i s o TS S1) as (s' & o' & RS & RO & G); [specialize (CK 0%nat s o eq_refl eq_refl); now rewrite Nat.add_0_r in CK|].
  destruct (IH S2 (S i)) as (ss' & os' & RSS & ROS & RR). { intros j x y X Y. specialize (CK (S j) x y X Y). now replace (i + S j)%nat with (S i + j)%nat in CK by lia. }
  exists (s' :: ss'), (o' :: os'). cbn [read_subjects read_objects]. rewrite RS, RO, RSS, ROS. split; [reflexivity|]. split; [reflexivity|]. now constructor.
Qed.
Variable beyond : nat -> nat.
Lemma check_first : forall ss j s, nth_error ss j = Some s -> (j < 64)%nat -> eval_check beyond ss j = kind s.
Proof.
  intros ss j s E L. unfold eval_check. destruct (Nat.ltb_spec j 64); [|lia]. apply nth_error_nth with (d := 0%nat). rewrite nth_error_map, E. reflexivity.
Qed.
Lemma check_later : forall ss j, (length ss <= j)%nat -> (j < 64)%nat -> eval_check beyond ss j = 0%nat.
Proof. intros ss j E L. unfold eval_check. destruct (Nat.ltb_spec j 64); [|lia]. apply nth_overflow. now rewrite map_length. Qed.
Lemma F2_length : forall A B (R : A -> B -> Prop) l l', Forall2 R l l' -> length l = length l'.
Proof. intros A B R l l' H. induction H; [reflexivity|]. cbn [length]. now f_equal. Qed.

Lemma F2_nth : forall A B (R : A -> B -> Prop) l l', Forall2 R l l' -> forall j a b, nth_error l j = Some a -> nth_error l' j = Some b -> R a b.
Proof. intros A B R l l' H. induction H; intros [|j] a b E E'; try discriminate; cbn [nth_error] in *; [congruence|now apply (IHForall2 j)]. Qed.
Lemma read_later : forall ss ws i ss', ss <> [] -> Forall subject_ok ss -> read_subjects ss = Some ss' ->
  Forall (fun os => Forall2 testable ss os) ws -> Forall (fun os => Forall2 not_ok ss os) ws ->
  (length ss <= i)%nat -> (i + length ws * length ss <= 64)%nat ->
  exists ws', read_whens (eval_check beyond ss) i ws = Some ws' /\ Forall2 (fun os os' => rows ss os ss' os') ws ws'.
Proof.
  intros ss ws i ss' NE SK RS T N L1 L2. revert i N L1 L2. induction T as [|os ws TS T IH]; intros i N L1 L2; [exists []; split; [reflexivity|constructor]|].
  inversion N as [|? ? N1 N2]; subst. pose proof (F2_length _ _ _ _ _ TS) as LEN. cbn [length Nat.mul] in L2.
  destruct (read_row (eval_check beyond ss) ss os i SK TS) as (ss2 & os' & RS2 & RO & RR).
  { intros j s o X Y. right. assert (j < length ss)%nat by (apply nth_error_Some; rewrite X; discriminate).
    split; [apply check_later; lia|]. exact (F2_nth _ _ _ _ _ N1 j s o X Y). }
  rewrite RS in RS2. injection RS2 as <-.
  destruct (IH (i + length os)%nat N2 ltac:(lia) ltac:(lia)) as (ws' & RW & F). exists (os' :: ws'). cbn [read_whens]. rewrite RO, RW. split; [reflexivity|]. now constructor.
Qed.
Lemma read_all : forall ss w ws ss', ss <> [] -> Forall subject_ok ss -> read_subjects ss = Some ss' ->
  Forall (fun os => Forall2 testable ss os) (w :: ws) -> Forall (fun os => Forall2 not_ok ss os) ws ->
  (S (length ws) * length ss <= 64)%nat ->
  exists w' ws', read_whens (eval_check beyond ss) 0 (w :: ws) = Some (w' :: ws') /\ Forall2 (fun os os' => rows ss os ss' os') (w :: ws) (w' :: ws').
Proof.
  intros ss w ws ss' NE SK RS T N L. inversion T as [|? ? T1 T2]; subst. pose proof (F2_length _ _ _ _ _ T1) as LEN. cbn [Nat.mul] in L.
  destruct (read_row (eval_check beyond ss) ss w 0 SK T1) as (ss2 & os' & RS2 & RO & RR).
  { intros j s o X Y. left. assert (j < length ss)%nat by (apply nth_error_Some; rewrite X; discriminate). apply check_first; [exact X|cbn; lia]. }
  rewrite RS in RS2. injection RS2 as <-.
  destruct (read_later ss ws (0 + length w)%nat ss' NE SK RS T2 N ltac:(lia) ltac:(lia)) as (ws' & RW & F). exists os', ws'. cbn [read_whens]. rewrite RO, RW. split; [reflexivity|]. now constructor.
Qed.

(** ** A group of WHEN phrases *)
Definition case_val (ss : list wsubject) (ws : list (list wobject)) (b : bool) : Prop :=
  if b then Exists (fun os => when_is ss os true) ws else Forall (fun os => when_is ss os false) ws.
Lemma whens_acc : forall ss ss' ws ws', ss <> [] -> Forall2 (fun os os' => rows ss os ss' os') ws ws' -> forall acc Q, gives acc Q ->
  exists c, whens_cond acc ss' ws' = Some c /\ gives c (fun b => if b then Q true \/ case_val ss ws true else Q false /\ case_val ss ws false).
Proof.
  intros ss ss' ws ws' NE H. induction H as [|os os' ws ws' R F IH]; intros acc Q A.
  - exists acc. split; [reflexivity|]. eapply gives_imp; [exact A|]. intros [|] B; [now left|split; [exact B|constructor]].
  - cbn [whens_cond]. destruct (when_rows _ _ _ _ R NE) as (c2 & E & G). rewrite E. destruct (gives_or _ _ _ _ A G) as [E2 G2]. rewrite E2.
    destruct (IH _ _ G2) as (c & EC & GC). exists c. split; [exact EC|]. eapply gives_imp; [exact GC|]. intros [|]; cbv beta iota; unfold case_val.
    + intros [[B|B]|B]; [now left|right; now apply Exists_cons_hd|right; now apply Exists_cons_tl].
    + intros [[B1 B2] B3]. split; [exact B1|]. now constructor.
Qed.

(** ** The cases *)
Notation cases := (list (list (list object) * option nat)).
Definition matched (ss : list wsubject) (ss' : list subject) (c : wcase) (c' : list (list object) * option nat) : Prop :=
  fst c' <> [] /\ Forall2 (fun os os' => rows ss os ss' os') (w_whens c) (fst c').
(** With the statements of the cases given by [ks]; [other]: what follows. *)
Lemma cases_ok : forall ss ss' cs cs', ss <> [] -> Forall2 (matched ss ss') cs cs' -> forall other, (other = [] \/ exists o, other = [([], o)]) ->
  exists e, build_evaluate ss' (cs' ++ other) = Some e /\ forall s, citems s = items -> cmp_history (cpack s) ->
  exists k s', run_evaluate m debug alpha col nibble_c names e s = Ok (k, s') /\ citems s' = items /\ cmp_history (cpack s') /\
    ((exists i c c', nth_error cs i = Some c /\ nth_error cs' i = Some c' /\ k = snd c' /\ case_is items vals col names ss c true /\
        (forall j d, (j < i)%nat -> nth_error cs j = Some d -> case_is items vals col names ss d false)) \/
     ((forall j d, nth_error cs j = Some d -> case_is items vals col names ss d false) /\ k = match other with (_, o) :: _ => o | [] => None end)).
Proof.
  intros ss ss' cs cs' NE H other HO. induction H as [|c c' cs cs' M F IH].
  - destruct HO as [-> |(o & ->)].
    + exists ENone. split; [reflexivity|]. intros s E K. exists None, s. split; [reflexivity|]. split; [exact E|]. split; [exact K|]. right. split; [|reflexivity]. intros [|j] d X; discriminate X.
    + exists (EStmts o). split; [reflexivity|]. intros s E K. exists o, s. split; [reflexivity|]. split; [exact E|]. split; [exact K|]. right. split; [|reflexivity]. intros [|j] d X; discriminate X.
  - destruct IH as (e & EB & RUN). destruct M as [NW M]. destruct c' as [ws' k']. cbn [fst] in *. inversion M as [X Y|w w' ws ws2 R F2 E1 E2]; subst; [now elim NW|].
    destruct (when_rows _ _ _ _ R NE) as (c0 & E0 & G0). destruct (whens_acc _ _ _ _ NE F2 _ _ G0) as (c1 & EC & GC).
    exists (EIf c1 k' e). cbn [app build_evaluate]. rewrite E0, EC, EB. split; [reflexivity|]. intros s ES K.
    destruct (proj2 GC s ES K) as (b & s1 & R1 & B & ES1 & K1). cbn [run_evaluate]. rewrite R1. cbn [obind fst snd]. destruct b.
    + exists k', s1. split; [reflexivity|]. split; [exact ES1|]. split; [exact K1|]. left. exists 0%nat, c, (w' :: ws2, k'). split; [reflexivity|]. split; [reflexivity|]. split; [reflexivity|].
      split; [|intros j d L; lia]. unfold case_is. rewrite <- E1. destruct B as [B|B]; [now apply Exists_cons_hd|now apply Exists_cons_tl].
    + assert (CF : case_is items vals col names ss c false) by (unfold case_is; rewrite <- E1; destruct B as [B1 B2]; now constructor).
      destruct (RUN s1 ES1 K1) as (k & s2 & R2 & ES2 & K2 & SEL). exists k, s2. split; [exact R2|]. split; [exact ES2|]. split; [exact K2|].
      destruct SEL as [(i & d & d' & A1 & A2 & A3 & A4 & A5)|[A1 A2]].
      * left. exists (S i), d, d'. repeat (split; [assumption|]). intros [|j] x L X; [now injection X as <-|]. apply (A5 j); [lia|exact X].
      * right. split; [|exact A2]. intros [|j] x X; [now injection X as <-|now apply (A1 j)].
Qed.
Lemma fill_nth : forall (l : cases) o i, nth_error (fill_last l o) i =
  match nth_error l i with
  | Some (w, None) => Some (w, if (S i =? length l)%nat then o else None)
  | x => x
  end.
Proof.
  intros l o. induction l as [|[w k] l IH]; intros i; [destruct i; reflexivity|]. destruct l as [|c l].
  - cbn [fill_last length]. destruct i as [|i]; [destruct k; reflexivity|]. cbn [nth_error]. destruct k; destruct i; reflexivity.
  - replace (fill_last ((w, k) :: c :: l) o) with ((w, k) :: fill_last (c :: l) o) by (cbn [fill_last]; destruct k; reflexivity).
    destruct i as [|i]; cbn [nth_error]; [destruct k; reflexivity|]. rewrite IH. cbn [length Nat.eqb]. reflexivity.
Qed.
End P.
