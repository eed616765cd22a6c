(** Theorems C63: conditions. *)
From Coq Require Import QArith.
From Verif Require Import Base BaseFacts Field Sign Decimal SpecNum Numeric SpecStore NumFacts DecProofs PackedInt P_Int P_Num P_Move Move MoveAll.
From Verif Require Import Compute SpecCompute ComputeProofs ComputeMain SpecCmp ExprParse SpecExpr P_Expr Cond SpecCond CondProofs.
Local Open Scope Z_scope.

(** C63.  A condition that can be evaluated is: the result is a truth value of
    the condition, no item is changed, and the static state of the run-time
    stays one that comparisons leave behind.  For any state, subscript checking
    or not, any collating sequence. *)
Theorem C63_truth : forall m debug alpha col nibble_c names vals t s,
  (col <> None -> alpha = true) -> cmp_history (cpack s) -> ready (citems s) vals m col names t ->
  exists b s', eval m debug alpha col nibble_c names t s = Ok (b, s') /\
    truth (citems s) vals col names t b /\ citems s' = citems s /\ cmp_history (cpack s').
Proof.
  intros m debug alpha col nibble_c names vals t s HC H R.
  exact (eval_ok m debug alpha col nibble_c names vals HC (citems s) t R s eq_refl H).
Qed.
Print Assumptions C63_truth.

(** Without quotients there is one truth value, and it is the result, whatever
    was compared before and however the program was compiled. *)
Theorem C63_exact : forall m debug alpha col nibble_c names vals t b s,
  (col <> None -> alpha = true) -> cmp_history (cpack s) -> ready (citems s) vals m col names t -> exact_tree names t ->
  truth (citems s) vals col names t b ->
  exists s', eval m debug alpha col nibble_c names t s = Ok (b, s') /\ citems s' = citems s.
Proof.
  intros m debug alpha col nibble_c names vals t b s HC H R X T.
  destruct (C63_truth m debug alpha col nibble_c names vals t s HC H R) as (b' & s' & E & T' & I' & _).
  rewrite (truth_unique _ _ _ _ t b X T b' T'). exists s'. auto.
Qed.
Print Assumptions C63_exact.

Theorem C63_independent : forall m m' debug debug' alpha alpha' col nibble_c nibble_c' names vals t s s' b k,
  (col <> None -> alpha = true /\ alpha' = true) -> cmp_history (cpack s) -> cmp_history (cpack s') -> citems s' = citems s ->
  ready (citems s) vals m col names t -> ready (citems s) vals m' col names t -> exact_tree names t ->
  eval m debug alpha col nibble_c names t s = Ok (b, k) ->
  exists k', eval m' debug' alpha' col nibble_c' names t s' = Ok (b, k').
Proof.
  intros m m' debug debug' alpha alpha' col nibble_c nibble_c' names vals t s s' b k HC H H' I R R' X E.
  destruct (C63_truth m debug alpha col nibble_c names vals t s (fun c => proj1 (HC c)) H R) as (b1 & k1 & E1 & T1 & _).
  rewrite E in E1. apply Ok_inj in E1. assert (b1 = b) by congruence. subst b1.
  destruct (C63_exact m' debug' alpha' col nibble_c' names vals t b s') as (k' & E' & _); auto; try (rewrite I; assumption).
  - intros c. exact (proj2 (HC c)).
  - now exists k'.
Qed.
Print Assumptions C63_independent.

(** From the tokens of the sentence to the truth value. *)
Theorem C63_sentence : forall ts t m debug alpha col nibble_c names vals s, condition ts t ->
  (col <> None -> alpha = true) -> cmp_history (cpack s) -> ready (citems s) vals m col names t ->
  exists t' b s', parse ts = Accepted t' /\ eval m debug alpha col nibble_c names t' s = Ok (b, s') /\
    truth (citems s) vals col names t b /\ citems s' = citems s.
Proof.
  intros ts t m debug alpha col nibble_c names vals s C HC H R.
  destruct (C63_truth m debug alpha col nibble_c names vals t s HC H R) as (b & s' & E & T & I' & _).
  exists t, b, s'. split; [now apply C62_condition|auto].
Qed.
Print Assumptions C63_sentence.

(** ** Examples *)

(** A IS NUMERIC AND A > 5, for any bytes in A PIC 999. *)
Definition no_names : nat -> name88 := fun _ => mkName OZero [].
Definition a999 (l : list Z) : field := mkField (disp 3 0 false false false) l.
Definition five : expr := ELit 0 [5] 0.
Definition guarded : tree := TAnd (TClass CNumeric va) (TRel RGt va (TLeaf (ONum five))).
Definition guarded_ts : list inp := [IX A_; IClass CNumeric; IAnd; IX A_; IRel RGt; IX (ONum five)].
Definition start_state (items : list field) : cst := mkCst (mkMach (fun _ => mkDec 0 0) items false) cmp_init.
Lemma digits_of : forall l, Forall (fun k => 48 <= k <= 57) l -> exists ds, l = map digit_char ds /\ Forall is_dig ds.
Proof.
  induction 1 as [|x l X F (ds & -> & D)]; [now exists []|]. exists (x - 48 :: ds). split; [cbn [map]; unfold digit_char; f_equal; lia|].
  constructor; [unfold is_dig; lia|exact D].
Qed.
Example C63_ex_guard : forall m l, length l = 3%nat -> exists vals b s',
  parse guarded_ts = Accepted guarded /\
  eval m false false None false no_names guarded (start_state [a999 l]) = Ok (b, s') /\
  truth [a999 l] vals None no_names guarded b.
Proof.
  intros m l L.
  assert (RD : exists vals, ready [a999 l] vals m None no_names guarded).
  { assert (CT : class_testable [a999 l] CNumeric A_).
    { split; [exact I|]. cbn [A_]. split; [cbn; lia|]. split; [reflexivity|]. split; reflexivity. }
    destruct (Forall_dec (fun k => 48 <= k <= 57) (fun k => ltac:(destruct (Z_le_dec 48 k), (Z_le_dec k 57); [left; lia|right; lia..])) l) as [F|F].
    - destruct (digits_of l F) as (ds & E & D). exists (fun _ => digits_value ds). split; [exact CT|]. intros _.
      assert (OP : operands_ok [a999 l] (fun _ => digits_value ds) m (ERef 0)).
      { apply ok_ref; [split; [cbn; lia|]|left; cbn; lia]. cbn [nth]. unfold a999. rewrite E.
        apply (den_display (c_ebcdic m) (disp 3 0 false false false) false ds); try reflexivity; auto; try discriminate. intros ->. rewrite E in L. discriminate L. }
      apply (ca_num _ _ _ va (TLeaf (ONum five)) (ERef 0) five 0 0 0 0); try reflexivity.
      + apply (pl_ref _ _ 0 0); [reflexivity|lia].
      + apply pl_lit. lia.
      + exact OP.
      + apply ok_lit; [discriminate| |lia]. repeat constructor; lia.
      + intros X. inversion X.
      + intros X. inversion X.
      + intros i EI T. injection EI as <-. discriminate T.
      + cbn. lia.
      + intros [X _]. exact X.
    - exists (fun _ => 0). split; [exact CT|]. intros T. exfalso. inversion T as [|c o i b IX B| | | | | | |]; subst. injection IX as <-.
      apply F. apply B. reflexivity. }
  destruct RD as (vals & R). exists vals.
  destruct (C63_truth m false false None false no_names vals guarded (start_state [a999 l])) as (b & s' & E & T & _); [intros X; now contradiction X|apply ch_start|exact R|].
  exists b, s'. split; [vm_compute; reflexivity|]. split; [exact E|exact T].
Qed.

(** ** Refuted *)

(** Two numeric literals of as many digits are compared digit by digit, without
    the sign and the decimal point: IF 15 = 1.5 and IF 7.7 = -7.7 are true. *)
Theorem C63_literals_refuted : forall m s,
  eval m false false None false no_names (TRel REq (TLeaf (ONum (ELit 0 [1;5] 0))) (TLeaf (ONum (ELit 0 [1;5] 1)))) s = Ok (true, s) /\
  eval m false false None false no_names (TRel REq (TLeaf (ONum (ELit 0 [7;7] 1))) (TLeaf (ONum (ELit (-1) [7;7] 1)))) s = Ok (true, s) /\
  forall items vals, truth items vals None no_names (TRel REq (TLeaf (ONum (ELit 0 [1;5] 0))) (TLeaf (ONum (ELit 0 [1;5] 1)))) false.
Proof.
  intros m s. split; [vm_compute; reflexivity|]. split; [vm_compute; reflexivity|]. intros items vals.
  apply (tr_rel _ _ _ _ REq _ _ Gt).
  apply (cp_num items vals None (TLeaf (ONum (ELit 0 [1;5] 0))) (TLeaf (ONum (ELit 0 [1;5] 1))) (ELit 0 [1;5] 0) (ELit 0 [1;5] 1) (rat 15 0) (rat 15 1));
    try reflexivity; apply co_lit; apply Qeq_refl.
Qed.
Print Assumptions C63_literals_refuted.

(** Division by zero in a condition is not noticed: A / 0 counts as A * 10^128,
    so 1 / 0 > 999999999 is true and 0 / 0 = 0 as well. *)
Definition one : expr := ELit 0 [1] 0.
Definition nines : expr := ELit 0 [9;9;9;9;9;9;9;9;9] 0.
Theorem C63_division_by_zero_refuted :
  (exists s', eval default_cfg false false None false no_names
     (TRel RGt (TArith ADiv (TLeaf (ONum one)) (TLeaf OZero)) (TLeaf (ONum nines))) (start_state []) = Ok (true, s')) /\
  (exists s', eval default_cfg false false None false no_names
     (TRel REq (TArith ADiv (TLeaf OZero) (TLeaf OZero)) (TLeaf OZero)) (start_state []) = Ok (true, s')) /\
  forall vals, fails [] vals (EBin ADiv one EZero) /\ fails [] vals (EBin ADiv EZero EZero).
Proof.
  split; [eexists; vm_compute; reflexivity|]. split; [eexists; vm_compute; reflexivity|].
  intros vals. split; apply (fa_div [] vals _ EZero 0); try apply Qeq_refl; apply co_zero; apply Qeq_refl.
Qed.
Print Assumptions C63_division_by_zero_refuted.

(** Quotients are cut: 1 / 3 * 3 = 1 is false. *)
Theorem C63_third_refuted : exists s',
  eval default_cfg false false None false no_names
    (TRel REq (TArith AMul (TArith ADiv (TLeaf (ONum one)) (TLeaf (ONum (ELit 0 [3] 0)))) (TLeaf (ONum (ELit 0 [3] 0)))) (TLeaf (ONum one)))
    (start_state []) = Ok (false, s').
Proof. eexists. vm_compute. reflexivity. Qed.
Print Assumptions C63_third_refuted.

(** A packed item of ten or more digits holding a negative zero is less than
    zero. *)
Definition neg_zero : field := mkField (pack 11 0 true) [0;0;0;0;0;13].
Theorem C63_negative_zero_refuted :
  (exists s', eval default_cfg false false None false no_names (TRel RLt va (TLeaf OZero)) (start_state [neg_zero]) = Ok (true, s')) /\
  denotes (c_ebcdic default_cfg) neg_zero 0 /\ truth [neg_zero] (fun _ => 0) None no_names (TRel RLt va (TLeaf OZero)) false.
Proof.
  split; [eexists; vm_compute; reflexivity|]. split.
  - apply (den_packed _ (pack 11 0 true) true [0;0;0;0;0;0;0;0;0;0;0]); try reflexivity; try discriminate. repeat constructor; discriminate.
  - apply (tr_rel _ _ _ _ RLt _ _ Eq).
    apply (cp_num [neg_zero] (fun _ => 0) None va (TLeaf OZero) (ERef 0) EZero (rat 0 0) 0); try reflexivity; [apply co_ref; apply Qeq_refl|apply co_zero; apply Qeq_refl].
Qed.
Print Assumptions C63_negative_zero_refuted.

(** A condition-name: 88 SMALL VALUE 1 THRU 5, 8 on a PIC S9(4) COMP item. *)
Definition small : name88 := mkName A_ [VThru (ONum one) (ONum five); VOne (ONum (ELit 0 [8] 0))].
Definition bin4 (l : list Z) : field := mkField (mkAttr TBinary 4 0 true false false false false true false []) l.
Example C63_ex_name : forall m l, length l = 2%nat -> bytes_ok l ->
  let v := bin_value true true l in
  exists s', eval m false false None false (fun _ => small) (TLeaf (OCond 0)) (start_state [bin4 l]) =
    Ok ((1 <=? v) && (v <=? 5) || (v =? 8), s').
Proof.
  intros m l L BY v.
  assert (OP : operands_ok [bin4 l] (fun _ => v) m (ERef 0)).
  { apply ok_ref; [split; [cbn; lia|]|left; cbn; lia]. cbn [nth]. unfold bin4, v. apply (den_binary (c_ebcdic m) (mkAttr TBinary 4 0 true false false false false true false []) l); [reflexivity|lia|exact BY]. }
  assert (OL : forall d, is_dig d -> operands_ok [bin4 l] (fun _ => v) m (ELit 0 [d] 0)).
  { intros d D. apply ok_lit; [discriminate|now constructor|lia]. }
  assert (NF : forall e, is_op e = false -> ~ fails [bin4 l] (fun _ => v) e) by (intros e O X; inversion X; subst; discriminate O).
  assert (WR : within [bin4 l] (fun _ => v) (ERef 0) 0 0) by (apply (pl_ref _ _ 0 0); [reflexivity|lia]).
  assert (WL : forall d, within [bin4 l] (fun _ => v) (ELit 0 [d] 0) 0 0) by (intros; apply pl_lit; lia).
  assert (C1 : forall d, is_dig d -> comparable [bin4 l] (fun _ => v) m (TLeaf (ONum (ELit 0 [d] 0))) va).
  { intros d D. apply (ca_num _ _ _ _ _ (ELit 0 [d] 0) (ERef 0) 0 0 0 0); auto; try reflexivity; try (now apply NF); try exact I; [intros i X; discriminate X|intros [_ X]; exact X]. }
  assert (C2 : forall d, is_dig d -> comparable [bin4 l] (fun _ => v) m va (TLeaf (ONum (ELit 0 [d] 0)))).
  { intros d D. apply (ca_num _ _ _ _ _ (ERef 0) (ELit 0 [d] 0) 0 0 0 0); auto; try reflexivity; try (now apply NF); [intros i X T; injection X as <-; discriminate T|cbn; lia|intros [X _]; exact X]. }
  assert (DG : forall d, 0 <= d <= 9 -> is_dig d) by (intros; exact H).
  assert (CV : forall d, 0 <= d <= 9 -> compares [bin4 l] (fun _ => v) None va (TLeaf (ONum (ELit 0 [d] 0))) (v ?= d)).
  { intros d D. replace (v ?= d) with (rat v 0 ?= rat d 0)%Q; [apply (cp_num _ _ _ _ _ (ERef 0) (ELit 0 [d] 0) (rat v 0) (rat d 0)); try reflexivity; [apply co_ref|apply co_lit; cbn [Z.ltb Z.compare]; unfold signed_value, digits_value; cbn [digits_value_aux]; replace (10 * 0 + d) with d by lia]; apply Qeq_refl|].
    destruct (Z.compare_spec v d) as [-> |K|K]; [now apply Qeq_alt|apply Qlt_alt; now apply rat_lt|apply Qgt_alt; now apply rat_lt]. }
  assert (CV' : forall d, 0 <= d <= 9 -> compares [bin4 l] (fun _ => v) None (TLeaf (ONum (ELit 0 [d] 0))) va (d ?= v)).
  { intros d D. replace (d ?= v) with (rat d 0 ?= rat v 0)%Q; [apply (cp_num _ _ _ _ _ (ELit 0 [d] 0) (ERef 0) (rat d 0) (rat v 0)); try reflexivity; [apply co_lit; cbn [Z.ltb Z.compare]; unfold signed_value, digits_value; cbn [digits_value_aux]; replace (10 * 0 + d) with d by lia|apply co_ref]; apply Qeq_refl|].
    destruct (Z.compare_spec d v) as [-> |K|K]; [now apply Qeq_alt|apply Qlt_alt; now apply rat_lt|apply Qgt_alt; now apply rat_lt]. }
  destruct (C63_exact m false false None false (fun _ => small) (fun _ => v) (TLeaf (OCond 0)) ((1 <=? v) && (v <=? 5) || (v =? 8)) (start_state [bin4 l])) as (s' & E & _).
  - intros X; now contradiction X.
  - apply ch_start.
  - split; [discriminate|]. constructor; [split; [apply C1|apply C2]; apply DG; lia|]. constructor; [apply C2; apply DG; lia|constructor].
  - split; [reflexivity|]. repeat constructor.
  - destruct (Z.leb_spec 1 v) as [K1|K1]; cbn [andb]; [destruct (Z.leb_spec v 5) as [K2|K2]; cbn [orb]|cbn [orb]].
    + apply (tr_name_true _ _ _ _ 0%nat (VThru (ONum one) (ONum five))); [now left|]. split; eexists.
      * split; [apply (CV' 1); lia|]. apply Z.compare_le_iff. lia.
      * split; [apply (CV 5); lia|]. apply Z.compare_le_iff. lia.
    + destruct (Z.eqb_spec v 8) as [K|K].
      * apply (tr_name_true _ _ _ _ 0%nat (VOne (ONum (ELit 0 [8] 0)))); [right; now left|]. pose proof (CV 8 ltac:(lia)) as X. rewrite (proj2 (Z.compare_eq_iff v 8) K) in X. exact X.
      * apply tr_name_false. intros w [ <- |[ <- |[]]].
        -- right. pose proof (CV 5 ltac:(lia)) as X. rewrite (proj2 (Z.compare_gt_iff v 5) K2) in X. exact X.
        -- exists (v ?= 8). split; [apply CV; lia|]. intros X. apply Z.compare_eq_iff in X. contradiction.
    + destruct (Z.eqb_spec v 8) as [K|K]; [lia|].
      apply tr_name_false. intros w [ <- |[ <- |[]]].
      * left. pose proof (CV' 1 ltac:(lia)) as X. rewrite (proj2 (Z.compare_gt_iff 1 v) K1) in X. exact X.
      * exists (v ?= 8). split; [apply CV; lia|]. intros X. apply Z.compare_eq_iff in X. contradiction.
  - exists s'. exact E.
Qed.
