(** * INITIALIZE and the contents of storage at program start (C67)
    Model: Initialize.v (cobc/codegen.c, typeck.c).  Specification:
    SpecInitialize.v. *)
From Verif Require Import Base BaseFacts Layout SpecLayout LayoutProofs Initialize SpecInitialize InitializeProofs.
From Verif Require Field SpecNum.

Local Open Scope nat_scope.

(** ** INITIALIZE
    For every statement and every data description: each occurrence of an item
    (FILLER and REDEFINES aside) holds what the phrases say, every elementary
    item to which nothing is due and all other storage keep their contents.
    The hypotheses exclude what the refutations below show to be wrong. *)
Theorem C67_initialize : forall mv ebcdic s hp f d m,
  move_sizes mv -> everywhere sane f -> well_placed (erase f) ->
  (* no category in the VALUE phrase *)
  (forall k, i_value s <> Some (Some k)) ->
  (* no FILLER with a VALUE, unless it is to be initialised *)
  (i_value s <> None -> i_filler s = false ->
     everywhere (fun g => f_ch g = [] -> a_filler (f_attr g) = true -> a_value (f_attr g) = None) f) ->
  (* WITH FILLER: not on a REDEFINES entry or a table element *)
  (i_filler s = true -> f_redef f = false /\ a_occurs (f_attr f) = false) ->
  initialized mv ebcdic s f d m (run_all mv (initialize ebcdic (emit_initialize s) hp f d) m).
Proof.
  intros mv ebcdic s hp f d m HM EV W HC HF HW.
  assert (FI : everywhere (fine s) f).
  { unfold fine. destruct (i_filler s) eqn:EF.
    - clear - EV. induction EV as [f S K IH]. constructor; auto.
    - destruct (i_value s) as [v|] eqn:EI.
      + assert (HF' := HF ltac:(discriminate) eq_refl). clear - EV HF'. induction EV as [f S K IH]. inversion HF' as [? A B]; subst.
        constructor; [split; [exact S|]; intros _ L FL NV; now destruct (NV (A L FL))|]. intros c I. apply IH; auto.
      + clear - EV. induction EV as [f S K IH]. constructor; [split; [exact S|]; congruence|auto]. }
  apply initialize_good; auto.
  - unfold redef_ok. rewrite phrase_stmt. destruct (i_filler s); [|now rewrite andb_false_r]. now rewrite (proj1 (HW eq_refl)).
  - rewrite phrase_stmt. destruct (i_filler s); [|discriminate]. intros _ _. apply HW. reflexivity.
  - rewrite phrase_stmt. destruct (i_filler s); [|discriminate]. intros _ _. apply HW. reflexivity.
Qed.
Print Assumptions C67_initialize.

(** In particular for the storage the compiler lays out (C54). *)
Corollary C67_laid_out : forall mv ebcdic s f d m c so off i,
  move_sizes mv -> everywhere sane f -> ok_item i -> erase f = layout c so off i ->
  i_value s = None -> i_filler s = false ->
  initialized mv ebcdic s f d m (run_all mv (initialize ebcdic (emit_initialize s) false f d) m).
Proof.
  intros mv ebcdic s f d m c so off i HM EV OK E HV HF. apply C67_initialize; auto; try congruence.
  rewrite E. now apply layout_well_placed.
Qed.
Print Assumptions C67_laid_out.

(** ** Program start
    [start auto]: every item, FILLER included, receives its VALUE, and its
    default if it has none (unless switched off). *)
Definition start (auto : bool) : init_stmt := mkInit true (Some None) [] auto.
Lemma start_phrases : forall auto, emit_initialize (start auto) = initial_phrases auto.
Proof. reflexivity. Qed.
Lemma start_fine : forall auto f, everywhere sane f -> everywhere (fine (start auto)) f.
Proof. intros auto f EV. induction EV as [f S K IH]. constructor; [split; [exact S|reflexivity]|exact IH]. Qed.

Theorem C67_start : forall mv ebcdic auto hp f d m,
  move_sizes mv -> everywhere sane f -> well_placed (erase f) ->
  f_redef f = false -> a_occurs (f_attr f) = false ->
  initialized mv ebcdic (start auto) f d m (run_all mv (initialize ebcdic (initial_phrases auto) hp f d) m).
Proof.
  intros mv ebcdic auto hp f d m HM EV W R O. rewrite <- start_phrases. apply C67_initialize; auto; try discriminate.
Qed.
Print Assumptions C67_start.

(** A level 01 table with a VALUE, or a group that is not filled uniformly (see
    below): every occurrence is initialised. *)
Theorem C67_start_table : forall mv ebcdic auto f m k,
  move_sizes mv -> everywhere sane f -> well_placed (erase f) -> f_redef f = false -> a_occurs (f_attr f) = true ->
  (a_value (f_attr f) <> None \/ f_ch f <> []) ->
  (init_type ebcdic (initial_phrases auto) true f = DEFAULT -> uniform_char f = None) ->
  k < f_occ f ->
  let m' := run_all mv (initialize ebcdic (initial_phrases auto) false f 0) m in
  (forall g e img, occurrence (start auto) f (k * f_size f) g e -> due mv ebcdic (start auto) g = Some img -> holds m' (f_off g + e) img) /\
  (forall x, x < f_off f \/ f_off f + f_occ f * f_size f <= x -> m' x = m x).
Proof.
  intros mv ebcdic auto f m k HM EV W R O HV NU K. rewrite <- start_phrases in *. set (s := start auto) in *.
  assert (HC : forall k, i_value s <> Some (Some k)) by discriminate.
  pose proof (start_fine auto f EV) as FI. fold s in FI. assert (FF : fine s f) by (now inversion FI).
  assert (AG : allgood mv ebcdic s f (f_occ f) 0 (initialize ebcdic (emit_initialize s) false f 0)).
  { assert (RO : forall top, redef_ok s top f) by (intros top; unfold redef_ok; now rewrite R).
    assert (SA : sane f) by apply FF.
    assert (CT : compound_top ebcdic (emit_initialize s) false f 0 =
      match init_type ebcdic (emit_initialize s) false f with
      | NONE => [] | ONE => each (fun d => one ebcdic (emit_initialize s) f (f_off f + d)) f 0
      | _ => each (fun d => compound ebcdic (emit_initialize s) f d) f 0 end).
    { unfold compound_top. rewrite O. cbn [s start emit_initialize ph_stmt i_filler negb andb].
      destruct (init_type _ _ false f); reflexivity. }
    assert (NN : forall n, (forall g e d, occurrence s f d g e -> due mv ebcdic s g = None) -> allgood mv ebcdic s f n 0 []).
    { intros n ND m0. cbn [run_all fold_left]. cbv zeta. split; [intros k0 g e img _ OC D; rewrite (ND _ _ _ OC) in D; discriminate|split; auto]. }
    assert (CC : allgood mv ebcdic s f (f_occ f) 0 (compound_top ebcdic (emit_initialize s) false f 0)).
    { rewrite CT. destruct (init_type ebcdic (emit_initialize s) false f) eqn:T.
      - apply NN. intros g e d OC. eapply (none_due mv ebcdic s HC f false); eauto.
      - apply each_good; auto. intros e. apply (one_good mv ebcdic HM s HC f false); auto.
      - destruct (uniform_char f) as [c|] eqn:U.
        + exfalso. enough (T2 : init_type ebcdic (emit_initialize s) true f = DEFAULT) by (specialize (NU T2); congruence).
          destruct (group_type ebcdic s f false _ T ltac:(discriminate) ltac:(discriminate) (RO false)) as [V _].
          rewrite init_type_eq in T |- *. rewrite R in *. cbn [andb] in *. rewrite V in *. exact T.
        + destruct (default_group mv ebcdic s f false (RO false) T U). apply each_good; auto. apply (comp_good mv ebcdic HM s HC); auto.
      - destruct (compound_group ebcdic s f R T). apply each_good; auto. apply (comp_good mv ebcdic HM s HC); auto. }
    unfold initialize. destruct (init_type ebcdic (emit_initialize s) true f) eqn:T.
    - apply NN. intros g e d OC. eapply (none_due mv ebcdic s HC f true); eauto.
    - exfalso. rewrite init_type_eq in T. rewrite R in T. cbn [andb] in T.
      destruct (ph_val (emit_initialize s) && has_value f) eqn:V; [rewrite O in T; discriminate|].
      destruct HV as [HV|NE]; [unfold has_value in V; destruct (a_value (f_attr f)); [discriminate|congruence]|].
      destruct (f_ch f) as [|c r]; [congruence|]. destruct (ity_eqb (init_type ebcdic (emit_initialize s) false c) ONE) eqn:E; [discriminate|].
      destruct (forallb _ r); [rewrite T in E|]; discriminate.
    - rewrite (NU eq_refl). exact CC.
    - exact CC. }
  destruct (AG m) as (A & _ & B). cbv zeta. split.
  - intros g e img OC D. apply (A k g e img K OC D).
  - intros x X. apply B. lia.
Qed.
Print Assumptions C67_start_table.

(** ** The defaults are the number zero *)
Lemma digits_zero : forall n, SpecNum.digits_value (repeat 0%Z n) = 0%Z.
Proof. induction n; [reflexivity|exact IHn]. Qed.
Lemma map_zero : forall n, map SpecNum.digit_char (repeat 0%Z n) = repeat 48%Z n.
Proof. induction n; [reflexivity|]. cbn. now f_equal. Qed.
Lemma repeat_snoc : forall (x : Z) n, repeat x n ++ [x] = repeat x (S n).
Proof. induction n; [reflexivity|]. cbn. now f_equal. Qed.
Theorem C67_zero_display : forall ebcdic a n, 1 <= n -> Field.a_type a = Field.TDisplay -> Field.a_sep a = false ->
  ebcdic && Field.a_sign a = false -> SpecNum.denotes ebcdic (Field.mkField a (repeat 48%Z n)) 0.
Proof.
  intros ebcdic a n HN T S E.
  assert (Z : SpecNum.zoned ebcdic a false (repeat 0%Z n) = repeat 48%Z n).
  { unfold SpecNum.zoned. destruct (Field.a_sign a); cbn [negb]; [|apply map_zero]. rewrite S. rewrite andb_true_r in E. subst ebcdic.
    destruct n as [|n]; [lia|]. destruct (Field.a_lead a).
    - cbn. f_equal. apply map_zero.
    - rewrite <- (repeat_snoc 0%Z), removelast_last, last_last, map_zero. apply repeat_snoc. }
  rewrite <- Z. change 0%Z with (SpecNum.signed_value false []) at 2.
  replace (SpecNum.signed_value false []) with (SpecNum.signed_value false (repeat 0%Z n)) by apply digits_zero.
  apply SpecNum.den_display; auto; try congruence.
  - destruct n; [lia|discriminate].
  - clear. induction n; constructor; auto. unfold SpecNum.is_dig. lia.
Qed.
Print Assumptions C67_zero_display.
Lemma le_zero : forall n, SpecNum.le_value (repeat 0%Z n) = 0%Z.
Proof. induction n as [|n IH]; [reflexivity|]. change (SpecNum.le_value (repeat 0%Z (S n))) with (0 + 256 * SpecNum.le_value (repeat 0%Z n))%Z. rewrite IH. reflexivity. Qed.
Theorem C67_zero_binary : forall ebcdic a n, 1 <= n <= 8 -> Field.a_type a = Field.TBinary ->
  SpecNum.denotes ebcdic (Field.mkField a (repeat 0%Z n)) 0.
Proof.
  intros ebcdic a n HN T.
  assert (Z : SpecNum.bin_value (Field.a_sign a) (Field.a_swap a) (repeat 0%Z n) = 0%Z).
  { unfold SpecNum.bin_value, SpecNum.bin_unsigned. rewrite rev_repeat, repeat_length.
    replace (if Field.a_swap a then repeat 0%Z n else repeat 0%Z n) with (repeat 0%Z n) by (destruct (Field.a_swap a); reflexivity).
    rewrite le_zero. replace (256 ^ Z.of_nat n / 2 <=? 0)%Z with false; [now rewrite andb_false_r|].
    symmetry. apply Z.leb_gt. apply Z.div_str_pos. split; [lia|].
    replace (Z.of_nat n) with (1 + (Z.of_nat n - 1))%Z by lia. rewrite Z.pow_add_r by lia. pose proof (Z.pow_pos_nonneg 256 (Z.of_nat n - 1) ltac:(lia) ltac:(lia)). lia. }
  pose proof (SpecNum.den_binary ebcdic a (repeat 0%Z n) T) as DB. rewrite Z in DB. apply DB.
  - rewrite repeat_length. exact HN.
  - clear. induction n; constructor; auto. split; lia.
Qed.
Print Assumptions C67_zero_binary.

(** ** An example that meets the hypotheses
      01 G.  05 A PIC 9(2).  05 FILLER PIC X(1).  05 T OCCURS 2.
             10 B PIC 9(2). 10 C PIC 9.  10 R REDEFINES C PIC X.  10 D PIC X(2) VALUE "xy".
             05 E PIC S9(4) BINARY.                                            *)
Definition dc (redef : bool) (occ : nat) (u : usage) (n : nat) (num : bool) : decl := mkDecl redef occ false u n false num false false.
Definition at_ (d : decl) (k : cat) (v : option value) : attr := mkAttr d false (1 <? d_occ d) k v.
Definition filler (d : decl) (k : cat) (v : option value) : attr := mkAttr d true (1 <? d_occ d) k v.
Definition g_ex : fld :=
  Fld (at_ (dc false 1 UDisplay 0 false) CAlnum None) 0 15
    [ Fld (at_ (dc false 1 UDisplay 2 true) CNumeric None) 0 2 [];
      Fld (filler (dc false 1 UDisplay 1 false) CAlnum None) 2 1 [];
      Fld (at_ (dc false 2 UDisplay 0 false) CAlnum None) 3 5
        [ Fld (at_ (dc false 1 UDisplay 2 true) CNumeric None) 3 2 [];
          Fld (at_ (dc false 1 UDisplay 1 true) CNumeric None) 5 1 [];
          Fld (at_ (dc true 1 UDisplay 1 false) CAlnum None) 5 1 [];
          Fld (at_ (dc false 1 UDisplay 2 false) CAlnum (Some (VText [120; 121]%Z))) 6 2 [] ];
      Fld (at_ (dc false 1 UBinary 4 true) CNumeric None) 13 2 [] ].
Definition mv_ex : src -> fld -> list Z := fun _ f => repeat 48%Z (f_size f).
Definition shown (ws : list wr) : list Z := map (run_all mv_ex ws (fun _ => 63%Z)) (seq 0 16).

Example C67_ex_hyps : move_sizes mv_ex /\ everywhere sane g_ex /\ well_placed (erase g_ex).
Proof.
  split; [intros s f; apply repeat_length|]. split.
  - unfold g_ex. constructor; [cbv; intuition (try congruence; try lia)|]. intros c I. cbn [f_ch In] in I.
    repeat destruct I as [<-|I]; try contradiction; constructor; try (cbv; intuition (try congruence; try lia); fail); intros c I; cbn [f_ch In] in I;
    repeat destruct I as [<-|I]; try contradiction; constructor; try (cbv; intuition (try congruence; try lia); fail); intros c I; contradiction.
  - assert (E : exists i, ok_item i /\ erase g_ex = layout Bin248 true 0 i).
    { exists (Item (dc false 1 UDisplay 0 false)
        [ Item (dc false 1 UDisplay 2 true) []; Item (dc false 1 UDisplay 1 false) [];
          Item (dc false 2 UDisplay 0 false) [Item (dc false 1 UDisplay 2 true) []; Item (dc false 1 UDisplay 1 true) [];
             Item (dc true 1 UDisplay 1 false) []; Item (dc false 1 UDisplay 2 false) []];
          Item (dc false 1 UBinary 4 true) [] ]).
      split; [|reflexivity]. repeat first [apply Forall_nil | apply Forall_cons | apply ok_it]; cbn; try lia; intros; try congruence; auto. }
    destruct E as (i & OK & ->). now apply layout_well_placed.
Qed.
(** INITIALIZE G: zeros, the FILLER kept, both occurrences, spaces, binary zero. *)
Example C67_ex : shown (initialize false (emit_initialize (mkInit false None [] false)) false g_ex 0) =
  [48; 48; 63; 48; 48; 48; 32; 32; 48; 48; 48; 32; 32; 0; 0; 63]%Z.
Proof. reflexivity. Qed.
(** INITIALIZE T(2) REPLACING ALPHANUMERIC BY ...: the numeric items are kept. *)
Example C67_ex_replacing :
  shown (initialize false (emit_initialize (mkInit false None [(CAlnum, SUser 1)] false)) true (nth 2 (f_ch g_ex) g_ex) 5) =
  [63; 63; 63; 63; 63; 63; 63; 63; 63; 63; 63; 48; 48; 63; 63; 63]%Z.
Proof. reflexivity. Qed.
(** Program start: VALUE and defaults, FILLER included. *)
Example C67_ex_start : shown (initialize false (initial_phrases true) false g_ex 0) =
  [48; 48; 32; 48; 48; 48; 120; 121; 48; 48; 48; 120; 121; 0; 0; 63]%Z.
Proof. reflexivity. Qed.

(** ** What is wrong *)
(** A group of an alphanumeric and a numeric item, both with a VALUE. *)
Definition pair_ex (fil : bool) : fld :=
  Fld (at_ (dc false 1 UDisplay 0 false) CAlnum None) 0 3
    [ Fld (mkAttr (dc false 1 UDisplay 2 false) fil false CAlnum (Some (VText [97; 98]%Z))) 0 2 [];
      Fld (at_ (dc false 1 UDisplay 1 true) CNumeric (Some VZero)) 2 1 [] ].
(** INITIALIZE G NUMERIC TO VALUE: the category is ignored; the alphanumeric
    item, to which nothing is due, is overwritten. *)
Theorem C67_category_value_refuted :
  let s := mkInit false (Some (Some CNumeric)) [] false in
  let m := fun _ : nat => 63%Z in
  ~ initialized mv_ex false s (pair_ex false) 0 m (run_all mv_ex (initialize false (emit_initialize s) false (pair_ex false) 0) m).
Proof.
  intros s m (_ & C & _).
  assert (O : occurrence s (pair_ex false) 0 (nth 0 (f_ch (pair_ex false)) (pair_ex false)) 0)
    by (apply (occ_child s _ 0 (nth 0 (f_ch (pair_ex false)) (pair_ex false)) 0); [now left|reflexivity|cbn; lia|reflexivity|apply occ_here]).
  specialize (C _ _ 0 O eq_refl eq_refl ltac:(cbn; lia)). vm_compute in C. discriminate.
Qed.
Print Assumptions C67_category_value_refuted.
(** INITIALIZE G ALL TO VALUE: a FILLER with a VALUE is overwritten although
    WITH FILLER is not written. *)
Theorem C67_filler_value_refuted :
  let s := mkInit false (Some None) [] false in
  let m := fun _ : nat => 63%Z in
  ~ initialized mv_ex false s (pair_ex true) 0 m (run_all mv_ex (initialize false (emit_initialize s) false (pair_ex true) 0) m).
Proof.
  intros s m (_ & C & _).
  assert (O : occurrence s (pair_ex true) 0 (nth 0 (f_ch (pair_ex true)) (pair_ex true)) 0)
    by (apply (occ_child s _ 0 (nth 0 (f_ch (pair_ex true)) (pair_ex true)) 0); [now left|reflexivity|cbn; lia|reflexivity|apply occ_here]).
  specialize (C _ _ 0 O eq_refl eq_refl ltac:(cbn; lia)). vm_compute in C. discriminate.
Qed.
Print Assumptions C67_filler_value_refuted.
(** INITIALIZE R WITH FILLER on a REDEFINES entry, and INITIALIZE T(2) WITH
    FILLER ALL TO VALUE on a table element with a VALUE, do nothing at all. *)
Theorem C67_with_filler_refuted :
  (let s := mkInit true None [] false in
   let r := Fld (at_ (dc true 1 UDisplay 2 false) CAlnum None) 0 2 [] in
   due mv_ex false s r = Some [32; 32]%Z /\ initialize false (emit_initialize s) true r 0 = []) /\
  (let s := mkInit true (Some None) [] false in
   let t := Fld (at_ (dc false 3 UDisplay 2 false) CAlnum (Some VSpace)) 0 2 [] in
   due mv_ex false s t = Some [32; 32]%Z /\ initialize false (emit_initialize s) true t 2 = []).
Proof. repeat split. Qed.
Print Assumptions C67_with_filler_refuted.
(** At program start only the first element of 01 T PIC X(2) OCCURS 3 (allowed
    with -std=mf and others) receives spaces; likewise for COMP-3. *)
Theorem C67_start_table_refuted :
  let t := Fld (at_ (dc false 3 UDisplay 2 false) CAlnum None) 0 2 [] in
  let u := Fld (at_ (dc false 3 UPacked 3 true) CNumeric None) 0 2 [] in
  due mv_ex false (start true) t = Some [32; 32]%Z /\
  initialize false (initial_phrases true) false t 0 = [WFill 0 2 32%Z] /\
  initialize false (initial_phrases true) false u 0 = [WMove SZero u 0].
Proof. repeat split. Qed.
Print Assumptions C67_start_table_refuted.
