(** LINAGE files: proofs. *)
From Coq Require Import QArith Qabs.
From Verif Require Import Base BaseFacts Field Sign Decimal SpecNum Numeric SpecStore NumFacts.
From Verif Require Import DispProofs DecProofs BinProofs PackedProofs StoreProofs.
From Verif Require Import Move Edited MoveAll MoveProofs MovePacked MoveBin MoveNum SpecMove DispInt IntAccess.
From Verif Require Import FileIO Linage SpecLinage.
Local Open Scope Z_scope.

(** ** The option word *)
Lemma land_pow2 : forall x j, 0 <= j -> Z.land x (2 ^ j) = if Z.testbit x j then 2 ^ j else 0.
Proof.
  intros x j Hj. apply Z.bits_inj'. intros k Hk. rewrite Z.land_spec, Z.pow2_bits_eqb by lia.
  destruct (Z.eqb_spec j k) as [->|N].
  - destruct (Z.testbit x k); cbn [andb]; [rewrite Z.pow2_bits_eqb by lia; now rewrite Z.eqb_refl|now rewrite Z.bits_0].
  - rewrite andb_false_r. destruct (Z.testbit x j); [|now rewrite Z.bits_0].
    rewrite Z.pow2_bits_eqb by lia. now apply Z.eqb_neq in N as ->.
Qed.
Lemma has_bit : forall x j, 0 <= j -> has x (2 ^ j) = Z.testbit x j.
Proof.
  intros x j Hj. unfold has. rewrite land_pow2 by auto. pose proof (Z.pow_pos_nonneg 2 j ltac:(lia) Hj).
  destruct (Z.testbit x j); [|reflexivity]. now apply negb_true_iff, Z.eqb_neq; lia.
Qed.
Lemma testbit_high : forall K n j, 0 <= n < 65536 -> 16 <= j -> Z.testbit (K * 65536 + n) j = Z.testbit K (j - 16).
Proof.
  intros K n j Hn Hj. rewrite !Z.testbit_odd, !Z.shiftr_div_pow2 by lia.
  replace (2 ^ j) with (65536 * 2 ^ (j - 16)).
  - rewrite <- Z.div_div by (try apply Z.pow_pos_nonneg; lia).
    replace ((K * 65536 + n) / 65536) with K; auto. rewrite Z.div_add_l by lia. rewrite (Z.div_small n) by lia. lia.
  - change 65536 with (2 ^ 16). rewrite <- Z.pow_add_r by lia. f_equal. lia.
Qed.
Lemma opt_form : forall p a eop, exists K, write_option p a eop = K * 65536 + match a with Lines n => n | Page => 0 end /\
  Z.testbit K 0 = (match a with Lines _ => true | Page => false end) /\ Z.testbit K 1 = (match a with Lines _ => false | Page => true end) /\
  Z.testbit K 4 = (match p with After => true | Before => false end) /\ Z.testbit K 5 = (match p with After => false | Before => true end) /\
  Z.testbit K 6 = eop.
Proof.
  intros p a eop. unfold write_option.
  exists (match p with Before => 32 | After => 16 end + (if eop then 64 else 0) + match a with Lines _ => 1 | Page => 2 end).
  destruct p, a, eop; (split; [cbv [W_BEFORE W_AFTER W_EOP W_LINES W_PAGE]; cbn [Z.lor Pos.lor]; lia|repeat split; reflexivity]).
Qed.
Definition adv_ok (a : advance) : Prop := forall n, a = Lines n -> 1 <= n <= 65535.
Lemma opt_bits : forall p a eop, adv_ok a -> let o := write_option p a eop in
  has o W_PAGE = (match a with Page => true | _ => false end) /\ has o W_LINES = (match a with Page => false | _ => true end) /\
  has o W_AFTER = (match p with After => true | _ => false end) /\ has o W_BEFORE = (match p with After => false | _ => true end) /\
  has o W_EOP = eop /\ (forall n, a = Lines n -> Z.land o W_MASK = n).
Proof.
  intros p a eop Ha o. destruct (opt_form p a eop) as (K & E & B0 & B1 & B4 & B5 & B6). fold o in E.
  assert (R : 0 <= match a with Lines n => n | Page => 0 end < 65536).
  { destruct a as [n|]; [specialize (Ha n eq_refl)|]; lia. }
  change W_PAGE with (2 ^ 17). change W_LINES with (2 ^ 16). change W_AFTER with (2 ^ 20). change W_BEFORE with (2 ^ 21). change W_EOP with (2 ^ 22).
  rewrite !has_bit by lia. rewrite E, !testbit_high by lia. 
  change (17 - 16) with 1. change (16 - 16) with 0. change (20 - 16) with 4. change (21 - 16) with 5. change (22 - 16) with 6.
  rewrite B0, B1, B4, B5, B6. repeat (split; [destruct a, p; reflexivity|]).
  intros n ->. change W_MASK with (Z.ones 16). rewrite Z.land_ones by lia. change (2 ^ 16) with 65536.
  rewrite Z.add_comm, Z.mod_add by lia. apply Z.mod_small. lia.
Qed.

(** ** Items *)
Lemma trunc_int : forall v, trunc_at (rat v 0) 0 v.
Proof. intros v. pose proof (trunc_at_exact v 0 0 ltac:(lia)) as H. rewrite Z.sub_diag, Z.pow_0_r, Z.mul_1_r in H. exact H. Qed.
Lemma value_holds : forall m f v, holds m f v -> value m f = Ok v.
Proof.
  intros m f v (D & S & B). unfold value. rewrite (get_int_spec m f v v D); auto; rewrite ?S; try lia.
  - intros T. split; [lia|].
    destruct (denotes_packed_cases _ _ _ T D) as (neg & ds & E1 & Hne & Hd & HL & Hu & Hv). lia.
  - apply trunc_int.
Qed.

Definition ctr_is (m : cfg) (f : field) (c : Z) : Prop := counter_item f /\ denotes (c_ebcdic m) f c.
Lemma ctr_value : forall m f c, ctr_is m f c -> 0 <= c <= INT_MAX -> value m f = Ok c.
Proof. intros m f c (C & D) H. apply value_holds. split; auto. destruct C as (_ & _ & S & _). split; auto. lia. Qed.
Lemma ctr_wf : forall f, counter_item f -> wf_binary f /\ bits f = 32.
Proof.
  intros f (T & D & S & G & R & W & L & B). unfold wf_binary, bits. change (Field.f_size f) with (length (fd f)). rewrite L, D. repeat split; auto; lia.
Qed.
Lemma ctr_back : forall m f f' v, counter_item f -> fa f' = fa f -> Field.f_size f' = Field.f_size f -> denotes (c_ebcdic m) f' v -> ctr_is m f' v.
Proof.
  intros m f f' v (T & D & S & G & R & W & L & B) A Z H. split; auto.
  assert (T' : a_type (fa f') = TBinary) by now rewrite A.
  destruct (denotes_binary_cases _ _ _ T' H) as (_ & B' & _). unfold counter_item. rewrite A. unfold Field.f_size in Z.
  repeat (split; auto). now rewrite Z.
Qed.
Lemma ctr_set : forall m f n, counter_item f -> 0 <= n <= INT_MAX -> exists f', set_int m f n = Ok f' /\ ctr_is m f' n.
Proof.
  intros m f n C Hn. destruct (ctr_wf f C) as (W & Hb). pose proof C as (T & D & S & G & R & Sw & L & B).
  destruct (set_int_spec m f n) as (f' & E & A & Z & Dn).
  - unfold is_int, INT_MIN. lia.
  - now apply ni_binary.
  - intros _. rewrite R, S. split; [rewrite andb_false_r; discriminate|]. split; [lia|].
    intros w Hw. apply trunc_zero in Hw. subst w. unfold kept_digits. rewrite T, R, andb_false_r. unfold bin_range. rewrite G, Hb.
    change (2 ^ 63) with 9223372036854775808. change (2 ^ 32) with 4294967296. unfold INT_MAX in Hn. lia.
  - exists f'. split; auto. apply (ctr_back m f f'); auto. rewrite S in Dn. specialize (Dn n (trunc_int n)).
    unfold kept_digits in Dn. rewrite T, R, andb_false_r in Dn.
    unfold held in Dn. rewrite G in Dn. now rewrite Z.abs_eq in Dn by lia.
Qed.
Lemma ctr_add : forall m f c n, ctr_is m f c -> 0 <= c -> 1 <= n -> c + n <= INT_MAX -> exists x f', add_int m f n = Ok (x, f') /\ ctr_is m f' (c + n).
Proof.
  intros m f c n (C & D) Hc Hn HM. destruct (ctr_wf f C) as (W & Hb). pose proof C as (T & Dg & S & G & R & Sw & L & B).
  unfold add_int. destruct (Z.eqb_spec n 0); [lia|]. rewrite T. rewrite (fetch_denotes m f c D), S. cbn [obind dsc dv].
  change (0 <? 0) with false. cbv iota. change (10 ^ 0) with 1. rewrite Z.mul_1_r.
  destruct (get_field_spec m (mkDec (c + n) 0) f (mkOpts false false false) (rat (c + n) 0) (c + n)) as (F & _).
  - unfold not_nan. cbn [dsc]. discriminate.
  - now apply ni_binary.
  - reflexivity.
  - rewrite S. unfold rounded. cbn [o_round]. apply trunc_int.
  - unfold NUM_LIMIT. unfold INT_MAX in HM. apply Z.lt_trans with (10 ^ 11); [rewrite Z.abs_eq by lia; change (10 ^ 11) with 100000000000; lia|].
    apply Z.pow_lt_mono_r; lia.
  - destruct F as (f' & E & A & Z & Dn).
    + apply fit_binary; auto. unfold bin_fits, bin_range. rewrite G, Hb. cbn [opt_nonzero o_keep o_round o_trunc]. split; [|discriminate].
      change (2 ^ 32) with 4294967296. unfold INT_MAX in HM. lia.
    + rewrite E. cbn [obind st_ret st_f]. eexists _, f'. split; [reflexivity|]. apply (ctr_back m f f'); auto.
      unfold held in Dn. rewrite G in Dn. now rewrite Z.abs_eq in Dn by lia.
Qed.

(** ** file_linage_check *)
Definition foot_of (p : page) : Z := match p_foot p with Some x => x | None => 0 end.
Definition with_page (f : lfile) (p : page) : lfile := set_lpage (p_lines p) (foot_of p) (p_top p) (p_bot p) f.
Lemma lin_error_spec : forall m f, counter_item (l_ctr f) -> exists f', lin_error m f = Ok (true, f') /\ ctr_is m (l_ctr f') 0 /\ l_items f' = l_items f.
Proof.
  intros m f C. unfold lin_error. destruct (ctr_set m (l_ctr f) 0 C) as (c & E & D); [unfold INT_MAX; lia|].
  rewrite E. cbn [obind]. eexists; split; [reflexivity|]. split; auto.
Qed.
Lemma opt_value : forall m o v, holds_opt m o v -> match o with Some x => value m x | None => Ok 0 end = Ok v.
Proof. intros m [x|] v H; cbn [holds_opt] in H; [now apply value_holds|now subst]. Qed.
Lemma check_spec : forall m f p, items_hold m (l_items f) p -> counter_item (l_ctr f) ->
  if page_okb p then linage_check m f = Ok (false, with_page f p)
  else exists f', linage_check m f = Ok (true, f') /\ ctr_is m (l_ctr f') 0 /\ l_items f' = l_items f.
Proof.
  intros m f p (H1 & H2 & H3 & H4 & H5) C. destruct (page_okb p) eqn:OK; unfold page_okb in OK; unfold linage_check;
    rewrite (value_holds _ _ _ H1); cbn [obind]; cbv zeta; cbn [l_items set_lpage l_foot l_top l_bot].
  - apply andb_true_iff in OK. destruct OK as (OK & O4). apply andb_true_iff in OK. destruct OK as (OK & O3). apply andb_true_iff in OK. destruct OK as (O1 & O2).
    destruct (Z.ltb_spec (p_lines p) 1); [lia|].
    unfold with_page, foot_of. destruct (li_foot (l_items f)) as [x|] eqn:EF, (p_foot p) as [v|] eqn:EP; try contradiction.
    + rewrite (value_holds _ _ _ H2). cbn [obind]. replace ((v <? 1) || (p_lines p <? v)) with false by lia.
      rewrite (opt_value _ _ _ H3). cbn [obind]. replace (p_top p <? 0) with false by lia.
      rewrite (opt_value _ _ _ H4). cbn [obind]. replace (p_bot p <? 0) with false by lia. reflexivity.
    + cbn [obind]. rewrite (opt_value _ _ _ H3). cbn [obind]. replace (p_top p <? 0) with false by lia.
      rewrite (opt_value _ _ _ H4). cbn [obind]. replace (p_bot p <? 0) with false by lia. reflexivity.
  - destruct (Z.ltb_spec (p_lines p) 1); [now apply (lin_error_spec m (set_lpage _ _ _ _ f))|].
    destruct (li_foot (l_items f)) as [x|] eqn:EF, (p_foot p) as [v|] eqn:EP; try contradiction.
    + rewrite (value_holds _ _ _ H2). cbn [obind]. destruct ((v <? 1) || (p_lines p <? v)) eqn:EB; [now apply (lin_error_spec m (set_lpage _ _ _ _ f))|].
      rewrite (opt_value _ _ _ H3). cbn [obind]. destruct (Z.ltb_spec (p_top p) 0); [now apply (lin_error_spec m (set_lpage _ _ _ _ f))|].
      rewrite (opt_value _ _ _ H4). cbn [obind]. destruct (Z.ltb_spec (p_bot p) 0); [now apply (lin_error_spec m (set_lpage _ _ _ _ f))|]. lia.
    + cbn [obind]. rewrite (opt_value _ _ _ H3). cbn [obind]. destruct (Z.ltb_spec (p_top p) 0); [now apply (lin_error_spec m (set_lpage _ _ _ _ f))|].
      rewrite (opt_value _ _ _ H4). cbn [obind]. destruct (Z.ltb_spec (p_bot p) 0); [now apply (lin_error_spec m (set_lpage _ _ _ _ f))|]. lia.
Qed.

(** ** Layout of the output *)
Lemma rows_app : forall a b, rows_bytes (a ++ b) = rows_bytes a ++ rows_bytes b.
Proof. intros. unfold rows_bytes. now rewrite map_app, concat_app. Qed.
Lemma rows_blank : forall k, rows_bytes (repeat [] k) = repeat 10 k.
Proof. induction k as [|k IH]; [reflexivity|]. cbn [repeat]. change ([] :: repeat [] k) with ([[]] ++ repeat (@nil Z) k). rewrite rows_app, IH. reflexivity. Qed.
Lemma laid_blank : forall out T P k, laid_out out T P -> laid_out (out ++ repeat 10 k) (T + Z.of_nat k) P.
Proof.
  intros out T P k (rows & E & L & HP & HB & ND). exists (rows ++ repeat [] k). split; [|split; [|split; [|split]]]; auto.
  - now rewrite rows_app, rows_blank, E.
  - rewrite app_length, repeat_length. lia.
  - intros j t HI. destruct (HP j t HI) as (A & B). split; [lia|]. rewrite app_nth1 by lia. auto.
  - intros j Hj Nj. destruct (Z.ltb_spec j T).
    + rewrite app_nth1 by lia. apply HB; auto. lia.
    + rewrite app_nth2 by lia. apply nth_repeat.
Qed.
Lemma laid_text : forall out T P t, laid_out out T P -> laid_out ((out ++ t) ++ [10]) (T + 1) (P ++ [(T, t)]).
Proof.
  intros out T P t (rows & E & L & HP & HB & ND). exists (rows ++ [t]). split; [|split; [|split; [|split]]].
  - rewrite rows_app, E, <- app_assoc. f_equal. unfold rows_bytes. cbn [map concat]. now rewrite app_nil_r.
  - rewrite app_length. cbn [length]. lia.
  - intros j u HI. apply in_app_or in HI. destruct HI as [HI|[HI|[]]].
    + destruct (HP j u HI) as (A & B). split; [lia|]. rewrite app_nth1 by lia. auto.
    + injection HI as <- <-. split; [lia|]. rewrite app_nth2 by lia. replace (Z.to_nat T - length rows)%nat with 0%nat by lia. reflexivity.
  - intros j Hj Nj. rewrite map_app, in_app_iff in Nj. cbn [map fst In] in Nj.
    destruct (Z.eqb_spec T j); [subst; tauto|]. rewrite app_nth1 by lia. apply HB; [lia|tauto].
  - rewrite map_app. cbn [map fst]. apply (Permutation.Permutation_NoDup (l := T :: map fst P)); [apply Permutation.Permutation_cons_append|constructor; auto].
    intros HI. apply in_map_iff in HI. destruct HI as ((k & u) & E1 & HI). cbn [fst] in E1. subst k. destruct (HP _ _ HI). lia.
Qed.

(** ** cob_linage_write_opt *)
Definition matches (f : lfile) (p : page) : Prop :=
  l_lines f = p_lines p /\ l_foot f = foot_of p /\ l_top f = p_top p /\ l_bot f = p_bot p.
Lemma nl_app : forall a b, 0 <= a -> 0 <= b -> newlines 0 a ++ newlines 0 b = newlines 0 (a + b).
Proof. intros a b A B. unfold newlines. rewrite <- repeat_app. f_equal. lia. Qed.
Lemma nl_shift : forall i n, newlines i n = newlines 0 (n - i).
Proof. intros. unfold newlines. f_equal. lia. Qed.

Definition turns (p : page) (c : Z) (a : advance) : bool := match a with Lines n => p_lines p <? c + n | Page => true end.
Definition next_ctr (p : page) (c : Z) (a : advance) : Z := match a with Lines n => if turns p c a then 1 else c + n | Page => 1 end.
Definition gap (p q : page) (c : Z) (a : advance) : Z :=
  if turns p c a then p_lines p - c + p_bot p + p_top q else match a with Lines n => n - 1 | Page => 0 end.
Definition eop_now (p : page) (c : Z) (a : advance) (eop : bool) : bool :=
  match a with Lines n => eop && (match p_foot p with Some x => x <=? c + n | None => false end || turns p c a) | Page => false end.

Lemma page_okb_ok : forall p, page_okb p = true -> page_ok p.
Proof.
  intros p H. unfold page_okb in H. unfold page_ok. apply andb_true_iff in H. destruct H as (H & H4). apply andb_true_iff in H. destruct H as (H & H3).
  apply andb_true_iff in H. destruct H as (H1 & H2). split; [lia|]. split; [|lia]. intros x E. rewrite E in H2. lia.
Qed.

Lemma write_opt_spec : forall m f p c q pos a eop, adv_ok a -> ctr_is m (l_ctr f) c -> 1 <= c <= p_lines p -> page_ok p ->
  p_lines p <= INT_MAX - 65535 -> matches f p -> l_eop f = false -> items_hold m (l_items f) q ->
  if turns p c a && negb (page_okb q)
  then exists f', linage_write_opt m f (write_option pos a eop) = Ok (57, f') /\ ctr_is m (l_ctr f') 0 /\ l_items f' = l_items f
  else exists f', linage_write_opt m f (write_option pos a eop) = Ok (0, f') /\ l_items f' = l_items f /\ ctr_is m (l_ctr f') (next_ctr p c a) /\
       matches f' (if turns p c a then q else p) /\ l_eop f' = eop_now p c a eop /\ l_needs_top f' = l_needs_top f /\
       l_out f' = l_out f ++ newlines 0 (gap p q c a).
Proof.
  intros m f p c q pos a eop Ha HC Hc (K1 & K2 & K3 & K4) HB (M1 & M2 & M3 & M4) HE HI.
  destruct (opt_bits pos a eop Ha) as (B1 & B2 & _ & _ & B5 & B6). unfold linage_write_opt. rewrite B1, B2.
  assert (IM : 0 <= c <= INT_MAX) by lia.
  destruct a as [n|].
  - specialize (B6 n eq_refl). specialize (Ha n eq_refl). rewrite B5, B6. rewrite (ctr_value m _ c HC IM). cbn [obind].
    destruct (Z.eqb_spec c 0); [lia|].
    destruct (ctr_add m (l_ctr f) c n HC ltac:(lia) ltac:(lia) ltac:(lia)) as (x & g & EA & HG). rewrite EA. cbn [obind snd]. cbv zeta.
    cbn [l_ctr set_ctr]. rewrite (ctr_value m g (c + n) HG ltac:(lia)). cbn [obind]. cbn [l_foot set_ctr]. rewrite M2.
    unfold next_ctr, gap, eop_now, turns.
    assert (FE : eop && negb (foot_of p =? 0) && (foot_of p <=? c + n) = eop && match p_foot p with Some y => y <=? c + n | None => false end).
    { unfold foot_of. destruct (p_foot p) as [y|] eqn:EP; [|now rewrite andb_false_r, andb_false_r].
      specialize (K2 y eq_refl). destruct eop; [|reflexivity]. replace (y =? 0) with false by lia. reflexivity. }
    rewrite FE. set (e := eop && match p_foot p with Some y => y <=? c + n | None => false end).
    assert (EL : l_lines (if e then set_eop true (set_ctr g f) else set_ctr g f) = p_lines p) by (destruct e; exact M1).
    rewrite EL. destruct (Z.ltb_spec (p_lines p) (c + n)) as [T|T].
    + set (f1 := if eop then set_eop true (if e then set_eop true (set_ctr g f) else set_ctr g f) else (if e then set_eop true (set_ctr g f) else set_ctr g f)).
      assert (F1 : f1 = mkL (l_items f) g (l_lines f) (l_foot f) (l_top f) (l_bot f) (l_out f) (l_needs_top f) (l_needs_nl f) eop).
      { unfold f1, e, set_eop, set_ctr. cbn [l_items l_ctr l_lines l_foot l_top l_bot l_out l_needs_top l_needs_nl l_eop]. rewrite HE.
        destruct eop; cbn [andb]; [destruct (match p_foot p with Some y => y <=? c + n | None => false end)|]; reflexivity. }
      rewrite F1. match goal with |- context [linage_check m ?x] => set (f2 := x) end.
      assert (EO : l_out f2 = l_out f ++ newlines 0 (p_lines p - c + p_bot p)).
      { unfold f2, put. cbn [l_items l_ctr l_lines l_foot l_top l_bot l_out l_needs_top l_needs_nl l_eop]. rewrite <- app_assoc. f_equal. rewrite nl_shift, M1, M4. apply nl_app; lia. }
      pose proof (check_spec m f2 q HI (proj1 HG)) as CK. cbn [andb]. destruct (page_okb q) eqn:OK; cbn [negb].
      * pose proof (page_okb_ok q OK) as (Q1 & _ & Q3 & Q4). rewrite CK. cbn [obind].
        destruct (ctr_set m (l_ctr (with_page f2 q)) 1 (proj1 HG) ltac:(unfold INT_MAX; lia)) as (h & ES & HH). rewrite ES. cbn [obind].
        eexists. split; [reflexivity|]. unfold with_page, put, set_ctr, set_lpage. cbn [l_items l_ctr l_lines l_foot l_top l_bot l_out l_needs_top l_needs_nl l_eop].
        repeat (split; [first [reflexivity | assumption | (repeat split; reflexivity)]|]).
        split; [unfold f2, put; cbn [l_eop]; destruct eop; [now rewrite orb_true_r|reflexivity]|]. split; [reflexivity|].
        rewrite EO, <- app_assoc. f_equal. apply nl_app; lia.
      * destruct CK as (f' & E1 & E2 & E3). rewrite E1. cbn [obind]. eauto.
    + cbn [andb]. eexists. split; [reflexivity|].
      assert (EQ : (if e then set_eop true (set_ctr g f) else set_ctr g f) = mkL (l_items f) g (l_lines f) (l_foot f) (l_top f) (l_bot f) (l_out f) (l_needs_top f) (l_needs_nl f) e).
      { unfold set_eop, set_ctr. cbn [l_items l_ctr l_lines l_foot l_top l_bot l_out l_needs_top l_needs_nl l_eop]. rewrite HE. destruct e; reflexivity. }
      rewrite EQ. unfold put. cbn [l_items l_ctr l_lines l_foot l_top l_bot l_out l_needs_top l_needs_nl l_eop].
      repeat (split; [first [reflexivity | assumption | (repeat split; assumption)]|]).
      split; [unfold e; now rewrite orb_false_r|]. split; reflexivity.
  - rewrite (ctr_value m _ c HC IM). cbn [obind]. destruct (Z.eqb_spec c 0); [lia|]. unfold next_ctr, gap, eop_now, turns. cbv zeta.
    match goal with |- context [linage_check m ?x] => set (f2 := x) end.
    assert (EO : l_out f2 = l_out f ++ newlines 0 (p_lines p - c + p_bot p)).
    { unfold f2, put. cbn [l_items l_ctr l_lines l_foot l_top l_bot l_out l_needs_top l_needs_nl l_eop]. rewrite <- app_assoc. f_equal. rewrite nl_shift, M1, M4. apply nl_app; lia. }
    pose proof (check_spec m f2 q HI (proj1 HC)) as CK. cbn [andb]. destruct (page_okb q) eqn:OK; cbn [negb].
    + pose proof (page_okb_ok q OK) as (Q1 & _ & Q3 & Q4). rewrite CK. cbn [obind]. 
      destruct (ctr_set m (l_ctr (put (newlines 0 (l_top (with_page f2 q))) (with_page f2 q))) 1 (proj1 HC) ltac:(unfold INT_MAX; lia)) as (h & ES & HH). rewrite ES. cbn [obind].
      eexists. split; [reflexivity|]. unfold with_page, put, set_ctr, set_lpage. cbn [l_items l_ctr l_lines l_foot l_top l_bot l_out l_needs_top l_needs_nl l_eop].
      repeat (split; [first [reflexivity | assumption | (repeat split; reflexivity)]|]).
      rewrite EO, <- app_assoc. f_equal. apply nl_app; lia.
    + destruct CK as (f' & E1 & E2 & E3). rewrite E1. cbn [obind]. eauto.
Qed.

(** ** A session *)
Definition inv (m : cfg) (f : lfile) (r : report) (now : page) : Prop :=
  items_hold m (l_items f) now /\ ctr_is m (l_ctr f) (r_ctr r) /\
  (r_ctr r = 0 \/
   page_ok (r_page r) /\ p_lines (r_page r) <= INT_MAX - 65535 /\ 1 <= r_ctr r <= p_lines (r_page r) /\
   matches f (r_page r) /\ l_eop f = false /\ (l_needs_top f = true -> r_printed r = []) /\
   laid_out (l_out f ++ (if l_needs_top f then newlines 0 (l_top f) else [])) (row_of (r_start r) (r_page r) (r_ctr r)) (r_printed r)).

Lemma write_zero : forall m c f rec pos a eop, adv_ok a -> ctr_is m (l_ctr f) 0 ->
  exists f', linage_write m c f rec (write_option pos a eop) = Ok (57, f') /\ ctr_is m (l_ctr f') 0 /\ l_items f' = l_items f.
Proof.
  intros m c f rec pos a eop Ha HC. destruct (opt_bits pos a eop Ha) as (B1 & B2 & B3 & B4 & B5 & B6).
  assert (Z0 : forall g, ctr_is m (l_ctr g) 0 -> linage_write_opt m g (write_option pos a eop) = Ok (57, g)).
  { intros g G. unfold linage_write_opt. rewrite B1, B2. destruct a; rewrite (ctr_value m _ 0 G) by (unfold INT_MAX; lia); reflexivity. }
  unfold linage_write. cbv zeta. rewrite B3, B4. set (f1 := if l_needs_top f then _ else f).
  assert (F1 : ctr_is m (l_ctr f1) 0 /\ l_items f1 = l_items f) by (unfold f1; destruct (l_needs_top f); split; auto).
  destruct pos.
  - cbn [obind]. change (negb (0 =? 0)) with false. cbv iota. rewrite Z0 by apply F1. cbn [obind]. change (57 =? 0) with false. cbn [negb]. cbv iota.
    eexists. split; [reflexivity|]. exact F1.
  - rewrite Z0 by apply F1. cbn [obind]. change (57 =? 0) with false. cbn [negb]. cbv iota. eexists. split; [reflexivity|]. exact F1.
Qed.

Lemma step : forall m c f r now rec pos a eop, adv_ok a -> inv m f r now ->
  exists f', linage_write m c f rec (write_option pos a eop) = Ok (fst (rep_write r (line_bytes c rec) pos a eop now), f') /\
             inv m f' (snd (rep_write r (line_bytes c rec) pos a eop now)) now.
Proof.
  intros m c f r now rec pos a eop Ha (HI & HC & HR). unfold rep_write. cbv zeta.
  destruct HR as [Z0|(PO & PB & PC & PM & PE & _ & PL)].
  { rewrite Z0 in *. change (0 =? 0) with true. cbv iota. destruct (write_zero m c f rec pos a eop Ha HC) as (f' & E & C & I).
    exists f'. split; auto. unfold inv. cbn [snd]. rewrite I, Z0. auto. }
  destruct (Z.eqb_spec (r_ctr r) 0) as [|N0]; [lia|].
  destruct (opt_bits pos a eop Ha) as (_ & _ & B3 & B4 & _ & _).
  unfold linage_write. cbv zeta. rewrite B3, B4. set (f1 := if l_needs_top f then put (newlines 0 (l_top f)) (set_needs_top false f) else f).
  assert (F1 : l_ctr f1 = l_ctr f /\ l_items f1 = l_items f /\ matches f1 (r_page r) /\ l_eop f1 = false /\ l_needs_top f1 = false /\
               laid_out (l_out f1) (row_of (r_start r) (r_page r) (r_ctr r)) (r_printed r)).
  { unfold f1. destruct (l_needs_top f) eqn:NT.
    - repeat (split; [first [reflexivity | exact PM | exact PE]|]). exact PL.
    - rewrite app_nil_r in PL. repeat (split; auto). }
  clearbody f1. clear PM PE PL B3 B4. destruct F1 as (FC & FI & FM & FE & FT & FL). rewrite <- FC in HC. rewrite <- FI in HI. clear FC FI.
  fold (turns (r_page r) (r_ctr r) a). fold (eop_now (r_page r) (r_ctr r) a eop).
  change (match a with Lines n => if turns (r_page r) (r_ctr r) a then 1 else r_ctr r + n | Page => 1 end) with (next_ctr (r_page r) (r_ctr r) a).
  set (p := r_page r) in *. set (ct := r_ctr r) in *. set (st := r_start r) in *.
  set (page' := if turns p ct a then now else p). set (st' := if turns p ct a then _ else st).
  assert (ROW : turns p ct a && negb (page_okb now) = false ->
          row_of st' page' (next_ctr p ct a) = row_of st p ct + gap p now ct a + 1 /\ 0 <= gap p now ct a /\
          page_ok page' /\ p_lines page' <= INT_MAX - 65535 /\ 1 <= next_ctr p ct a <= p_lines page').
  { intros T. unfold row_of, gap, st', page', next_ctr. destruct PO as (P1 & P2 & P3 & P4). destruct (turns p ct a) eqn:TT.
    - cbn [andb] in T. apply negb_false_iff in T. pose proof (page_okb_ok now T) as QQ. pose proof QQ as (Q1 & Q2 & Q3 & Q4).
      destruct HI as (_ & _ & _ & _ & HI5). split; [destruct a; lia|]. split; [lia|]. split; [exact QQ|]. split; [exact HI5|]. destruct a; lia.
    - destruct a as [n|]; [|discriminate TT]. specialize (Ha n eq_refl). unfold turns in TT. split; [lia|]. split; [lia|].
      split; [repeat (split; auto)|]. split; [exact PB|]. lia. }
  destruct pos.
  - (* BEFORE *)
    cbn [obind]. change (negb (0 =? 0)) with false. cbv iota.
    set (f2 := put [10] (put (line_bytes c rec) f1)).
    pose proof (write_opt_spec m f2 p ct now Before a eop Ha HC PC PO PB FM FE HI) as W.
    destruct (turns p ct a && negb (page_okb now)) eqn:TB.
    + destruct W as (g & E & C & I). rewrite E. cbn [obind]. change (57 =? 0) with false. cbn [negb]. cbv iota.
      exists g. split; [reflexivity|]. unfold inv. cbn [snd r_ctr]. rewrite I. auto.
    + destruct W as (g & E & I & C & M & EE & NT & O). destruct (ROW eq_refl) as (R1 & R2 & R3 & R4 & R5).
      rewrite E. cbn [obind]. change (0 =? 0) with true. cbn [negb]. cbv iota. cbn [l_eop set_needs_nl]. rewrite EE.
      assert (LL : laid_out (l_out g) (row_of st' page' (next_ctr p ct a)) (r_printed r ++ [(row_of st p ct, line_bytes c rec)])).
      { rewrite O. unfold f2, put. cbn [l_out]. unfold newlines. rewrite R1.
        replace (row_of st p ct + gap p now ct a + 1) with (row_of st p ct + 1 + Z.of_nat (Z.to_nat (gap p now ct a - 0))) by lia.
        apply laid_blank, laid_text. exact FL. }
      assert (NT' : l_needs_top g = false) by (rewrite NT; exact FT).
      assert (I' : l_items g = l_items f1) by exact I.
      assert (Fin : forall (e : Z) h, h = set_eop false (set_needs_nl false g) \/ h = set_needs_nl false g /\ l_eop g = false ->
        exists f', Ok (e, h) = Ok (e, f') /\ inv m f' (mkRep page' (next_ctr p ct a) st' (r_printed r ++ [(row_of st p ct, line_bytes c rec)])) now).
      { intros e h HH. exists h. split; auto. unfold inv. cbn [r_ctr r_page r_start r_printed].
        assert (X : l_items h = l_items g /\ l_ctr h = l_ctr g /\ matches h page' /\ l_eop h = false /\ l_needs_top h = l_needs_top g /\ l_out h = l_out g).
        { destruct HH as [->|(-> & EG)]; repeat (split; [first [reflexivity|exact M|exact EG]|]); reflexivity. }
        destruct X as (X1 & X2 & X3 & X4 & X5 & X6). rewrite X1, X2, X5, X6, NT', I', app_nil_r. split; [exact HI|]. split; [exact C|]. right. repeat (split; auto). all: try lia. all: discriminate. }
      destruct (eop_now p ct a eop) eqn:EN; cbn [fst snd]; apply Fin; auto.
  - (* AFTER *)
    pose proof (write_opt_spec m f1 p ct now After a eop Ha HC PC PO PB FM FE HI) as W.
    destruct (turns p ct a && negb (page_okb now)) eqn:TB.
    + destruct W as (g & E & C & I). rewrite E. cbn [obind]. change (57 =? 0) with false. cbn [negb]. cbv iota.
      exists g. split; [reflexivity|]. unfold inv. cbn [snd r_ctr]. rewrite I. auto.
    + destruct W as (g & E & I & C & M & EE & NT & O). destruct (ROW eq_refl) as (R1 & R2 & R3 & R4 & R5).
      rewrite E. cbn [obind]. change (0 =? 0) with true. cbn [negb]. cbv iota. cbn [l_eop set_needs_nl put]. rewrite EE.
      set (g2 := put [10] (put (line_bytes c rec) (set_needs_nl true g))).
      assert (LL : laid_out (l_out g2) (row_of st' page' (next_ctr p ct a)) (r_printed r ++ [(row_of st' page' (next_ctr p ct a) - 1, line_bytes c rec)])).
      { unfold g2, put. cbn [l_out set_needs_nl]. rewrite O. unfold newlines. rewrite R1.
        replace (row_of st p ct + gap p now ct a + 1 - 1) with (row_of st p ct + Z.of_nat (Z.to_nat (gap p now ct a - 0))) by lia.
        replace (row_of st p ct + gap p now ct a + 1) with (row_of st p ct + Z.of_nat (Z.to_nat (gap p now ct a - 0)) + 1) by lia.
        apply laid_text, laid_blank. exact FL. }
      assert (NT' : l_needs_top g = false) by (rewrite NT; exact FT).
      assert (I' : l_items g = l_items f1) by exact I.
      assert (Fin : forall (e : Z) h, h = set_eop false g2 \/ h = g2 /\ l_eop g = false ->
        exists f', Ok (e, h) = Ok (e, f') /\ inv m f' (mkRep page' (next_ctr p ct a) st' (r_printed r ++ [(row_of st' page' (next_ctr p ct a) - 1, line_bytes c rec)])) now).
      { intros e h HH. exists h. split; auto. unfold inv. cbn [r_ctr r_page r_start r_printed].
        assert (X : l_items h = l_items g /\ l_ctr h = l_ctr g /\ matches h page' /\ l_eop h = false /\ l_needs_top h = l_needs_top g /\ l_out h = l_out g2).
        { destruct HH as [->|(-> & EG)]; repeat (split; [first [reflexivity|exact M|exact EG]|]); reflexivity. }
        destruct X as (X1 & X2 & X3 & X4 & X5 & X6). rewrite X1, X2, X5, X6, NT', I', app_nil_r. split; [exact HI|]. split; [exact C|]. right. repeat (split; auto). all: try lia. all: discriminate. }
      destruct (eop_now p ct a eop) eqn:EN; cbn [fst snd]; apply Fin; auto.
Qed.

Lemma session : forall m c os ros f r now, Forall2 (means m c) os ros -> inv m f r now ->
  exists f' now', run_lops m c f os = Ok (fst (rep_run r now ros), f') /\ inv m f' (snd (rep_run r now ros)) now'.
Proof.
  intros m c os ros f r now H. revert f r now. induction H as [|o ro os ros HM _ IH]; intros f r now HI.
  - exists f, now. auto.
  - destruct HM as [rec pos a eop Ha|i p HP].
    + destruct (step m c f r now rec pos a eop Ha HI) as (f1 & E1 & I1). cbn [run_lops run_lop rep_run]. rewrite E1. cbn [obind fst snd].
      destruct (IH f1 _ now I1) as (f2 & now' & E2 & I2). rewrite E2. cbn [obind fst snd]. exists f2, now'. auto.
    + cbn [run_lops run_lop rep_run]. cbn [obind fst snd].
      destruct (IH (set_items i f) r p) as (f2 & now' & E2 & I2).
      { destruct HI as (_ & H2 & H3). split; [exact HP|]. split; [exact H2|exact H3]. }
      rewrite E2. cbn [obind fst snd]. exists f2, now'. auto.
Qed.

Lemma laid_nil : laid_out [] 0 [].
Proof. exists []. split; [reflexivity|]. split; [reflexivity|]. split; [intros k t []|]. split; [intros k Hk; lia|constructor]. Qed.

Lemma open_spec : forall m f p, items_hold m (l_items f) p -> counter_item (l_ctr f) -> l_out f = [] -> l_eop f = false ->
  if page_okb p then exists f', linage_open m f = Ok (0, f') /\ inv m f' (rep_open p) p
  else exists f', linage_open m f = Ok (57, f') /\ ctr_is m (l_ctr f') 0.
Proof.
  intros m f p HI HC HO HE. pose proof (check_spec m f p HI HC) as CK. unfold linage_open. destruct (page_okb p) eqn:OK.
  - rewrite CK. cbn [obind]. destruct (ctr_set m (l_ctr (with_page f p)) 1 HC ltac:(unfold INT_MAX; lia)) as (c & E & D). rewrite E. cbn [obind].
    eexists. split; [reflexivity|]. pose proof (page_okb_ok p OK) as PO. pose proof PO as (P1 & P2 & P3 & P4).
    unfold inv, rep_open, row_of. cbn [r_ctr r_page r_start r_printed]. split; [exact HI|]. split; [exact D|]. right. split; [exact PO|].
    destruct HI as (_ & _ & _ & _ & H5). split; [exact H5|]. split; [lia|]. split; [repeat split|]. split; [exact HE|]. split; [reflexivity|].
    cbn [l_out l_needs_top set_ctr set_needs_top with_page set_lpage l_top]. rewrite HO. unfold newlines.
    replace (0 + p_top p + (1 - 1)) with (0 + Z.of_nat (Z.to_nat (p_top p - 0))) by lia. apply laid_blank, laid_nil.
  - destruct CK as (f' & E & C & I). rewrite E. cbn [obind]. eauto.
Qed.
