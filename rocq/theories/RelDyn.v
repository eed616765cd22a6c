(** Histories with READ NEXT (DYNAMIC access) on a RELATIVE file. *)
From Verif Require Import Base BaseFacts Stdio StdioProofs FileIO SpecFile RelProofs RelHist RelNext.

Lemma map_empty : forall slots k, 1 <= k -> (size_at slots (Z.to_nat (k - 1)) = 0%nat <-> map_of slots k = None).
Proof.
  intros slots k K. unfold size_at. destruct (nth_error slots (Z.to_nat (k - 1))) as [[n d]|] eqn:N.
  - rewrite (map_of_in slots k n d K N). destruct (Nat.ltb_spec 0 n); split; intros; try lia; try discriminate; auto.
  - apply nth_error_None in N. rewrite map_of_out by exact N. tauto.
Qed.

Section Dyn.
Variables (c : iocfg) (lo hi : nat) (kd ld : Z).
Hypothesis LO : (1 <= lo <= hi)%nat.
Hypothesis HI : Z.of_nat hi < 256 ^ 8.
Hypothesis LD : Z.of_nat hi < 10 ^ ld.

Ltac fields := cbn [f_org f_access f_optional f_min f_max f_dep f_key f_data f_size f_open f_nonexistent f_eof f_bof f_first f_read_done f_needs_nl f_stream f_disk f_status
   set_dep set_key set_data set_size set_open set_flags set_first set_done set_nl set_stream set_disk set_status
   r_open r_exists r_map r_key r_area r_len r_status p_next p_end p_fresh] in *.

Lemma step_next : forall f st p, rel_view lo hi kd ld f st p ->
  exists f' st' p', run_op c f OReadNext = Ok f' /\ dyn_step lo hi (io_creates c) (st, p) OReadNext (st', p') /\ rel_view lo hi kd ld f' st' p'.
Proof.
  intros f [o e m k a l s] p V. pose proof V as [V1 V2 V3 V4 V5 V6 V7 V8 V9 V10 V11 V12 V13 V14 VE VS (slots & GD & M & FO)].
  fields. change (run_op c f OReadNext) with (ex_read c f false). unfold ex_read, ret. fields. rewrite V4, VE. cbn [negb andb].
  destruct (p_end p) eqn:PE.
  { exists (set_status 46 (set_done false f)), (mkR o e m k a l 46), p. split; [reflexivity|]. split; [now apply dy_past_end|].
    destruct V. constructor; fields; auto. }
  specialize (VS eq_refl). rewrite V7.
  assert (CASES : readable o = true \/ (readable o = false /\ (o = Closed \/ o = Output))).
  { destruct o; cbn [file_of] in FO; try contradiction; cbn [readable]; auto. }
  destruct CASES as [RD | [RD RO]].
  2:{ exists (set_status 47 (set_done false f)), (mkR o e m k a l 47), p. split; [destruct RO as [-> | ->]; reflexivity|]. split; [now apply dy_denied|].
      destruct V. constructor; fields; auto. }
  assert (SW : forall A (x y : A), match o with Closed | Output | Extend => x | _ => y end = y) by (intros; destruct o; try discriminate RD; auto).
  rewrite SW. clear SW.
  assert (FO' : e = true /\ exists pos, f_stream f = Some (mkStream (flat slots) pos false) /\ pos_of hi p pos) by (destruct o; try discriminate RD; exact FO).
  assert (FF : forall q, p_end q = true \/ (exists pos, pos_of hi q pos /\ False) -> True) by auto. clear FF.
  destruct FO' as (-> & pos & STM & PO). destruct (PO PE) as (-> & PN). clear PO.
  assert (FF : forall q pos dsk, pos_of hi q pos -> file_of hi q o true (Some (mkStream (flat slots) pos false)) dsk slots)
    by (intros; destruct o; try discriminate RD; cbn [file_of]; eauto).
  pose proof GD as (F & G & LK).
  unfold org_read_next. fields. rewrite V1. unfold relative_read_next, with_stream. fields. rewrite STM. cbn [s_bytes].
  assert (FU : (length slots - Z.to_nat (p_next p - 1) < S (length (flat slots)))%nat).
  { rewrite (flat_length hi) by auto. assert (length slots <= length slots * (hi + 8))%nat by (rewrite <- (Nat.mul_1_r (length slots)) at 1; apply Nat.mul_le_mono_l; lia). lia. }
  assert (FT : fits (f_key (set_done false f)) (length slots)) by (fields; rewrite V8; exact LK).
  destruct (next_spec hi slots (S (length (flat slots))) (Z.to_nat (p_next p - 1)) (set_done false f) V6 ltac:(lia) F ltac:(fields; rewrite V10; exact V11) FT FU)
    as (st & f' & E & FRM & R). rewrite E. cbn [obind]. destruct FRM as (M1 & M2 & M3 & M4 & M5 & M6 & M7 & M8 & M9 & M10 & M11 & M12). fields.
  destruct R as [(-> & i & n & d & I1 & I2 & I3 & I4 & I5 & I6 & I7 & I8) | (-> & I1 & I2 & (q & I3) & I4)].
  - change (0 =? 0) with true. cbv iota. set (j := Z.of_nat i + 1).
    assert (EI : Z.to_nat (j - 1) = i) by (unfold j; lia).
    assert (LI : (i < length slots)%nat) by (apply nth_error_Some; congruence).
    assert (NH : (n <= hi)%nat) by (pose proof (proj1 (Forall_forall _ _) G _ (nth_error_In _ _ I2)); auto).
    assert (DL : length d = hi) by (pose proof (proj1 (Forall_forall _ _) F _ (nth_error_In _ _ I2)) as [X _]; exact X).
    assert (MJ : m j = Some (n, d)).
    { rewrite M, (map_of_in slots j n d); [|unfold j; lia|now rewrite EI]. destruct (Nat.ltb_spec 0 n); [reflexivity|lia]. }
    assert (LB : forall x, p_next p <= x < j -> m x = None).
    { intros x X. rewrite M. apply map_empty; [lia|]. apply I4. unfold j in X. lia. }
    rewrite V8 in I8. cbn [i_digits] in I8.
    assert (K1 : item_set (mkItem k kd) 1 = mkItem 1 kd) by (rewrite item_set_id; [reflexivity|cbn [i_digits]; lia]). rewrite K1 in I8.
    eexists. exists (mkR o true m (if p_fresh p && (j =? p_next p) then 1 else j) d (match l with Some _ => Some (Z.of_nat n) | None => None end) 0), (mkPl (j + 1) false false).
    split; [reflexivity|]. split; [apply dy_next; auto; unfold j; lia|].
    assert (EB : (i =? Z.to_nat (p_next p - 1))%nat = (j =? p_next p)).
    { unfold j. destruct (Nat.eqb_spec i (Z.to_nat (p_next p - 1))), (Z.eqb_spec (Z.of_nat i + 1) (p_next p)); try reflexivity; lia. }
    rewrite VS, EB in I8.
    assert (ED : f_dep f' = dep_of ld l) by congruence. assert (EO : f_org f' = OrgRelative) by congruence. fields. rewrite ED, EO.
    assert (PJ : pos_of hi (mkPl (j + 1) false false) (S i * (hi + 8))) by (rewrite <- EI; apply pos_after; unfold j; lia).
    assert (EK : f_key f' = Some (mkItem (if p_fresh p && (j =? p_next p) then 1 else j) kd)) by (rewrite I8; destruct (p_fresh p && (j =? p_next p)); reflexivity).
    assert (KB : 0 <= (if p_fresh p && (j =? p_next p) then 1 else j) < 10 ^ kd) by (destruct (p_fresh p && (j =? p_next p)); unfold j; lia).
    destruct l as [v|]; cbn [dep_of]; fields.
    + rewrite item_set_id by (cbn [i_digits]; rewrite I6; lia). rewrite I6. constructor; fields; auto; try congruence; [intros w [= <-]; lia|].
      exists slots. split; [exact GD|]. split; [exact M|]. rewrite I7. now apply FF.
    + constructor; fields; auto; try congruence. exists slots. split; [exact GD|]. split; [exact M|]. rewrite I7. now apply FF.
  - change (10 =? 0) with false. change (10 =? 10) with true. cbv iota. rewrite V8 in I4. destruct (f_key f') as [k'|] eqn:EK; [|contradiction].
    destruct I4 as (J1 & J2 & J3). cbn [i_digits i_val] in *. destruct k' as [v dg]. cbn [i_digits i_val] in *. subst dg.
    eexists. exists (mkR o true m v a l 10), (mkPl (p_next p) true (p_fresh p)). split; [reflexivity|]. split.
    + apply dy_end; auto.
      * intros x X. rewrite M. apply map_empty; [lia|]. apply I1. lia.
      * destruct J2 as [J2|[J2|J2]]; [left; congruence|auto|right; right; lia].
    + assert (KB : 0 <= v < 10 ^ kd) by (destruct J3 as [J3|J3]; [assert (v = k) by congruence; subst v; exact V9|destruct J2 as [J2|[J2|J2]]; [assert (v = k) by congruence; lia|lia|lia]]).
      constructor; fields; auto; try congruence; try discriminate.
      exists slots. split; [exact GD|]. split; [exact M|]. rewrite I3. apply FF. intros X; discriminate X.
Qed.

Theorem dyn_history : forall ops f st p, rel_view lo hi kd ld f st p -> Forall (dyn_op hi kd ld) ops ->
  exists f' st' p', run_ops c f ops = Ok f' /\ dyn_steps lo hi (io_creates c) (st, p) ops (st', p') /\ rel_view lo hi kd ld f' st' p'.
Proof.
  induction ops as [|o ops IH]; intros f st p V FO.
  - exists f, st, p. split; [reflexivity|split; [constructor|exact V]].
  - apply Forall_cons_iff in FO. destruct FO as [O FO].
    assert (S : exists f1 st1 p1, run_op c f o = Ok f1 /\ dyn_step lo hi (io_creates c) (st, p) o (st1, p1) /\ rel_view lo hi kd ld f1 st1 p1).
    { destruct O as [->|O]; [now apply step_next|]. destruct (step_any c lo hi kd ld LO HI LD f st p o V O) as (f1 & st1 & E & ST & V1).
      exists f1, st1, (moved st o st1 p). split; [exact E|]. split; [now apply dy_op|exact V1]. }
    destruct S as (f1 & st1 & p1 & E & ST & V1). destruct (IH f1 st1 p1 V1 FO) as (f2 & st2 & p2 & E2 & STS & V2).
    exists f2, st2, p2. cbn [run_ops]. rewrite E. cbn [obind]. split; [exact E2|]. split; [econstructor; eauto|exact V2].
Qed.
End Dyn.
