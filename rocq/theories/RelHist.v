(** Histories of operations by record number on a RELATIVE file. *)
From Verif Require Import Base BaseFacts Stdio StdioProofs FileIO SpecFile RelProofs.

Lemma item_set_id : forall v d, 0 <= v < 10 ^ i_digits d -> item_set d v = mkItem v (i_digits d).
Proof. intros v d H. unfold item_set. rewrite Z.abs_eq, Z.mod_small by lia. reflexivity. Qed.

Lemma into_area_all : forall f bs, length bs = length (f_data f) -> into_area f bs = set_data bs f.
Proof. intros f bs L. unfold into_area. rewrite L, skipn_all2 by lia. now rewrite app_nil_r. Qed.

Lemma fread_body : forall mx (slots : list slot) i r ap, Forall (slot_ok mx) slots -> nth_error slots i = Some r ->
  fread (mkStream (flat slots) (i * (mx + 8) + 8) ap) mx = (snd r, mkStream (flat slots) (S i * (mx + 8)) ap).
Proof.
  intros mx slots i r ap F N. destruct (split_at slots i r N) as (a & b & -> & <-).
  rewrite Forall_app, Forall_cons_iff in F. destruct F as (FA & [RL RS] & FB).
  pose proof (fread_all (mkStream (flat (a ++ r :: b)) (length a * (mx + 8) + 8) ap) (flat a ++ le_enc 8 (Z.of_nat (fst r))) (snd r) (flat b)) as R.
  cbn [s_bytes s_pos] in R. rewrite RL in R. rewrite R.
  - unfold set_pos. cbn [s_bytes s_append]. f_equal. f_equal. rewrite !app_length, le8_len, (flat_length mx) by auto. rewrite RL. lia.
  - rewrite flat_mid, <- app_assoc. reflexivity.
  - rewrite app_length, le8_len, (flat_length mx) by auto. reflexivity.
Qed.

Lemma fread_in : forall mx (l : list slot) i r ap, Forall (slot_ok mx) l -> nth_error l i = Some r ->
  fread (mkStream (flat l) (i * (mx + 8)) ap) 8 = (le_enc 8 (Z.of_nat (fst r)), mkStream (flat l) (i * (mx + 8) + 8) ap).
Proof.
  intros mx l i r ap F N. destruct (split_at l i r N) as (a & b & -> & <-).
  rewrite Forall_app, Forall_cons_iff in F. destruct F as (FA & OR & FB).
  pose proof (fread_all (mkStream (flat (a ++ r :: b)) (length a * (mx + 8)) ap) (flat a) (le_enc 8 (Z.of_nat (fst r))) (snd r ++ flat b)) as R.
  cbn [s_bytes s_pos] in R. rewrite le8_len in R. rewrite R; [|apply flat_mid|rewrite (flat_length mx) by auto; reflexivity].
  unfold set_pos. cbn [s_bytes s_append]. rewrite app_length, le8_len, (flat_length mx) by auto. reflexivity.
Qed.

Lemma fread_out : forall mx (l : list slot) i ap, Forall (slot_ok mx) l -> (length l <= i)%nat ->
  fread (mkStream (flat l) (i * (mx + 8)) ap) 8 = ([], mkStream (flat l) (i * (mx + 8)) ap).
Proof.
  intros mx l i ap F L. rewrite fread_eof; [reflexivity|].
  cbn [s_bytes s_pos]; rewrite (flat_length mx) by auto; apply Nat.mul_le_mono_r; exact L.
Qed.


Section View.
Variables (c : iocfg) (lo hi : nat) (kd ld : Z).

Definition dep_of (l : option Z) : option item := match l with Some v => Some (mkItem v ld) | None => None end.
Definition pos_of (p : place) (pos : nat) : Prop := p_end p = false -> pos = (Z.to_nat (p_next p - 1) * (hi + 8))%nat /\ 1 <= p_next p.
Definition file_of (p : place) (o : open_mode) (e : bool) (stm : option stream) (dsk : option (list Z)) (slots : list slot) : Prop :=
  match o with
  | Closed => dsk = (if e then Some (flat slots) else None) /\ (e = false -> slots = [])
  | Input | Output | InOut => e = true /\ exists pos, stm = Some (mkStream (flat slots) pos false) /\ pos_of p pos
  | _ => False
  end.
Definition good (slots : list slot) : Prop :=
  Forall (slot_ok hi) slots /\ Forall (fun r : slot => (fst r <= hi)%nat) slots /\ Z.of_nat (length slots) < 10 ^ kd.
Record rel_view (f : cfile) (st : rstate) (p : place) : Prop := mkView {
  v_org : f_org f = OrgRelative; v_acc : f_access f <> AccSequential; v_opt : f_optional f = false;
  v_ne : f_nonexistent f = false;
  v_min : f_min f = lo; v_max : f_max f = hi;
  v_open : f_open f = r_open st;
  v_key : f_key f = Some (mkItem (r_key st) kd); v_kpos : 0 <= r_key st < 10 ^ kd;
  v_area : f_data f = r_area st; v_alen : length (r_area st) = hi;
  v_dep : f_dep f = dep_of (r_len st); v_dpos : forall v, r_len st = Some v -> 0 <= v;
  v_status : f_status f = r_status st;
  v_eof : f_eof f = p_end p; v_first : p_end p = false -> negb (f_first f =? 0) = p_fresh p;
  v_file : exists slots, good slots /\ (forall k, r_map st k = map_of slots k) /\
             file_of p (r_open st) (r_exists st) (f_stream f) (f_disk f) slots }.

Hypothesis LO : (1 <= lo <= hi)%nat.
Hypothesis HI : Z.of_nat hi < 256 ^ 8.
Hypothesis LD : Z.of_nat hi < 10 ^ ld.

Definition step_goal (f : cfile) (st : rstate) (p : place) (o : op) : Prop :=
  exists f' st', run_op c f o = Ok f' /\ rel_step lo hi (io_creates c) st o st' /\ rel_view f' st' (moved st o st' p).

Ltac fields := cbn [f_org f_access f_optional f_min f_max f_dep f_key f_data f_size f_open f_nonexistent f_eof f_bof f_first f_read_done f_needs_nl f_stream f_disk f_status
   set_dep set_key set_data set_size set_open set_flags set_first set_done set_nl set_stream set_disk set_status
   r_open r_exists r_map r_key r_area r_len r_status moved p_next p_end p_fresh] in *.


Lemma pos_open : forall b b', pos_of (mkPl 1 b b') 0.
Proof. clear LO HI LD. intros b b' _. cbn [p_next]. split; [reflexivity|lia]. Qed.
Lemma pos_at : forall k b b', 1 <= k -> pos_of (mkPl k b b') (Z.to_nat (k - 1) * (hi + 8)).
Proof. clear LO HI LD. intros k b b' H _. cbn [p_next]. split; [reflexivity|exact H]. Qed.
Lemma pos_after : forall k b b', 1 <= k -> pos_of (mkPl (k + 1) b b') (S (Z.to_nat (k - 1)) * (hi + 8)).
Proof. clear LO HI LD. intros k b b' H _. cbn [p_next]. split; [f_equal; lia|lia]. Qed.
Lemma step_open : forall f st p md, rel_view f st p -> (md = Input \/ md = Output \/ md = InOut) -> step_goal f st p (OOpen md).
Proof.
  intros f [o e m k a l s] pl md V MD. destruct V as [V1 V2 V3 V4 V5 V6 V7 V8 V9 V10 V11 V12 V13 V14 VE VS (slots & GD & M & FO)].
  destruct f as [org acc opt mn mx dep key data size open ne eof bof first done nl stm dsk status]; fields; subst.
  assert (GN : good []) by (split; [constructor|split; [constructor|cbn [length]; lia]]).
  assert (EM : forall q, empty_map q = map_of [] q).
  { intros q. unfold empty_map, map_of. destruct (q <? 1); auto. now destruct (Z.to_nat (q - 1)). }
  unfold step_goal, run_op, ex_open, ret. fields.
  destruct o; try contradiction.
  2:{ eexists; eexists; split; [reflexivity|]; split; [apply rs_open_again; discriminate|]; constructor; fields; eauto. }
  2:{ eexists; eexists; split; [reflexivity|]; split; [apply rs_open_again; discriminate|]; constructor; fields; eauto. }
  2:{ eexists; eexists; split; [reflexivity|]; split; [apply rs_open_again; discriminate|]; constructor; fields; eauto. }
  cbn [file_of] in FO. destruct FO as (-> & E). destruct e.
  - cbn [andb]. destruct MD as [-> | [-> | ->]]; unfold file_open; fields; cbn [andb].
    + eexists; eexists; split; [reflexivity|]; split; [apply rs_open; auto|]. constructor; fields; auto.
      exists slots; split; [auto|split; [auto|cbn [file_of]; eauto 6 using pos_open]].
    + eexists; eexists; split; [reflexivity|]; split; [apply rs_open_output; auto|]. constructor; fields; auto.
      exists []; split; [auto|split; [auto|cbn [file_of]; eauto 6 using pos_open]].
    + eexists; eexists; split; [reflexivity|]; split; [apply rs_open; auto|]. constructor; fields; auto.
      exists slots; split; [auto|split; [auto|cbn [file_of]; eauto 6 using pos_open]].
  - assert (X : slots = []) by auto. subst slots.
    destruct MD as [-> | [-> | ->]]; cbn [andb negb].
    + eexists; eexists; split; [reflexivity|]; split; [apply rs_open_missing; auto|]. constructor; fields; auto.
      exists []; split; [auto|split; [auto|cbn [file_of]; eauto 6 using pos_open]].
    + unfold file_open; fields. eexists; eexists; split; [reflexivity|]; split; [apply rs_open_output; auto|]. constructor; fields; auto.
      exists []; split; [auto|split; [auto|cbn [file_of]; eauto 6 using pos_open]].
    + unfold file_open; fields. destruct (io_creates c) eqn:IC; cbn [andb negb].
      * eexists; eexists; split; [reflexivity|]; split; [apply rs_open_create; auto|]. constructor; fields; auto.
        exists []; split; [auto|split; [auto|cbn [file_of]; eauto 6 using pos_open]].
      * eexists; eexists; split; [reflexivity|]; split; [apply rs_open_missing; auto|]. constructor; fields; auto.
        exists []; split; [auto|split; [auto|cbn [file_of]; eauto 6 using pos_open]].
Qed.

Lemma step_close : forall f st p, rel_view f st p -> step_goal f st p (OClose CloseNormal).
Proof.
  intros f [o e m k a l s] pl V. destruct V as [V1 V2 V3 V4 V5 V6 V7 V8 V9 V10 V11 V12 V13 V14 VE VS (slots & GD & M & FO)]. pose proof GD as (F & G & LK).
  destruct f as [org acc opt mn mx dep key data size open ne eof bof first done nl stm dsk status]; fields; subst.
  unfold step_goal, run_op, ex_close, ret. fields.
  destruct o; cbn [file_of] in FO; try contradiction.
  - eexists; eexists; split; [reflexivity|]; split; [apply rs_close_again|]; constructor; fields; eauto.
  - destruct FO as (-> & pos & -> & PO). unfold file_close, with_stream. fields. cbn [obind]. change (0 =? 0) with true. cbv iota.
    eexists; eexists; split; [reflexivity|]; split; [apply rs_close; discriminate|]; constructor; fields; auto. exists slots. split; [auto|split; [auto|cbn [file_of s_bytes]; split; [auto|discriminate]]].
  - destruct FO as (-> & pos & -> & PO). unfold file_close, with_stream. fields. cbn [obind]. change (0 =? 0) with true. cbv iota.
    eexists; eexists; split; [reflexivity|]; split; [apply rs_close; discriminate|]; constructor; fields; auto. exists slots. split; [auto|split; [auto|cbn [file_of s_bytes]; split; [auto|discriminate]]].
  - destruct FO as (-> & pos & -> & PO). unfold file_close, with_stream. fields. cbn [obind]. change (0 =? 0) with true. cbv iota.
    eexists; eexists; split; [reflexivity|]; split; [apply rs_close; discriminate|]; constructor; fields; auto. exists slots. split; [auto|split; [auto|cbn [file_of s_bytes]; split; [auto|discriminate]]].
Qed.

Lemma step_move : forall f st p o, rel_view f st p -> rel_op hi kd ld o ->
  match o with OSet _ | OKey _ | ODep _ => step_goal f st p o | _ => True end.
Proof.
  intros f [o e m k a l s] pl op V OP. destruct V as [V1 V2 V3 V4 V5 V6 V7 V8 V9 V10 V11 V12 V13 V14 VE VS VF].
  destruct f as [org acc opt mn mx dep key data size open ne eof bof first done nl stm dsk status]; fields; subst.
  unfold step_goal. destruct op; auto; cbn [run_op rel_op] in *; fields.
  - eexists; eexists; split; [reflexivity|]; split; [apply rs_set|]; constructor; fields; auto.
  - rewrite item_set_id by (cbn [i_digits]; lia). eexists; eexists; split; [reflexivity|]; split; [apply rs_key; lia|]; constructor; fields; auto.
  - destruct l as [v|]; cbn [dep_of].
    + rewrite item_set_id by (cbn [i_digits]; lia). eexists; eexists; split; [reflexivity|]; split; [apply rs_dep; lia|]; constructor; fields; auto.
      intros w [= <-]. lia.
    + eexists; eexists; split; [reflexivity|]; split; [apply rs_dep; lia|]; constructor; fields; auto.
Qed.



Lemma step_read : forall f st p, rel_view f st p -> step_goal f st p ORead.
Proof.
  intros f [o e m k a l s] pl V. destruct V as [V1 V2 V3 V4 V5 V6 V7 V8 V9 V10 V11 V12 V13 V14 VE VS (slots & GD & M & FO)]. pose proof GD as (F & G & LK).
  destruct f as [org acc opt mn mx dep key data size open ne eof bof first done nl stm dsk status]; fields; subst.
  unfold step_goal, run_op, ex_read, ret. fields. cbn [negb andb].
  assert (CASES : readable o = true \/ (readable o = false /\ (o = Closed \/ o = Output))).
  { destruct o; cbn [file_of] in FO; try contradiction; cbn [readable]; auto. }
  destruct CASES as [RD | [RD [-> | ->]]].
  2:{ eexists; eexists; split; [reflexivity|]; split; [apply rs_read_denied; auto|]; constructor; fields; eauto. }
  2:{ eexists; eexists; split; [reflexivity|]; split; [apply rs_read_denied; auto|]; constructor; fields; eauto. }
  assert (FO' : e = true /\ exists pos, stm = Some (mkStream (flat slots) pos false) /\ pos_of pl pos) by (destruct o; try discriminate RD; exact FO).
  destruct FO' as (-> & pos & -> & PO).
  assert (BODY : exists st' f' n, (relative_read (mkFile OrgRelative acc false lo hi (dep_of l) (Some (mkItem k kd)) a size o false (p_end pl) bof first false nl
       (Some (mkStream (flat slots) pos false)) dsk s)) = Ok (st', f') /\
       ((st' = 23 /\ m k = None /\ exists pos' sz', f' = mkFile OrgRelative acc false lo hi (dep_of l) (Some (mkItem k kd)) a sz' o false (p_end pl) bof first false nl
       (Some (mkStream (flat slots) pos' false)) dsk s /\ pos_of (if 1 <=? k then mkPl k (p_end pl) (p_fresh pl) else pl) pos') \/
        (st' = 0 /\ exists d, length d = hi /\ (n <= hi)%nat /\ m k = Some (n, d) /\ exists pos', f' = mkFile OrgRelative acc false lo hi (dep_of l) (Some (mkItem k kd)) d n o false (p_end pl) bof first false nl
       (Some (mkStream (flat slots) pos' false)) dsk s /\ pos_of (mkPl (k + 1) false false) pos'))).
  { unfold relative_read, with_stream. fields. cbn [i_val].
    rewrite M. destruct (Z.ltb_spec k 1).
    - rewrite seek_slot_neg by lia. do 2 eexists. exists 0%nat. split; [reflexivity|]. left. rewrite map_of_neg by lia. split; [auto|]. split; [auto|]. do 2 eexists. split; [reflexivity|]. destruct (Z.leb_spec 1 k); [lia|exact PO].
    - destruct (Z.leb_spec 1 k); [|lia]. rewrite seek_slot by lia. fields. unfold set_pos. cbn [s_bytes s_append].
      set (i := Z.to_nat (k - 1)). destruct (nth_error slots i) as [[n d]|] eqn:N.
      + rewrite (read_size_in hi slots i (n, d) false F N). cbn [obind fst]. fields.
        rewrite (map_of_in slots k n d) by auto.
        pose proof (proj1 (Forall_forall _ _) F _ (nth_error_In _ _ N)) as [DL _]. cbn [snd] in DL.
        pose proof (proj1 (Forall_forall _ _) G _ (nth_error_In _ _ N)) as NH. cbn [fst] in NH.
        destruct (Nat.eqb_spec n 0) as [->|NZ].
        * cbn [Nat.ltb Nat.leb]. unfold fseek_cur. cbn [s_pos]. unfold fseek_set.
          destruct (Z.ltb_spec (Z.of_nat (i * (hi + 8) + 8) + - Z.of_nat SZ) 0); [unfold SZ in *; lia|].
          do 2 eexists. exists 0%nat. split; [reflexivity|]. left. unfold set_pos. cbn [s_bytes s_append]. split; [auto|]; split; [auto|]; do 2 eexists; split; [reflexivity|].
          replace (Z.to_nat (Z.of_nat (i * (hi + 8) + 8) + - Z.of_nat SZ)) with (i * (hi + 8))%nat by (unfold SZ; lia). now apply pos_at.
        * destruct (Nat.ltb_spec 0 n); [|lia]. unfold read_body. fields.
          rewrite (fread_body hi slots i (n, d) false F N). cbn [snd].
          destruct (Nat.ltb_spec (length a) (length d)); [lia|]. fields. rewrite DL, Nat.eqb_refl. cbn [andb].
          destruct (Nat.ltb_spec 0 hi); [|lia]. cbn [obind]. rewrite into_area_all by (fields; lia). fields.
          do 2 eexists. exists n. split; [reflexivity|]. right. split; [auto|]. exists d. split; [auto|]. split; [auto|]. split; [auto|]. eexists; split; [reflexivity|]. now apply pos_after.
      + apply nth_error_None in N. rewrite (read_size_out hi) by auto. do 2 eexists. exists 0%nat. split; [reflexivity|]. left. rewrite map_of_out by auto. split; [auto|]; split; [auto|]; do 2 eexists; split; [reflexivity|]. now apply pos_at. }
  destruct BODY as (st' & f' & n & E & R).
  assert (FF : forall q pos', pos_of q pos' -> file_of q o true (Some (mkStream (flat slots) pos' false)) dsk slots)
    by (intros; destruct o; try discriminate RD; cbn [file_of]; eauto).
  assert (RUN : exists f'', match o with
    | Closed | Output | Extend => Ok (set_status 47 (mkFile OrgRelative acc false lo hi (dep_of l) (Some (mkItem k kd)) a size o false (p_end pl) bof first false nl
       (Some (mkStream (flat slots) pos false)) dsk s))
    | _ => do r <- Ok (st', f'); (let '(st, f) := r in
      if st =? 0 then
        let f := set_flags (f_nonexistent f) false false (set_done true (set_first 0 f)) in
        ret 0 (match f_dep f, f_org f with
               | None, _ => f
               | Some _, OrgLineSequential => f
               | Some d, _ => set_dep (Some (item_set d (Z.of_nat (f_size f)))) f
               end)
      else if st =? 10 then ret 10 (set_flags (f_nonexistent f) true (f_bof f) f)
      else ret st f) end = Ok f'' /\ exists st'', rel_step lo hi (io_creates c) (mkR o true m k a l s) ORead st'' /\ rel_view f'' st'' (moved (mkR o true m k a l s) ORead st'' pl)).
  { assert (SW : forall A (x y : A), match o with Closed | Output | Extend => x | _ => y end = y) by (intros; destruct o; try discriminate RD; auto).
    rewrite SW. cbn [obind]. unfold ret. clear E.
    destruct R as [(-> & MK & pos' & sz' & -> & PP) | (-> & d & DL & NH & MK & pos' & -> & PP)].
    - change (23 =? 0) with false. change (23 =? 10) with false. cbv iota.
      eexists; split; [reflexivity|]; eexists; split; [apply rs_read_absent; auto|]. fields. change (23 =? 0) with false. change (23 =? 23) with true. cbv iota.
      assert (QE : p_end (if 1 <=? k then mkPl k (p_end pl) (p_fresh pl) else pl) = p_end pl /\ p_fresh (if 1 <=? k then mkPl k (p_end pl) (p_fresh pl) else pl) = p_fresh pl)
        by (destruct (1 <=? k); auto). destruct QE as (QE & QF).
      constructor; fields; auto; rewrite ?QE, ?QF; auto.
      exists slots. split; [auto|split;[auto|]]. apply FF. exact PP.
    - change (0 =? 0) with true. cbv iota. cbv zeta. fields.
      eexists; split; [reflexivity|]; eexists; split; [eapply rs_read; eauto|].
      destruct l as [v|]; cbn [dep_of]; fields.
      + rewrite item_set_id by (cbn [i_digits]; lia). constructor; fields; auto; [intros w [= <-]; lia|exists slots; auto].
      + constructor; fields; auto. exists slots; auto. }
  destruct RUN as (f'' & E2 & st'' & ST & V). exists f'', st''. split; [|auto].
  rewrite <- E2. rewrite <- E. destruct o; reflexivity.
Qed.

Lemma slot_size_dec : forall (l : list slot) i n d, Forall (slot_ok hi) l -> nth_error l i = Some (n, d) -> le_dec (le_enc 8 (Z.of_nat n)) = Z.of_nat n.
Proof.
  intros l i n d F N. apply le_dec_enc. pose proof (proj1 (Forall_forall _ _) F _ (nth_error_In _ _ N)) as [_ B]. cbn [fst] in B.
  split; [lia|exact B].
Qed.

Lemma good_set : forall slots i r, good slots -> slot_ok hi r -> (fst r <= hi)%nat -> good (set_slot slots i r).
Proof.
  intros slots i r (F & G & L) O B. split; [apply set_slot_ok; auto|]. split; [apply set_slot_Forall; auto|].
  rewrite set_slot_length. exact L.
Qed.
Lemma good_ext : forall slots i r, good slots -> slot_ok hi r -> (fst r <= hi)%nat -> (length slots <= i)%nat -> Z.of_nat i + 1 < 10 ^ kd ->
  good (slots ++ repeat (zslot hi) (i - length slots) ++ [r]).
Proof.
  intros slots i r (F & G & L) O B LI KB. split; [|split].
  - rewrite !Forall_app. split; [auto|]. split; [|constructor; [auto|constructor]].
    clear. induction (i - length slots)%nat; cbn [repeat]; constructor; auto. apply zslot_ok.
  - rewrite !Forall_app. split; [auto|]. split; [|constructor; [auto|constructor]].
    clear. induction (i - length slots)%nat; cbn [repeat]; constructor; auto. cbn [zslot fst]. lia.
  - rewrite !app_length, repeat_length. cbn [length]. lia.
Qed.

(** relative_write by record number. *)
Lemma write_body : forall f slots pos k, f_max f = hi -> f_access f <> AccSequential -> f_key f = Some (mkItem k kd) ->
  length (f_data f) = hi -> (1 <= f_size f <= hi)%nat -> k < 10 ^ kd ->
  f_stream f = Some (mkStream (flat slots) pos false) -> good slots ->
  (k < 1 /\ relative_write f = Ok (21, f)) \/
  (1 <= k /\ map_of slots k <> None /\ relative_write f = Ok (22, set_stream (Some (mkStream (flat slots) (Z.to_nat (k - 1) * (hi + 8)) false)) f)) \/
  (1 <= k /\ map_of slots k = None /\ exists slots', relative_write f = Ok (0, set_stream (Some (mkStream (flat slots') (S (Z.to_nat (k - 1)) * (hi + 8)) false)) f) /\
     good slots' /\
     forall j, map_of slots' j = put (map_of slots) k (f_size f, f_data f) j).
Proof.
  intros f slots pos k MX ACC KEY DL SZB KB STM GD. pose proof GD as (F & G & LK). unfold relative_write, with_stream. rewrite STM.
  rewrite KEY. cbn [i_val].
  set (P := match f_access f with AccSequential => _ | _ => _ end).
  assert (EP : P = if k - 1 <? 0 then Ok (inl 21) else
     match fseek_set (mkStream (flat slots) pos false) (slot_off f (k - 1)) with None => Ok (inl 21) | Some s => Ok (inr s) end).
  { unfold P. destruct (f_access f); try reflexivity. congruence. }
  rewrite EP. clear P EP. destruct (Z.ltb_spec (k - 1) 0) as [K|K].
  - left. split; [lia|]. reflexivity.
  - right. rewrite seek_slot by lia. cbn [obind]. unfold set_pos. cbn [s_pos s_bytes s_append]. rewrite MX. unfold SZ.
    assert (SLN : slot_ok hi (f_size f, f_data f)) by (split; cbn [fst snd]; [auto|lia]).
    assert (DONE : forall x, (if negb (0 =? 0) then Ok (0, x) else
      Ok (0, match f_access x with AccSequential => match f_key x with
         | Some k0 => set_key (Some (item_set k0 (Z.of_nat ((Z.to_nat (k - 1) * (hi + 8) + relsize x) / relsize x)))) x | None => x end
         | _ => x end)) = Ok (0, x) \/ f_access x = AccSequential).
    { intros x. cbn [negb]. change (0 =? 0) with true. cbn [negb]. destruct (f_access x); auto. }
    set (i := Z.to_nat (k - 1)) in *. destruct (nth_error slots i) as [[n d]|] eqn:N.
    + rewrite (fread_in hi slots i (n, d) false F N). cbn [fst]. rewrite le8_len, (slot_size_dec slots i n d F N).
      cbn [Nat.eqb andb]. rewrite (map_of_in slots k n d) by (auto; lia).
      destruct (Z.ltb_spec 0 (Z.of_nat n)) as [NP|NP]; destruct (Nat.ltb_spec 0 n); try lia.
      * left. split; [lia|]. split; [discriminate|]. reflexivity.
      * right. split; [lia|]. split; [auto|].
        assert (WS := write_slot_in f slots i (n, d) ltac:(rewrite MX; exact F) N ltac:(lia) ltac:(lia)). rewrite MX in WS. unfold set_pos. cbn [s_bytes s_append]. rewrite WS. cbn [obind].
        match goal with |- context [set_stream ?S f] => set (x := set_stream S f) end.
        destruct (DONE x) as [D | D]; [|unfold x in D; fields; congruence].
        exists (set_slot slots i (f_size f, f_data f)).
        split; [|split; [apply good_set; cbn [fst]; auto; lia|]].
        -- etransitivity; [|exact D]. destruct (f_access x); [destruct (f_key x)| |]; reflexivity.
        -- intros j. unfold i. rewrite map_set_slot; [|lia|apply nth_error_Some; fold i; congruence]. unfold put. cbn [fst].
           destruct (Nat.ltb_spec 0 (f_size f)); [reflexivity|lia].
    + apply nth_error_None in N. rewrite (fread_out hi slots i false F N). cbn [length Nat.eqb andb].
      right. split; [lia|]. split; [apply map_of_out; exact N|].
      assert (WS := write_slot_out f slots i ltac:(rewrite MX; exact F) N ltac:(lia) ltac:(lia)). rewrite MX in WS. unfold set_pos. cbn [s_bytes s_append]. rewrite WS. cbn [obind].
      match goal with |- context [set_stream ?S f] => set (x := set_stream S f) end.
      destruct (DONE x) as [D | D]; [|unfold x in D; fields; congruence].
      exists (slots ++ repeat (zslot hi) (i - length slots) ++ [(f_size f, f_data f)]).
      split; [|split; [apply good_ext; cbn [fst]; auto; lia|]].
      * etransitivity; [|exact D]. destruct (f_access x); [destruct (f_key x)| |]; reflexivity.
      * intros j. unfold i. rewrite map_extend by (auto; lia). unfold put. cbn [fst]. destruct (Nat.ltb_spec 0 (f_size f)); [reflexivity|lia].
Qed.

Lemma step_write : forall f st p n w, rel_view f st p -> step_goal f st p (OWrite n w).
Proof.
  intros f [o e m k a l s] pl n w V. destruct V as [V1 V2 V3 V4 V5 V6 V7 V8 V9 V10 V11 V12 V13 V14 VE VS (slots & GD & M & FO)].
  destruct f as [org acc opt mn mx dep key data size open ne eof bof first done nl stm dsk status]; fields; subst.
  unfold step_goal, run_op, ex_write, ret. fields.
  assert (CASES : writable o = true \/ (writable o = false /\ (o = Closed \/ o = Input))).
  { destruct o; cbn [file_of] in FO; try contradiction; cbn [writable]; auto. }
  destruct CASES as [WR | [WR [-> | ->]]].
  2:{ destruct acc; [congruence| |]; (eexists; eexists; split; [reflexivity|]; split; [apply rs_write_denied; auto|]; constructor; fields; eauto). }
  2:{ destruct acc; [congruence| |]; (eexists; eexists; split; [reflexivity|]; split; [apply rs_write_denied; auto|]; constructor; fields; eauto). }
  assert (FO' : e = true /\ exists pos, stm = Some (mkStream (flat slots) pos false) /\ pos_of pl pos) by (destruct o; try discriminate WR; exact FO).
  destruct FO' as (-> & pos & -> & PO).
  match goal with |- context [if ?b then Ok (set_status 48 _) else _] =>
    assert (DN : b = false) by (destruct acc, o; try discriminate WR; try congruence; reflexivity); rewrite DN; clear DN end.
  assert (FF : forall q sl p, pos_of q p -> file_of q o true (Some (mkStream (flat sl) p false)) dsk sl) by (intros; destruct o; try discriminate WR; cbn [file_of]; eauto).
  set (len := match l with Some v => v | None => Z.of_nat n end).
  assert (EN : match dep_of l with Some d => Z.to_nat (i_val d) | None => n end = Z.to_nat len).
  { unfold len. destruct l; cbn [dep_of i_val]; [reflexivity|now rewrite Nat2Z.id]. }
  rewrite EN. assert (LP : 0 <= len) by (unfold len; destruct l; [apply V13; auto|lia]).
  destruct (Nat.ltb_spec (Z.to_nat len) lo) as [B1|B1]; cbn [orb].
  { eexists; eexists; split; [reflexivity|]; split; [apply rs_write_size; [auto|fold len; lia]|]. constructor; fields; auto. exists slots; auto. }
  destruct (Nat.ltb_spec hi (Z.to_nat len)) as [B2|B2].
  { eexists; eexists; split; [reflexivity|]; split; [apply rs_write_size; [auto|fold len; lia]|]. constructor; fields; auto. exists slots; auto. }
  unfold org_write. fields.
  set (g := mkFile OrgRelative acc false lo hi (dep_of l) (Some (mkItem k kd)) a (Z.to_nat len) o false (p_end pl) bof first false nl (Some (mkStream (flat slots) pos false)) dsk s).
  assert (SB : (1 <= f_size g <= hi)%nat) by (unfold g; fields; lia).
  match goal with |- context [relative_write ?x] => change x with g end.
  destruct (write_body g slots pos k eq_refl V2 eq_refl V11 SB (proj2 V9) eq_refl GD) as [(K & E) | [(K & MK & E) | (K & MK & slots' & E & GD' & M')]]; rewrite E; cbn [obind]; unfold g; fields.
  - eexists; eexists; split; [reflexivity|]; split; [apply rs_write_key; auto; fold len; lia|]. constructor; fields; auto. exists slots; auto.
  - eexists; eexists; split; [reflexivity|]; split; [apply rs_write_dup; auto; [fold len; lia|now rewrite M]|]. fields. change (22 =? 0) with false. change (22 =? 22) with true. cbv iota. destruct (Z.leb_spec 1 k); [|lia].
    constructor; fields; auto. exists slots; split; [auto|]; split; [auto|]. now apply FF, pos_at.
  - eexists; eexists; split; [reflexivity|]; split; [apply rs_write; auto; [fold len; lia|now rewrite M]|]. fields. change (0 =? 0) with true. cbv iota. constructor; fields; auto. exists slots'.
    split; [auto|]. split; [|apply FF; now apply pos_after]. intros j. rewrite M'. unfold put. fold len. unfold g. fields. destruct (j =? k); auto.
Qed.

(** relative_rewrite and relative_delete by record number. *)
(** The position after REWRITE and DELETE. *)
Definition moved_pos (k : Z) (pos : nat) (st' : Z) (pos' : nat) : Prop :=
  (st' = 0 /\ 1 <= k /\ pos' = (S (Z.to_nat (k - 1)) * (hi + 8))%nat) \/
  (st' = 23 /\ pos' = if 1 <=? k then (Z.to_nat (k - 1) * (hi + 8))%nat else pos).
Lemma moved_pos_of : forall pl k pos st' pos', pos_of pl pos -> moved_pos k pos st' pos' ->
  let q := if st' =? 0 then mkPl (k + 1) (p_end pl) (p_fresh pl) else if st' =? 23 then (if 1 <=? k then mkPl k (p_end pl) (p_fresh pl) else pl) else pl in
  pos_of q pos' /\ p_end q = p_end pl /\ p_fresh q = p_fresh pl.
Proof.
  intros pl k pos st' pos' PO [(-> & K & ->)|(-> & ->)] q; unfold q.
  - change (0 =? 0) with true. cbv iota. split; [now apply pos_after|auto].
  - change (23 =? 0) with false. change (23 =? 23) with true. cbv iota. destruct (Z.leb_spec 1 k); [split; [now apply pos_at|auto]|auto].
Qed.
Lemma rewrite_body : forall f slots pos k, f_max f = hi -> f_access f <> AccSequential -> f_key f = Some (mkItem k kd) ->
  length (f_data f) = hi ->
  f_stream f = Some (mkStream (flat slots) pos false) -> good slots ->
  exists st' pos' sz' slots', relative_rewrite f = Ok (st', set_stream (Some (mkStream (flat slots') pos' false)) (set_size sz' f)) /\
     good slots' /\ moved_pos k pos st' pos' /\
    ((map_of slots k = None /\ (st' = 23 \/ st' = 0) /\ forall j, map_of slots' j = map_of slots j) \/
     (exists n0 d0, map_of slots k = Some (n0, d0) /\ st' = 0 /\ forall j, map_of slots' j = put (map_of slots) k (n0, f_data f) j)).
Proof.
  intros f slots pos k MX ACC KEY DL STM GD. pose proof GD as (F & G & LK). unfold relative_rewrite, with_stream. rewrite STM.
  rewrite KEY. cbn [i_val].
  set (P := match f_access f with AccSequential => _ | _ => _ end).
  assert (EP : P = match fseek_set (mkStream (flat slots) pos false) (slot_off f (k - 1)) with
        | None => Ok (inr f)
        | Some s =>
          let '(sz, s) := read_slot_size s in
          match sz with
          | None => Ok (inr (set_stream (Some s) f))
          | Some osz => do n <- osz; Ok (inl (set_size n f, s))
          end
        end).
  { unfold P. destruct (f_access f); try reflexivity. congruence. }
  rewrite EP. clear P EP. destruct (Z.ltb_spec k 1) as [K|K].
  - rewrite seek_slot_neg by lia. cbn [obind]. exists 23, pos, (f_size f), slots. rewrite <- STM. destruct f; fields.
    split; [reflexivity|]. split; [auto|]. split; [right; split; [auto|]; destruct (Z.leb_spec 1 k); [lia|reflexivity]|]. left. split; [apply map_of_neg; auto|auto].
  - rewrite seek_slot by lia. unfold set_pos. cbn [s_pos s_bytes s_append]. rewrite MX.
    set (i := Z.to_nat (k - 1)) in *. destruct (nth_error slots i) as [[n d]|] eqn:N.
    + rewrite (read_size_in hi slots i (n, d) false F N). cbn [obind fst]. fields. rewrite DL, MX, Nat.ltb_irrefl.
      destruct (Nat.eqb_spec hi 0); [lia|].
      pose proof (proj1 (Forall_forall _ _) F _ (nth_error_In _ _ N)) as OR. destruct OR as [RL RS]. cbn [fst snd] in RL, RS.
      pose proof (proj1 (Forall_forall _ _) G _ (nth_error_In _ _ N)) as NH. cbn [fst] in NH.
      assert (LI : (i < length slots)%nat) by (apply nth_error_Some; congruence).
      assert (W : fwrite (mkStream (flat slots) (i * (hi + 8) + 8) false) (firstn hi (f_data f)) =
        mkStream (flat (set_slot slots i (n, f_data f))) (S i * (hi + 8)) false).
      { destruct (split_at slots i (n, d) N) as (a & b & E & L). subst slots. rewrite <- L.
        rewrite Forall_app, Forall_cons_iff in F. destruct F as (FA & _ & FB).
        rewrite firstn_all2 by lia. rewrite set_slot_mid, !flat_mid. cbn [fst snd].
        rewrite !(app_assoc (flat a)).
        replace (length a * (hi + 8) + 8)%nat with (length (flat a ++ le_enc 8 (Z.of_nat n)))
          by (rewrite app_length, le8_len, (flat_length hi) by auto; reflexivity).
        rewrite fwrite_mid by lia. f_equal. rewrite !app_length, le8_len, (flat_length hi) by auto. lia. }
      rewrite W. exists 0, (S i * (hi + 8))%nat, n, (set_slot slots i (n, f_data f)).
      split; [reflexivity|]. split; [apply good_set; [auto|split; cbn [fst snd]; auto|cbn [fst]; auto]|].
      split; [left; split; [auto|]; split; [exact K|]; unfold i; reflexivity|].
      { assert (MM : forall j, map_of (set_slot slots i (n, f_data f)) j = if j =? k then (if (0 <? n)%nat then Some (n, f_data f) else None) else map_of slots j).
        { intros j. unfold i. rewrite map_set_slot; [reflexivity|lia|exact LI]. }
        rewrite (map_of_in slots k n d) by auto.
        destruct (0 <? n)%nat eqn:NZ.
        -- right. exists n, d. split; auto.
        -- left. split; auto. split; auto. intros j. rewrite MM. destruct (Z.eqb_spec j k) as [->|]; auto.
           rewrite (map_of_in slots k n d) by auto. now rewrite NZ. }
    + apply nth_error_None in N. rewrite (read_size_out hi slots i false F N). cbn [obind].
      eexists 23, _, (f_size f), slots. destruct f; fields.
      split; [reflexivity|]. split; [auto|]. split; [right; split; [auto|]; destruct (Z.leb_spec 1 k); [reflexivity|lia]|]. left. split; [apply map_of_out; auto|auto].
Qed.

Lemma delete_body : forall f slots pos k, f_max f = hi -> f_key f = Some (mkItem k kd) ->
  f_stream f = Some (mkStream (flat slots) pos false) -> good slots ->
  exists st' pos' sz' slots', relative_delete f = Ok (st', set_stream (Some (mkStream (flat slots') pos' false)) (set_size sz' f)) /\
     good slots' /\ moved_pos k pos st' pos' /\
    ((map_of slots k = None /\ (st' = 23 \/ st' = 0) /\ forall j, map_of slots' j = map_of slots j) \/
     (exists r, map_of slots k = Some r /\ st' = 0 /\ forall j, map_of slots' j = remove (map_of slots) k j)).
Proof.
  intros f slots pos k MX KEY STM GD. pose proof GD as (F & G & LK). unfold relative_delete, with_stream. rewrite STM.
  rewrite KEY. cbn [i_val]. destruct (Z.ltb_spec k 1) as [K|K].
  - rewrite seek_slot_neg by lia. exists 23, pos, (f_size f), slots. rewrite <- STM. destruct f; fields.
    split; [reflexivity|]. split; [auto|]. split; [right; split; [auto|]; destruct (Z.leb_spec 1 k); [lia|reflexivity]|]. left. split; [apply map_of_neg; auto|auto].
  - rewrite seek_slot by lia. unfold set_pos. cbn [s_pos s_bytes s_append]. rewrite MX.
    set (i := Z.to_nat (k - 1)) in *. destruct (nth_error slots i) as [[n d]|] eqn:N.
    + rewrite (read_size_in hi slots i (n, d) false F N). cbn [obind fst].
      pose proof (proj1 (Forall_forall _ _) F _ (nth_error_In _ _ N)) as OR. destruct OR as [RL RS]. cbn [fst snd] in RL, RS.
      assert (LI : (i < length slots)%nat) by (apply nth_error_Some; congruence).
      assert (W : fwrite (mkStream (flat slots) (i * (hi + 8)) false) (le_enc SZ 0) =
        mkStream (flat (set_slot slots i (0%nat, d))) (i * (hi + 8) + 8) false).
      { destruct (split_at slots i (n, d) N) as (a & b & E & L). subst slots. rewrite <- L.
        rewrite Forall_app, Forall_cons_iff in F. destruct F as (FA & _ & FB).
        rewrite set_slot_mid, !flat_mid. cbn [fst snd]. rewrite <- (flat_length hi) by auto.
        rewrite fwrite_mid by (rewrite !le_enc_length; reflexivity). f_equal. rewrite !app_length, le_enc_length. reflexivity. }
      rewrite W. unfold fseek_cur, fseek_set. cbn [s_pos].
      destruct (Z.ltb_spec (Z.of_nat (i * (hi + 8) + 8) + Z.of_nat hi) 0); [lia|]. unfold set_pos. cbn [s_bytes s_append].
      eexists 0, _, 0%nat, (set_slot slots i (0%nat, d)). split; [reflexivity|].
      split; [apply good_set; [auto|split; cbn [fst snd]; [auto|vm_compute; reflexivity]|cbn [fst]; lia]|].
      split; [left; split; [auto|]; split; [exact K|]; unfold i; lia|].
      { assert (MM : forall j, map_of (set_slot slots i (0%nat, d)) j = if j =? k then None else map_of slots j).
        { intros j. unfold i. rewrite map_set_slot; [reflexivity|lia|exact LI]. }
        rewrite (map_of_in slots k n d) by auto.
        destruct (0 <? n)%nat eqn:NZ.
        -- right. exists (n, d). split; auto.
        -- left. split; auto. split; auto. intros j. rewrite MM. destruct (Z.eqb_spec j k) as [->|]; auto.
           rewrite (map_of_in slots k n d) by auto. now rewrite NZ. }
    + apply nth_error_None in N. rewrite (read_size_out hi slots i false F N).
      eexists 23, _, (f_size f), slots. destruct f; fields.
      split; [reflexivity|]. split; [auto|]. split; [right; split; [auto|]; destruct (Z.leb_spec 1 k); [reflexivity|lia]|]. left. split; [apply map_of_out; auto|auto].
Qed.

Lemma step_rewrite : forall f st p n, rel_view f st p -> step_goal f st p (ORewrite n).
Proof.
  intros f [o e m k a l s] pl n V. destruct V as [V1 V2 V3 V4 V5 V6 V7 V8 V9 V10 V11 V12 V13 V14 VE VS (slots & GD & M & FO)].
  destruct f as [org acc opt mn mx dep key data size open ne eof bof first done nl stm dsk status]; fields; subst.
  unfold step_goal, run_op, ex_rewrite, ret. fields.
  destruct o; cbn [file_of] in FO; try contradiction;
    try (eexists; eexists; split; [reflexivity|]; split; [apply rs_rewrite_denied; discriminate|]; constructor; fields; auto; exists slots; auto; fail).
  destruct FO as (-> & pos & -> & PO).
  match goal with |- context [if ?b then Ok (set_status 43 _) else _] =>
    assert (DN : b = false) by (destruct acc; try congruence; reflexivity); rewrite DN; clear DN end.
  unfold org_rewrite. fields.
  set (g := mkFile OrgRelative acc false lo hi (dep_of l) (Some (mkItem k kd)) a size InOut false (p_end pl) bof first false nl (Some (mkStream (flat slots) pos false)) dsk s).
  match goal with |- context [relative_rewrite ?x] => change x with g end.
  destruct (rewrite_body g slots pos k eq_refl V2 eq_refl V11 eq_refl GD) as (st' & pos' & sz' & slots' & E & GD' & MP & R).
  rewrite E. cbn [obind]. unfold g in *. fields.
  destruct (moved_pos_of pl k pos st' pos' PO MP) as (PP & QE & QF). cbv zeta in PP, QE, QF.
  set (q := if st' =? 0 then _ else _) in *.
  assert (FF : file_of q InOut true (Some (mkStream (flat slots') pos' false)) dsk slots') by (cbn [file_of]; eauto).
  destruct R as [(MK & ST & M') | (n0 & d0 & MK & -> & M')].
  - eexists; eexists; split; [reflexivity|]; split; [apply rs_rewrite_absent; [now rewrite M|exact ST]|]. fields; try fold q; constructor; fields; auto; rewrite ?QE, ?QF; auto.
    exists slots'. split; [auto|]. split; [|exact FF]. intros j. now rewrite M', M.
  - eexists; eexists; split; [reflexivity|]; split; [eapply rs_rewrite; rewrite M; exact MK|]. fields; try fold q; constructor; fields; auto; rewrite ?QE, ?QF; auto.
    exists slots'. split; [auto|]. split; [|exact FF]. intros j. rewrite M'. unfold put. destruct (j =? k); auto.
Qed.
Lemma step_delete : forall f st p, rel_view f st p -> step_goal f st p ODelete.
Proof.
  intros f [o e m k a l s] pl V. destruct V as [V1 V2 V3 V4 V5 V6 V7 V8 V9 V10 V11 V12 V13 V14 VE VS (slots & GD & M & FO)]. pose proof GD as (F & G & LK).
  destruct f as [org acc opt mn mx dep key data size open ne eof bof first done nl stm dsk status]; fields; subst.
  unfold step_goal, run_op, ex_delete, ret. fields.
  destruct o; cbn [file_of] in FO; try contradiction;
    try (eexists; eexists; split; [reflexivity|]; split; [apply rs_delete_denied; discriminate|]; constructor; fields; auto; exists slots; auto; fail).
  destruct FO as (-> & pos & -> & PO).
  match goal with |- context [if ?b then Ok (set_status 43 _) else _] =>
    assert (DN : b = false) by (destruct acc; try congruence; reflexivity); rewrite DN; clear DN end.
  unfold org_delete. fields.
  set (g := mkFile OrgRelative acc false lo hi (dep_of l) (Some (mkItem k kd)) a size InOut false (p_end pl) bof first false nl (Some (mkStream (flat slots) pos false)) dsk s).
  match goal with |- context [relative_delete ?x] => change x with g end.
  destruct (delete_body g slots pos k eq_refl eq_refl eq_refl GD) as (st' & pos' & sz' & slots' & E & GD' & MP & R).
  rewrite E. cbn [obind]. unfold g in *. fields.
  destruct (moved_pos_of pl k pos st' pos' PO MP) as (PP & QE & QF). cbv zeta in PP, QE, QF.
  set (q := if st' =? 0 then _ else _) in *.
  assert (FF : file_of q InOut true (Some (mkStream (flat slots') pos' false)) dsk slots') by (cbn [file_of]; eauto).
  destruct R as [(MK & ST & M') | (r & MK & -> & M')].
  - eexists; eexists; split; [reflexivity|]; split; [apply rs_delete_absent; [now rewrite M|exact ST]|]. fields; try fold q; constructor; fields; auto; rewrite ?QE, ?QF; auto.
    exists slots'. split; [auto|]. split; [|exact FF]. intros j. now rewrite M', M.
  - eexists; eexists; split; [reflexivity|]; split; [eapply rs_delete; rewrite M; exact MK|]. fields; try fold q; constructor; fields; auto; rewrite ?QE, ?QF; auto.
    exists slots'. split; [auto|]. split; [|exact FF]. intros j. rewrite M'. unfold remove. destruct (j =? k); auto.
Qed.

Lemma step_any : forall f st p o, rel_view f st p -> rel_op hi kd ld o -> step_goal f st p o.
Proof.
  intros f st p o V O. pose proof (step_move f st p o V O) as MV. destruct o; cbn [rel_op] in O; try contradiction.
  - apply step_open; auto.
  - subst. apply step_close; auto.
  - apply step_read; auto.
  - apply step_write; auto.
  - apply step_rewrite; auto.
  - apply step_delete; auto.
  - exact MV.
  - exact MV.
  - exact MV.
Qed.
Theorem history : forall ops f st p, rel_view f st p -> Forall (rel_op hi kd ld) ops ->
  exists f' st' p', run_ops c f ops = Ok f' /\ rel_steps lo hi (io_creates c) st ops st' /\ rel_view f' st' p'.
Proof.
  induction ops as [|o ops IH]; intros f st p V FO.
  - exists f, st, p. split; [reflexivity|split; [constructor|exact V]].
  - apply Forall_cons_iff in FO. destruct FO as [O FO].
    destruct (step_any f st p o V O) as (f1 & st1 & E & ST & V1). destruct (IH f1 st1 _ V1 FO) as (f2 & st2 & p2 & E2 & STS & V2).
    exists f2, st2, p2. cbn [run_ops]. rewrite E. cbn [obind]. split; [exact E2|]. split; [econstructor; eauto|auto].
Qed.
End View.
