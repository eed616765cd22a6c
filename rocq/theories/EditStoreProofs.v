(** Results of arithmetic in numeric-edited items (proof file). *)
From Coq Require Import QArith Qabs.
From Verif Require Import Base BaseFacts Field Sign Decimal SpecNum Numeric SpecStore NumFacts.
From Verif Require Import DispProofs DecProofs StoreProofs P_Num.
From Verif Require Import Move Edited MoveAll SpecMove MoveProofs MoveNum MoveText MoveMore CmpMore.
From Verif Require Import SpecEdit EditProofs EditFinish EditMove EditStore.
Local Open Scope Z_scope.

Lemma temp_wf : forall f, 1 <= a_digits (fa f) -> wf_display (edit_temp f) (Z.to_nat (a_digits (fa f))).
Proof.
  intros f H. unfold wf_display, edit_temp. cbn [fa fd a_type a_sep]. rewrite repeat_length.
  split; [reflexivity|]. split; [intros X; discriminate X|]. split; lia.
Qed.

Lemma trunc_up : forall v s k, 0 <= k -> trunc_at (rat v s) (s + k) (v * 10 ^ k).
Proof.
  intros v s k K. pose proof (proj1 (shift_trunc (mkDec v s) (s + k))) as H.
  rewrite decQ_mk in H. cbn [dsc] in H. replace (s + k - s) with k in H by lia. destruct (shift_up (mkDec v s) k K) as (_ & _ & E). rewrite E in H. exact H.
Qed.
Lemma trunc_self : forall w s, trunc_at (rat w s) s w.
Proof. intros w s. pose proof (trunc_up w s 0 ltac:(lia)) as T. now rewrite Z.add_0_r, Z.pow_0_r, Z.mul_1_r in T. Qed.

Section S.
Variables (m : cfg) (p : picture) (f : field) (o : opts).
Hypothesis CF : edit_cfg m.
Hypothesis ED : editable p.
Hypothesis IT : edited_item m p f.
Hypothesis SC : a_scale (fa f) = decimals (p_body p).
Hypothesis DG : a_digits (fa f) = edit_digits p.
Hypothesis D1 : 1 <= edit_digits p <= 64.

Lemma places_pos : edit_digits p <= places (p_body p).
Proof. unfold edit_digits. destruct (has is_float (p_body p)); lia. Qed.

Lemma temp_moves : forall t v, fa t = fa (edit_temp f) -> denotes (c_ebcdic m) t v -> Z.abs v < 10 ^ edit_digits p ->
  exists neg, sign_of (rat v (decimals (p_body p))) neg /\
    cob_move m t f = Ok (t, set_fd f (edited_text m p (Z.abs v) neg (a_bzero (fa f)))).
Proof.
  intros t v FT DT B.
  destruct (move_to_edited m t f p v (Z.abs v) CF ED DT IT) as (neg & SG & E).
  - rewrite FT. discriminate.
  - rewrite FT. cbn [edit_temp fa a_scale]. rewrite SC. split; [|split].
    + exists v. split; [apply trunc_self|]. symmetry. apply Z.mod_small. split; [lia|].
      eapply Z.lt_le_trans; [exact B|]. apply Z.pow_le_mono_r; [lia|apply places_pos].
    + intros HF. unfold edit_digits in B. rewrite HF in B. exact B.
    + intros _. left. exists (v * 10). split.
      * exact (trunc_up v (decimals (p_body p)) 1 ltac:(lia)).
      * apply Z.rem_mul. lia.
  - rewrite FT in SG. cbn [edit_temp fa a_scale] in SG. rewrite SC in SG. exists neg. split; [exact SG|exact E].
Qed.

Theorem edited_store : forall pending d q w, not_nan d -> (decQ d == q)%Q -> rounded o q (decimals (p_body p)) w ->
  Z.abs w < NUM_LIMIT ->
  (Z.abs w < 10 ^ edit_digits p -> exists neg, sign_of (rat w (decimals (p_body p))) neg /\
     get_field_edited m pending d f o =
       Ok (mkStored pending false (set_fd f (edited_text m p (Z.abs w) neg (a_bzero (fa f)))))) /\
  (10 ^ edit_digits p <= Z.abs w -> o_keep o = true -> get_field_edited m pending d f o = Ok (mkStored true true f)) /\
  (10 ^ edit_digits p <= Z.abs w -> o_keep o = false ->
     let v := low_part (Z.to_nat (edit_digits p)) w in
     exists neg, sign_of (rat v (decimals (p_body p))) neg /\
     get_field_edited m pending d f o =
       Ok (mkStored true true (set_fd f (edited_text m p (Z.abs v) neg (a_bzero (fa f)))))).
Proof.
  intros pending d q w NN QE R B.
  assert (W : dv (round_align d (a_scale (fa f)) o) = w).
  { rewrite SC. destruct (round_align_spec d (decimals (p_body p)) o) as (_ & T & RR).
    apply (rounded_unique o q (decimals (p_body p))); [|exact R]. apply (rounded_Qeq o _ _ _ _ QE).
    unfold rounded. destruct (o_round o); auto. }
  assert (WF := temp_wf f ltac:(lia)). rewrite DG in WF.
  assert (K : Z.of_nat (Z.to_nat (edit_digits p)) = edit_digits p) by lia.
  assert (G : get_field_edited m pending d f o =
     do s <- get_display m w (edit_temp f) o;
     if st_ret s then Ok (mkStored true true f)
     else do r <- cob_move m (st_f s) f; Ok (mkStored (pending || st_exc s) (st_exc s) (snd r))).
  { unfold get_field_edited. destruct (Z.eqb_spec (dsc d) DECIMAL_NAN) as [X|_]; [destruct (NN X)|]. cbv zeta. rewrite W.
    destruct (get_display m w (edit_temp f) o) as [s| |]; try reflexivity. cbn [obind]. destruct (st_ret s); [reflexivity|].
    unfold EDIT_BUFF. rewrite DG.
    destruct (Z.ltb_spec 64 (edit_digits p)); [lia|]. destruct (Z.ltb_spec (edit_digits p) 1); [lia|]. reflexivity. }
  rewrite G. destruct (C02_display_store m w (edit_temp f) o _ WF B) as (S1 & S2). rewrite K in S1, S2.
  split; [|split].
  - intros L. destruct (S1 L) as (t & E & FT & _ & DT). rewrite E. cbn [obind st_ret st_f st_exc].
    cbn [held edit_temp fa a_sign] in DT. change (held (edit_temp f) w) with w in DT.
    destruct (temp_moves t w FT DT L) as (neg & SG & EM). exists neg. split; [exact SG|]. rewrite EM. cbn [obind snd]. now rewrite orb_false_r.
  - intros L HK. rewrite (get_display_spec m w (edit_temp f) o _ WF B), K.
    destruct (Z.ltb_spec (Z.abs w) (10 ^ edit_digits p)); [lia|]. rewrite HK. reflexivity.
  - intros L HK v. destruct (S2 L HK) as (t & E & FT & _ & DT). rewrite E. cbn [obind st_ret st_f st_exc].
    change (held (edit_temp f) (low_part (Z.to_nat (edit_digits p)) w)) with v in DT.
    destruct (temp_moves t v FT DT) as (neg & SG & EM).
    { unfold v. rewrite abs_low_part, K. apply Z.mod_pos_bound. apply Z.pow_pos_nonneg; lia. }
    exists neg. split; [exact SG|]. rewrite EM. cbn [obind snd]. now rewrite orb_true_r.
Qed.
End S.
