(** PICTURE strings: the finished picture (proof file). *)
From Verif Require Import Base BaseFacts Field Picture SpecPic PicProofs PicAttr PicStep PicEnd PicOk.
Local Open Scope Z_scope.

Section Main.
Variable m : cfg.
Hypothesis CF : pic_cfg m.

(** ** The category *)
Definition bits (a b d : bool) : Z := (if a then 1 else 0) + (if b then 2 else 0) + (if d then 8 else 0).
Lemma bits_lor : forall a b d a' b' d', Z.lor (bits a b d) (bits a' b' d') = bits (a || a') (b || b') (d || d').
Proof. clear. intros [] [] [] [] [] []; reflexivity. Qed.
Definition isN (c : Z) : bool := negb ((c =? 65) || insert_sym c).

Lemma guess_legal : forall c, legal m c -> guess_char m c [] = bits (text_sym c) (isN c) (edit_sym m c).
Proof.
  intros c H. unfold legal in H. cbn [In] in H.
  destruct H as [H|[H|[H|[H|[H|[H|[H|[H|[H|[H|[H|[H|[H|[H|[H|[H|[]]]]]]]]]]]]]]]]]; subst c;
    try (unfold guess_char, text_sym, isN, edit_sym, insert_sym; rewrite ?cur_ne' by (auto; cbn; tauto); reflexivity).
  unfold guess_char, text_sym, isN, edit_sym, insert_sym. rewrite !cur_ne by (auto; cbn; tauto). rewrite Z.eqb_refl. reflexivity.
Qed.

Lemma guess_text : forall t e, Forall (legal m) t -> Forall body_char t -> ending e ->
  guess m (t ++ e) 0 = bits (occurs text_sym (t ++ e)) (occurs isN (t ++ e)) (occurs (edit_sym m) (t ++ e)).
Proof.
  intros t e FL FB HE. revert FB. induction FL as [|c t LG FL IH]; intros FB.
  - cbn [app]. destruct HE as [-> | [-> | ->]]; [reflexivity| |].
    + change (guess m [67; 82] 0) with (Z.lor (Z.lor PN PE) (Z.lor (if 82 =? c_currency m then Z.lor PN PE else 0) 0)).
      rewrite (cur_ne' m CF 82) by (cbn; tauto). reflexivity.
    + reflexivity.
  - apply Forall_cons_iff in FB as [B FB]. cbn [app]. rewrite guess_step by auto. rewrite IH by auto.
    rewrite guess_legal by auto. rewrite bits_lor. reflexivity.
Qed.

Lemma no12 : forall a b d, bits a b d <> 12.
Proof. clear. intros [] [] []; discriminate. Qed.

(** The guess never depends on the legality of the characters, and is not the
    national one without N. *)
Lemma guess_no12 : forall t e, Forall body_char t -> ~ In 78 t -> ending e -> guess m (t ++ e) 0 <> 12.
Proof.
  intros t e FB NN HE.
  assert (X : forall c r, c <> 78 -> exists a b d, guess_char m c r = bits a b d).
  { intros c r N. unfold guess_char. rewrite (proj2 (Z.eqb_neq c 78)) by auto.
    destruct (c =? 65); [exists true, false, false; reflexivity|].
    destruct (c =? 88); [exists true, true, false; reflexivity|].
    destruct (c =? 57); [exists false, true, false; reflexivity|].
    destruct ((c =? 83) || (c =? 86) || (c =? 80)); [exists false, true, false; reflexivity|].
    destruct ((c =? 48) || (c =? 66) || (c =? 47)); [exists false, false, true; reflexivity|].
    destruct (_ || _); [exists false, true, true; reflexivity|].
    destruct (c =? 67).
    { assert (Y : (r = [82] /\ match r with [82] => Z.lor PN PE | _ => 0 end = 10) \/ match r with [82] => Z.lor PN PE | _ => 0 end = 0).
      { destruct r as [|x [|y r]]; auto; [|right; destruct x as [|q|q]; auto; repeat (destruct q; auto)].
        destruct (Z.eq_dec x 82) as [->|E]; [left; auto|right]. destruct x as [|q|q]; auto. repeat (destruct q; auto). congruence. }
      destruct Y as [(_ & ->)| ->]; [exists false, true, true; reflexivity|exists false, false, false; reflexivity]. }
    destruct (c =? 68).
    { assert (Y : (r = [66] /\ match r with [66] => Z.lor PN PE | _ => 0 end = 10) \/ match r with [66] => Z.lor PN PE | _ => 0 end = 0).
      { destruct r as [|x [|y r]]; auto; [|right; destruct x as [|q|q]; auto; repeat (destruct q; auto)].
        destruct (Z.eq_dec x 66) as [->|E]; [left; auto|right]. destruct x as [|q|q]; auto. repeat (destruct q; auto). congruence. }
      destruct Y as [(_ & ->)| ->]; [exists false, true, true; reflexivity|exists false, false, false; reflexivity]. }
    destruct (c =? c_currency m); [exists false, true, true; reflexivity|exists false, false, false; reflexivity]. }
  assert (Y : exists a b d, guess m (t ++ e) 0 = bits a b d).
  { induction FB as [|c t B FB IH].
    - cbn [app]. destruct HE as [-> | [-> | ->]]; [exists false, false, false; reflexivity| |].
      + change (guess m [67; 82] 0) with (Z.lor (Z.lor PN PE) (Z.lor (if 82 =? c_currency m then Z.lor PN PE else 0) 0)).
        rewrite (cur_ne' m CF 82) by (cbn; tauto). exists false, true, true. reflexivity.
      + exists false, true, true. reflexivity.
    - cbn [app]. rewrite guess_step by auto. destruct IH as (a & b & d & ->); [intros IN; apply NN; right; auto|].
      destruct (X c [] ltac:(intros ->; apply NN; left; reflexivity)) as (a' & b' & d' & ->). rewrite bits_lor. eauto. }
  destruct Y as (a & b & d & ->). apply no12.
Qed.

(** ** What is known about an accepted picture *)
Definition shown_runs (t e : list Z) : list Z := nonS t ++ firstn 1 e.

Lemma spells_body : forall s t, spells s t -> Forall body_char t.
Proof.
  clear. intros s t H. induction H as [|c s t B H IH|c ds s t B N86 F V H IH]; auto.
  apply Forall_app. split; auto. apply Forall_forall. intros x IN. apply repeat_spec in IN. now subst x.
Qed.

Theorem accepted : forall am nm s t e p, spells s t -> ending e -> ~ In 78 t ->
  (length (s ++ e) <= 50)%nat -> Z.of_nat (length (t ++ e)) <= INT_MAX ->
  build_picture m am nm (s ++ e) = Ok (Some p) ->
  pc_size p = positions (t ++ e) /\
  pc_digits p = digit_places m (t ++ e) mod 256 /\
  pc_scale p = (scale_of m (t ++ e) + 128) mod 256 - 128 /\
  (pc_cat p = CNumeric -> digit_places m (t ++ e) <= 36) /\
  (pc_cat p = CNumEdited -> digit_places m (t ++ e) + count other_sym t <= 160 /\ expand (pc_runs p) = shown_runs t e /\ Forall (fun cn => 1 <= snd cn) (pc_runs p)) /\
  (pc_cat p = CNumeric \/ pc_cat p = CNumEdited -> (pc_sign p <> 0 <-> has_sign (t ++ e) = true)) /\
  Forall (legal m) t /\ t ++ e <> [] /\
  pc_cat p = (if occurs text_sym (t ++ e) then
                if occurs (edit_sym m) (t ++ e) then CAlnumEdited else if occurs isN (t ++ e) then CAlnum else CAlphabetic
              else if occurs (edit_sym m) (t ++ e) then if occurs isN (t ++ e) then CNumEdited else CAlnumEdited
              else CNumeric) /\
  (occurs text_sym (t ++ e) = false -> occurs (edit_sym m) (t ++ e) = false -> occurs isN (t ++ e) = true).
Proof.
  intros am nm s t e p HS HE NN L1 L2 H.
  pose proof (spells_body s t HS) as FB.
  rewrite (spelling m am nm (s ++ e) (t ++ e) CF) in H; auto; [|exists s, t, e; auto].
  fold (start (guess m (t ++ e) 0)) in H.
  destruct (scan m (t ++ e) Fresh (start (guess m (t ++ e) 0))) as [[st'|]| |] eqn:SC; try discriminate H.
  cbn [obind] in H. injection H as H.
  pose proof (guess_no12 t e FB NN HE) as G12.
  rewrite app_length in L2.
  destruct (whole m CF t e st' HE FB NN G12 ltac:(lia) SC) as (st1 & I & W & K & FL).
  destruct (wrap_inv m CF e t st1 st' HE FB I W) as (W1 & W2 & W3 & W4 & W5 & W6 & W7 & W8 & W9).
  pose proof (guess_text t e FL FB HE) as GT.
  assert (QC : q_cat st' = bits (occurs text_sym (t ++ e)) (occurs isN (t ++ e)) (occurs (edit_sym m) (t ++ e))).
  { rewrite W9, K, GT. destruct HE as [-> | [-> | ->]]; [reflexivity| |reflexivity]. cbn [length Nat.eqb hd].
    change (67 =? 67) with true. cbv iota. rewrite !occurs_app.
    change (occurs text_sym [67; 82]) with false. change (occurs isN [67; 82]) with true.
    assert (X : occurs (edit_sym m) [67; 82] = true) by (unfold occurs, edit_sym, insert_sym; cbn [existsb Z.eqb Pos.eqb orb]; reflexivity).
    rewrite X, !orb_true_r, orb_false_r. destruct (occurs text_sym t); reflexivity. }
  pose proof (clen_le m CF t) as CL. pose proof (dp_nonneg m t) as DP. pose proof (count_nonneg other_sym t) as CO.
  pose proof (i_clen _ _ _ I) as IC. rewrite <- W7 in IC.
  assert (DE : digit_places m (t ++ e) = digit_places m t).
  { assert (Y : q_digits st' = q_digits st1).
    { destruct HE as [-> | [-> | ->]]; cbn [wrap] in W; [now subst|idtac|idtac].
      - rewrite W1, (i_dig _ _ _ I). unfold digit_places. rewrite !count_app.
        change (count digit_sym [67; 82]) with 0. change (count sign_sym [67; 82]) with 0.
        assert (C0 : count (Z.eqb (c_currency m)) [67; 82] = 0) by (unfold count; cbn [filter]; rewrite !cur_ne by (auto; cbn; tauto); reflexivity).
        rewrite C0. now rewrite !Z.add_0_r.
      - rewrite W1, (i_dig _ _ _ I). unfold digit_places. rewrite !count_app.
        change (count digit_sym [68; 66]) with 0. change (count sign_sym [68; 66]) with 0.
        assert (C0 : count (Z.eqb (c_currency m)) [68; 66] = 0) by (unfold count; cbn [filter]; rewrite !cur_ne by (auto; cbn; tauto); reflexivity).
        rewrite C0. now rewrite !Z.add_0_r. }
    rewrite <- W1, Y. apply (i_dig _ _ _ I). }
  assert (SB : digit_places m t <= 160 -> pc_sign p = q_scount st' mod 256 -> (pc_sign p <> 0 <-> has_sign (t ++ e) = true)).
  { intros HD ->. rewrite <- W4.
    assert (S1 : count sign_sym t <= 161).
    { unfold digit_places in HD. pose proof (count_nonneg digit_sym t). lia. }
    rewrite Z.mod_small by lia. rewrite Z.ltb_lt. lia. }
  unfold finish in H. destruct ((q_size st' =? 0) && negb (q_vcount st' =? 0)); [discriminate H|]. cbv zeta in H.
  rewrite QC in H.
  assert (TN : t ++ e <> []).
  { intros E. rewrite E in H. change (bits _ _ _) with 0 in H. discriminate H. }
  rewrite <- W1, <- W2, <- W3. rewrite <- W1 in DE. rewrite <- DE in *.
  destruct (occurs text_sym (t ++ e)) eqn:OT, (occurs isN (t ++ e)) eqn:ON, (occurs (edit_sym m) (t ++ e)) eqn:OE;
    cbn [bits Z.add Pos.add Pos.succ Z.eqb Pos.eqb orb] in H;
    match type of H with
    | (if ?b then None else _) = _ => destruct b eqn:TL; [discriminate H|injection H as <-]
    | _ => discriminate H
    end; cbn [pc_size pc_digits pc_scale pc_sign pc_cat pc_runs] in *;
    repeat match goal with |- _ /\ _ => split end; auto; try (intros; discriminate);
    try (intros [E|E]; discriminate E); try discriminate.
  - intros _. apply orb_false_iff in TL as [T1 T2]. apply Z.ltb_ge in T2. split; [lia|exact W8].
  - intros _. apply SB; auto. apply orb_false_iff in TL as [T1 T2]. apply Z.ltb_ge in T2. lia.
  - intros _. apply Z.ltb_ge in TL. lia.
  - intros _. apply SB; auto. apply Z.ltb_ge in TL. lia.
Qed.
End Main.
