(** PICTURE strings: the whole scan (proof file). *)
From Verif Require Import Base BaseFacts Field Picture SpecPic PicProofs PicAttr PicStep.
Local Open Scope Z_scope.

Section Whole.
Variable m : cfg.
Hypothesis CF : pic_cfg m.

(** Every symbol cobc accepts (other than those of CR and DB). *)
Definition legal (c : Z) : Prop :=
  In c [65; 88; 57; 83; 44; 46; 86; 80; 48; 66; 47; 42; 90; 43; 45; c_currency m].

Lemma store_cat : forall st c n st', store_run st c n = Ok (Some st') -> q_cat st' = q_cat st.
Proof.
  clear. intros st c n st' H. unfold store_run in H. cbv zeta in H.
  destruct (_ && _ && _ && _) in H; [|discriminate]. injection H as <-. reflexivity.
Qed.

Ltac scat H := apply store_cat in H; rewrite H; clear H;
  repeat match goal with |- context [if ?b then _ else _] => destruct b end; reflexivity.
Ltac snot H := match type of H with (if ?b then bad else _) = _ => destruct b; [discriminate H|] end.

Lemma add_run_cat : forall st c n rest st', body_char c -> c <> 78 -> add_run m st c n rest = Ok (Some st') ->
  q_cat st' = q_cat st /\ legal c.
Proof.
  clear. intros st c n rest st' B N78 H. unfold add_run in H. cbv zeta in H.
  rewrite (body_ne c 67 B), (body_ne c 68 B), (proj2 (Z.eqb_neq c 78) N78) in H by (cbn; tauto).
  cbn [q_pseen q_sseen q_curseen q_cat q_size q_digits q_scale q_scount q_vcount q_clen q_runs q_national] in H.
  unfold legal.
  destruct (Z.eqb_spec c 65) as [->|N65].
  { cbn [orb] in H. snot H. split; [scat H|cbn; tauto]. }
  destruct (Z.eqb_spec c 88) as [->|N88].
  { cbn [orb] in H. snot H. split; [scat H|cbn; tauto]. }
  cbn [orb] in H.
  destruct (Z.eqb_spec c 57) as [->|N57].
  { split; [scat H|cbn; tauto]. }
  destruct (Z.eqb_spec c 83) as [->|N83].
  { snot H. snot H. injection H as <-. split; [reflexivity|cbn; tauto]. }
  destruct ((c =? 44) || (c =? 46) || (c =? 86)) eqn:EP.
  { assert (C : In c [44; 46; 86]).
    { apply orb_true_iff in EP as [EP|EP]; [apply orb_true_iff in EP as [EP|EP]|]; apply Z.eqb_eq in EP; cbn; auto. }
    snot H. split; [|cbn in C |- *; tauto].
    match type of H with (if ?b then _ else _) = _ => destruct b end; [scat H|]. snot H. snot H. scat H. }
  destruct (Z.eqb_spec c 80) as [->|N80].
  { snot H. snot H. split; [|cbn; tauto].
    match type of H with store_run ?x _ _ = _ => assert (Q : q_cat x = q_cat st) by
      (repeat match goal with |- context [if ?b then _ else _] => destruct b end; reflexivity) end.
    apply store_cat in H. congruence. }
  destruct ((c =? 48) || (c =? 66) || (c =? 47)) eqn:EO.
  { snot H. split; [scat H|].
    apply orb_true_iff in EO as [EO|EO]; [apply orb_true_iff in EO as [EO|EO]|]; apply Z.eqb_eq in EO; subst c; cbn; tauto. }
  destruct ((c =? 42) || (c =? 90)) eqn:EZ.
  { snot H. snot H. split; [scat H|].
    apply orb_true_iff in EZ as [EZ|EZ]; apply Z.eqb_eq in EZ; subst c; cbn; tauto. }
  destruct ((c =? 43) || (c =? 45)) eqn:EG.
  { snot H. snot H. split; [scat H|].
    apply orb_true_iff in EG as [EG|EG]; apply Z.eqb_eq in EG; subst c; cbn; tauto. }
  destruct (Z.eqb_spec c (c_currency m)) as [->|NC]; [|discriminate H].
  split; [scat H|cbn; tauto].
Qed.

Definition wrap (e : list Z) (st1 st' : pst) : Prop :=
  match e with
  | [] => st' = st1
  | c :: r => add_run m st1 c 1 r = Ok (Some st')
  end.

Lemma scan_inv : forall e l t st c n st', ending e -> Inv m t st -> Forall body_char (c :: l) -> ~ In 78 (c :: l) -> 1 <= n ->
  Z.of_nat (length t) + n + Z.of_nat (length l) <= INT_MAX ->
  scan m (l ++ e) (Run c n) st = Ok (Some st') ->
  exists st1, Inv m (t ++ repeat c (Z.to_nat n) ++ l) st1 /\ wrap e st1 st' /\ q_cat st1 = q_cat st /\ Forall legal (c :: l).
Proof.
  intros e l. induction l as [|x l IH]; intros t st c n st' HE I FB NN Hn L H.
  - apply Forall_cons_iff in FB as [B _]. cbn [app length] in *. rewrite app_nil_r.
    assert (N78 : c <> 78) by (intros ->; apply NN; cbn; tauto).
    destruct HE as [-> | [-> | ->]]; cbn [scan] in H.
    + exists st'. destruct (add_run_cat _ _ _ _ _ B N78 H) as (Q1 & Q2).
      split; [eapply step; eauto; lia|]. split; [reflexivity|]. split; [auto|]. constructor; auto.
    + rewrite Z.eqb_sym, (body_ne c 67 B) in H by (cbn; tauto). change (67 =? 40) with false in H. cbv iota in H.
      destruct (add_run m st c n [67; 82]) as [[st1|]| |] eqn:A; try discriminate H. cbn [obind] in H.
      rewrite (body_ne c 68 B) in H by (cbn; tauto). cbn [orb] in H. exists st1.
      destruct (add_run_cat _ _ _ _ _ B N78 A) as (Q1 & Q2).
      split; [eapply step; eauto; lia|]. split; [|split; [auto|constructor; auto]].
      cbn [scan] in H. change (82 =? 67) with false in H. change (82 =? 40) with false in H. cbv iota in H.
      cbn [wrap]. destruct (add_run m st1 67 1 [82]) as [[st2|]| |]; try discriminate H. exact H.
    + rewrite Z.eqb_sym, (body_ne c 68 B) in H by (cbn; tauto). change (68 =? 40) with false in H. cbv iota in H.
      destruct (add_run m st c n [68; 66]) as [[st1|]| |] eqn:A; try discriminate H. cbn [obind] in H.
      rewrite (body_ne c 67 B) in H by (cbn; tauto). cbn [orb] in H. exists st1.
      destruct (add_run_cat _ _ _ _ _ B N78 A) as (Q1 & Q2).
      split; [eapply step; eauto; lia|]. split; [|split; [auto|constructor; auto]].
      cbn [scan] in H. change (66 =? 68) with false in H. change (66 =? 40) with false in H. cbv iota in H.
      cbn [wrap]. destruct (add_run m st1 68 1 [66]) as [[st2|]| |]; try discriminate H. exact H.
  - apply Forall_cons_iff in FB as [B FB]. pose proof (proj1 (proj1 (Forall_cons_iff _ _ _) FB)) as BX.
    cbn [app length] in *.
    assert (N78 : c <> 78) by (intros ->; apply NN; cbn; tauto).
    assert (NX : ~ In 78 (x :: l)) by (intros IN; apply NN; right; exact IN).
    cbn [scan] in H. rewrite (body_ne x 40 BX) in H by (cbn; tauto).
    destruct (Z.eqb_spec x c) as [->|NE].
    + destruct (IH t st c (n + 1) st') as (st1 & J1 & J2 & J3 & J4); auto; try lia.
      exists st1. split; [|split; [auto|split; [auto|constructor; auto; apply Forall_cons_iff in J4; tauto]]].
      replace (repeat c (Z.to_nat n) ++ c :: l) with (repeat c (Z.to_nat (n + 1)) ++ l); [exact J1|].
      replace (Z.to_nat (n + 1)) with (Z.to_nat n + 1)%nat by lia. rewrite repeat_app, <- app_assoc. reflexivity.
    + destruct (add_run m st c n (x :: l ++ e)) as [[st1|]| |] eqn:A; try discriminate H. cbn [obind] in H.
      rewrite (body_ne c 67 B), (body_ne c 68 B) in H by (cbn; tauto). cbn [orb] in H.
      destruct (add_run_cat _ _ _ _ _ B N78 A) as (Q1 & Q2).
      assert (I1 : Inv m (t ++ repeat c (Z.to_nat n)) st1) by (eapply step; eauto; lia).
      destruct (IH (t ++ repeat c (Z.to_nat n)) st1 x 1 st') as (st2 & J1 & J2 & J3 & J4); auto; try lia.
      { rewrite app_length, repeat_length. lia. }
      exists st2. split; [|split; [auto|split; [congruence|constructor; auto]]].
      replace (t ++ repeat c (Z.to_nat n) ++ x :: l) with ((t ++ repeat c (Z.to_nat n)) ++ repeat x (Z.to_nat 1) ++ l); [exact J1|].
      rewrite <- app_assoc. reflexivity.
Qed.

Definition start (k : Z) : pst := mkPst false false false k 0 0 0 0 0 0 [] false.
Lemma start_inv : forall k, k <> 12 -> Inv m [] (start k).
Proof. clear. intros k H. constructor; try reflexivity; auto; cbn; try lia. constructor. Qed.

Lemma whole : forall t e st', ending e -> Forall body_char t -> ~ In 78 t -> guess m (t ++ e) 0 <> 12 ->
  Z.of_nat (length t) <= INT_MAX ->
  scan m (t ++ e) Fresh (start (guess m (t ++ e) 0)) = Ok (Some st') ->
  exists st1, Inv m t st1 /\ wrap e st1 st' /\ q_cat st1 = guess m (t ++ e) 0 /\ Forall legal t.
Proof.
  intros t e st' HE FB NN G L H. set (k := guess m (t ++ e) 0) in *.
  destruct t as [|c l].
  - exists (start k). split; [apply start_inv; auto|]. split; [|split; [reflexivity|constructor]].
    cbn [app] in H. destruct HE as [-> | [-> | ->]].
    + cbn [scan] in H. injection H as <-. reflexivity.
    + cbn [scan] in H. change (82 =? 67) with false in H. change (82 =? 40) with false in H. cbv iota in H.
      cbn [wrap]. destruct (add_run m (start k) 67 1 [82]) as [[st2|]| |]; try discriminate H. exact H.
    + cbn [scan] in H. change (66 =? 68) with false in H. change (66 =? 40) with false in H. cbv iota in H.
      cbn [wrap]. destruct (add_run m (start k) 68 1 [66]) as [[st2|]| |]; try discriminate H. exact H.
  - cbn [app scan] in H. destruct (scan_inv e l [] (start k) c 1 st') as (st1 & J1 & J2 & J3 & J4); auto; try lia.
    + apply start_inv; auto.
    + cbn [length] in *. lia.
    + exists st1. auto.
Qed.

(** The ending. *)
Lemma wrap_inv : forall e t st1 st', ending e -> Forall body_char t -> Inv m t st1 -> wrap e st1 st' ->
  q_digits st' = digit_places m (t ++ e) /\ q_size st' = positions (t ++ e) /\ q_scale st' = scale_of m (t ++ e) /\
  (0 <? q_scount st') = has_sign (t ++ e) /\ 0 <= q_scount st' <= 2 + count sign_sym t /\
  q_vcount st' = q_vcount st1 /\ q_clen st' = q_clen st1 /\
  (expand (q_runs st') = nonS t ++ firstn 1 e /\ Forall (fun cn => 1 <= snd cn) (q_runs st')) /\
  q_cat st' = (if (length e =? 0)%nat then q_cat st1 else if hd 0 e =? 67 then Z.lor (q_cat st1) 10 else q_cat st1).
Proof.
  intros e t st1 st' HE FB I W.
  assert (G : forall c d, In c [67; 68] -> In d [82; 66] ->
     digit_places m (t ++ [c; d]) = digit_places m t /\ positions (t ++ [c; d]) = positions t + 2 /\
     scale_of m (t ++ [c; d]) = scale_of m t /\ has_sign (t ++ [c; d]) = true).
  { intros c d HC HD.
    assert (X : (c_currency m =? c) = false /\ (c_currency m =? d) = false).
    { split; apply cur_ne; auto; cbn in HC, HD |- *; tauto. }
    destruct X as (X1 & X2).
    assert (PC : point_sym m c = false) by (apply point_no; auto; intros ->; cbn in HC; lia).
    assert (PD : point_sym m d = false) by (apply point_no; auto; intros ->; cbn in HD; lia).
    assert (DC : digit_sym c = false) by (cbn in HC; destruct HC as [<-|[<-|[]]]; reflexivity).
    assert (DD : digit_sym d = false) by (cbn in HD; destruct HD as [<-|[<-|[]]]; reflexivity).
    assert (SC : sign_sym c = false) by (cbn in HC; destruct HC as [<-|[<-|[]]]; reflexivity).
    assert (SD : sign_sym d = false) by (cbn in HD; destruct HD as [<-|[<-|[]]]; reflexivity).
    change [c; d] with (repeat c 1 ++ repeat d 1). rewrite !app_assoc.
    split; [|split; [|split]].
    - rewrite !places_app by (auto; rewrite Z.eqb_sym; auto). rewrite DC, DD. lia.
    - rewrite !positions_app. cbn in HC, HD. destruct HC as [<-|[<-|[]]], HD as [<-|[<-|[]]]; cbn; lia.
    - rewrite !scale_other by auto. reflexivity.
    - unfold has_sign. rewrite !occurs_app, !occurs_repeat by lia.
      cbn in HC, HD. destruct HC as [<-|[<-|[]]], HD as [<-|[<-|[]]]; cbn [Z.eqb orb]; rewrite !orb_true_r; reflexivity. }
  pose proof (i_sc0 _ _ _ I) as S0. pose proof (i_sc1 _ _ _ I) as S1.
  destruct HE as [-> | [-> | ->]]; cbn [wrap] in W.
  - subst st'. rewrite !app_nil_r. cbn [length Nat.eqb firstn].
    split; [apply (i_dig _ _ _ I)|]. split; [apply (i_size _ _ _ I)|]. split; [apply (i_scale _ _ _ I)|].
    split; [|split; [lia|split; [auto|split; [auto|split; [split; [rewrite ?app_nil_r; apply (i_runs _ _ _ I)|apply (i_pos _ _ _ I)]|auto]]]]].
    rewrite (i_sc _ _ _ I). unfold has_sign. clear - FB. unfold occurs. induction FB as [|x t B F IH]; [reflexivity|].
    cbn [existsb]. rewrite IH, (body_ne x 67 B), (body_ne x 68 B), !orb_false_r by (cbn; tauto). reflexivity.
  - destruct (G 67 82) as (G1 & G2 & G3 & G4); [cbn; tauto|cbn; tauto|]. rewrite G1, G2, G3, G4.
    unfold add_run in W. cbn [Z.eqb Pos.eqb orb] in W. cbv zeta in W. snot W.
    unfold store_run in W. cbn [q_pseen q_sseen q_curseen q_cat q_size q_digits q_scale q_scount q_vcount q_clen q_runs q_national Z.eqb Pos.eqb orb negb] in W.
    cbv zeta in W. destruct (_ && _ && _ && _) in W; [|discriminate W]. injection W as <-.
    cbn [q_pseen q_sseen q_curseen q_cat q_size q_digits q_scale q_scount q_vcount q_clen q_runs q_national length Nat.eqb hd firstn Z.eqb Pos.eqb].
    rewrite (i_dig _ _ _ I), (i_size _ _ _ I), (i_scale _ _ _ I), expand_app1, (i_runs _ _ _ I).
    split; [auto|]. split; [lia|]. split; [auto|]. split; [apply Z.ltb_lt; lia|]. split; [lia|]. split; [auto|]. split; [auto|]. split; [|auto].
    split; [reflexivity|]. apply Forall_app. split; [apply (i_pos _ _ _ I)|]. constructor; [cbn; lia|constructor].
  - destruct (G 68 66) as (G1 & G2 & G3 & G4); [cbn; tauto|cbn; tauto|]. rewrite G1, G2, G3, G4.
    unfold add_run in W. cbn [Z.eqb Pos.eqb orb] in W. cbv zeta in W. snot W.
    unfold store_run in W. cbn [q_pseen q_sseen q_curseen q_cat q_size q_digits q_scale q_scount q_vcount q_clen q_runs q_national Z.eqb Pos.eqb orb negb] in W.
    cbv zeta in W. destruct (_ && _ && _ && _) in W; [|discriminate W]. injection W as <-.
    cbn [q_pseen q_sseen q_curseen q_cat q_size q_digits q_scale q_scount q_vcount q_clen q_runs q_national length Nat.eqb hd firstn Z.eqb Pos.eqb].
    rewrite (i_dig _ _ _ I), (i_size _ _ _ I), (i_scale _ _ _ I), expand_app1, (i_runs _ _ _ I).
    split; [auto|]. split; [lia|]. split; [auto|]. split; [apply Z.ltb_lt; lia|]. split; [lia|]. split; [auto|]. split; [auto|]. split; [|auto].
    split; [reflexivity|]. apply Forall_app. split; [apply (i_pos _ _ _ I)|]. constructor; [cbn; lia|constructor].
Qed.
End Whole.
