(** PICTURE strings: which runs are accepted (proof file). *)
From Verif Require Import Base BaseFacts Field Picture SpecPic PicProofs PicAttr PicStep PicEnd.
Local Open Scope Z_scope.

Section Accept.
Variable m : cfg.
Hypothesis CF : pic_cfg m.

Lemma count_le : forall q t, count q t <= Z.of_nat (length t).
Proof. clear. intros q t. unfold count. induction t as [|c t IH]; [cbn; lia|]. cbn [filter]. destruct (q c); cbn [length]; lia. Qed.

Lemma scale_bound : forall t, - Z.of_nat (length t) <= scale_of m t <= Z.of_nat (length t).
Proof.
  clear. intros t. unfold scale_of. pose proof (count_le digit_sym t) as A. pose proof (count_nonneg digit_sym t) as B.
  destruct (leads_P t); [lia|].
  pose proof (count_after_le m digit_sym t). pose proof (count_before_le m (Z.eqb 80) t). pose proof (count_le (Z.eqb 80) t).
  pose proof (count_nonneg digit_sym (after m t)). pose proof (count_nonneg (Z.eqb 80) (before m t)). lia.
Qed.

(** A run that may follow [t]. *)
Record ok_run (t : list Z) (c n : Z) (rest : list Z) : Prop := mkOkRun {
  ok_legal : legal m c;
  ok_text : c <> 65 /\ c <> 88;
  ok_edit : c <> 57 -> c <> 83 -> c <> 86 -> c <> 80 -> occurs (Z.eqb 83) t = false /\ occurs (Z.eqb 80) t = false;
  ok_point : point_sym m c = true -> count (point_sym m) t = 0 /\ leads_P t = false /\ n = 1;
  ok_P : c = 80 -> occurs (Z.eqb 80) t = false /\ (nonS t = [] \/ nonS t = [86] \/ rest = [] \/ rest = [86]);
  ok_S : c = 83 -> t = [] /\ n = 1 }.

Lemma store_ok : forall st c n, q_cat st <> 12 -> c <> 78 -> c <> 67 -> c <> 68 -> 0 <= n -> 0 <= q_size st -> q_size st + n <= INT_MAX ->
  INT_MIN <= q_digits st <= INT_MAX -> INT_MIN <= q_scale st <= INT_MAX ->
  exists st', store_run st c n = Ok (Some st').
Proof.
  clear. intros st c n C N1 N2 N3 Hn S0 S1 D1 D2. unfold store_run. cbv zeta.
  rewrite (proj2 (Z.eqb_neq c 67)), (proj2 (Z.eqb_neq c 68)), (proj2 (Z.eqb_neq c 78)), (proj2 (Z.eqb_neq (q_cat st) 12)) by auto.
  cbn [orb andb].
  assert (X : forall v, INT_MIN <= v <= INT_MAX -> is_intb v = true).
  { intros v H. unfold is_intb. rewrite (proj2 (Z.leb_le _ _)), (proj2 (Z.leb_le _ _)) by lia. reflexivity. }
  assert (IM : INT_MIN <= 0) by (unfold INT_MIN; lia).
  rewrite !X; [cbn [andb]; eauto| | |]; try lia; destruct (negb _); lia.
Qed.

Lemma legal_ne : forall c, legal m c -> c <> 67 /\ c <> 68 /\ c <> 78.
Proof.
  intros c H. unfold legal in H.
  assert (NQ : forall x, In x [32; 40; 41; 42; 43; 44; 45; 46; 47; 48; 49; 50; 51; 52; 53; 54; 55; 56; 57;
                       65; 66; 67; 68; 78; 80; 82; 83; 86; 88; 90] -> c_currency m <> x).
  { intros x IN. apply Z.eqb_neq. apply cur_ne; auto. }
  pose proof (NQ 67 ltac:(cbn; tauto)). pose proof (NQ 68 ltac:(cbn; tauto)). pose proof (NQ 78 ltac:(cbn; tauto)).
  cbn [In] in H. clear NQ CF. lia.
Qed.

Ltac stok := apply store_ok; cbn [q_pseen q_sseen q_curseen q_cat q_size q_digits q_scale q_scount q_vcount q_clen q_runs q_national]; auto; try lia.

Lemma add_run_ok : forall t st c n rest, Inv m t st -> Z.odd (q_cat st) = false -> 1 <= n -> Z.of_nat (length t) + n <= INT_MAX ->
  ok_run t c n rest -> exists st', add_run m st c n rest = Ok (Some st').
Proof.
  intros t st c n rest I OD Hn L [LG [N65 N88] OE OP OPP OS].
  pose proof (count_le (fun c => negb ((c =? 86) || (c =? 80) || (c =? 83))) t) as SZ. fold (positions t) in SZ.
  pose proof (count_nonneg (fun c => negb ((c =? 86) || (c =? 80) || (c =? 83))) t) as SZ0. fold (positions t) in SZ0.
  rewrite <- (i_size _ _ _ I) in SZ, SZ0.
  pose proof (scale_bound t) as SC. rewrite <- (i_scale _ _ _ I) in SC.
  pose proof (clen_le m CF t) as CL. pose proof (dp_nonneg m t) as DP. pose proof (count_nonneg other_sym t) as CO.
  rewrite <- (i_dig _ _ _ I) in CL, DP.
  pose proof (i_cat _ _ _ I) as K.
  assert (IM : INT_MIN = - INT_MAX - 1) by reflexivity.
  unfold add_run. cbv zeta. rewrite OD.
  cbn [q_pseen q_sseen q_curseen q_cat q_size q_digits q_scale q_scount q_vcount q_clen q_runs q_national].
  rewrite (proj2 (Z.eqb_neq c 65)), (proj2 (Z.eqb_neq c 88)) by auto. cbn [orb].
  assert (NE : c <> 67 /\ c <> 68 /\ c <> 78).
  { exact (legal_ne c LG). }
  destruct NE as (N67 & N68 & N78).
  destruct (Z.eqb_spec c 57) as [->|N57].
  { destruct (q_vcount st =? 0); stok. }
  rewrite (proj2 (Z.eqb_neq c 78)) by auto.
  destruct (Z.eqb_spec c 83) as [->|N83].
  { destruct (OS eq_refl) as (-> & ->).
    assert (R0 : q_runs st = []).
    { pose proof (i_runs _ _ _ I) as R. pose proof (i_pos _ _ _ I) as P. destruct (q_runs st) as [|[c1 n1] r]; [reflexivity|].
      apply Forall_cons_iff in P as [P _]. cbn [snd] in P. unfold expand in R. cbn [flat_map fst snd] in R.
      destruct (Z.to_nat n1) eqn:E; [lia|discriminate R]. }
    assert (S0 : q_scount st = 0).
    { pose proof (i_sc _ _ _ I) as R. pose proof (i_sc0 _ _ _ I) as P. change (occurs sgn0 []) with false in R.
      apply Z.ltb_ge in R. lia. }
    rewrite R0, S0. cbn [length Nat.eqb negb]. change (1 <? 0 + 1) with false. cbn [orb]. eauto. }
  destruct ((c =? 44) || (c =? 46) || (c =? 86)) eqn:EP.
  { assert (SP : negb (c =? 86) && (q_sseen st || q_pseen st) = false).
    { destruct (Z.eqb_spec c 86); [reflexivity|]. cbn [negb andb]. rewrite (i_s _ _ _ I), (i_p _ _ _ I).
      destruct OE as (-> & ->); auto. intros ->. discriminate EP. }
    rewrite SP. destruct (negb (c =? 86) && negb (c =? c_decpoint m)) eqn:ED; [stok|].
    assert (PS : point_sym m c = true).
    { unfold point_sym. destruct (c =? 86); [reflexivity|]. destruct (c =? c_decpoint m); [reflexivity|discriminate ED]. }
    destruct (OP PS) as (P1 & P2 & ->).
    rewrite (proj2 (Z.ltb_ge 1 (q_vcount st + 1))) by (rewrite (i_v _ _ _ I), P1, P2; lia). stok. }
  destruct (Z.eqb_spec c 80) as [->|N80].
  { destruct (OPP eq_refl) as (P1 & P2). rewrite (i_p _ _ _ I), P1. cbn [orb].
    pose proof (begins m t st I) as BG.
    set (b := match map fst (q_runs st) with [] => true | [c1] => (c1 =? 86) || (c1 =? 83) | [c2; c1] => (c2 =? 83) && (c1 =? 86) | _ => false end) in *.
    assert (X : negb b && negb (match rest with [] => true | [86] => true | _ => false end) = false).
    { destruct b; [reflexivity|]. cbn [negb andb].
      assert (NB : ~ (nonS t = [] \/ nonS t = [86])) by (intros E; apply BG in E; discriminate E).
      destruct P2 as [P2|[P2|[-> | ->]]]; [tauto|tauto|reflexivity|reflexivity]. }
    rewrite X. clear X BG. destruct b;
    cbn [q_pseen q_sseen q_curseen q_cat q_size q_digits q_scale q_scount q_vcount q_clen q_runs q_national];
    match goal with |- context [if ?v =? 0 then - n else n] => destruct (v =? 0) end; stok. }
  assert (N86 : c <> 86) by (intros ->; discriminate EP).
  destruct (OE N57 N83 N86 N80) as (O1 & O2).
  rewrite (i_s _ _ _ I), (i_p _ _ _ I), O1, O2. cbn [orb].
  destruct ((c =? 48) || (c =? 66) || (c =? 47)) eqn:E1; [stok|].
  destruct ((c =? 42) || (c =? 90)) eqn:E2; [destruct (q_vcount st =? 0); stok|].
  destruct ((c =? 43) || (c =? 45)) eqn:E3.
  { cbn [q_pseen q_sseen q_curseen q_cat q_size q_digits q_scale q_scount q_vcount q_clen q_runs q_national].
    destruct (0 <? q_scount st); stok. }
  rewrite (proj2 (Z.eqb_neq c 67)), (proj2 (Z.eqb_neq c 68)) by auto.
  assert (EC : c = c_currency m).
  { clear - LG N57 N65 N88 N83 N86 N80 EP E1 E2 E3. unfold legal in LG. cbn [In] in LG.
    apply orb_false_iff in EP as [EP _]. apply orb_false_iff in EP as [E44 E46]. apply Z.eqb_neq in E44, E46.
    apply orb_false_iff in E1 as [E1 E47]. apply orb_false_iff in E1 as [E48 E66]. apply Z.eqb_neq in E48, E66, E47.
    apply orb_false_iff in E2 as [E42 E90]. apply Z.eqb_neq in E42, E90.
    apply orb_false_iff in E3 as [E43 E45]. apply Z.eqb_neq in E43, E45. lia. }
  rewrite (proj2 (Z.eqb_eq c (c_currency m))) by auto. destruct (q_curseen st); stok.
Qed.
End Accept.
