(** PICTURE strings (proof file). *)
From Verif Require Import Base BaseFacts Field Picture SpecPic.
Local Open Scope Z_scope.

(** ** Counts in parentheses *)
Lemma fold_dec_ge : forall ds v, Forall (fun x => 48 <= x <= 57) ds -> 0 <= v ->
  v <= fold_left (fun v x => 10 * v + (x - 48)) ds v.
Proof.
  induction ds as [|x ds IH]; intros v F H; [cbn; lia|]. apply Forall_cons_iff in F as [F1 F2].
  cbn [fold_left]. specialize (IH (10 * v + (x - 48)) F2 ltac:(lia)). lia.
Qed.

Lemma scan_count : forall m ds s c n v st, Forall (fun x => 48 <= x <= 57) ds -> 1 <= v -> 1 <= n ->
  n + fold_left (fun v x => 10 * v + (x - 48)) ds v - 1 <= INT_MAX ->
  scan m (ds ++ 41 :: s) (Count c n v) st =
  scan m s (Run c (n + fold_left (fun v x => 10 * v + (x - 48)) ds v - 1)) st.
Proof.
  induction ds as [|x ds IH]; intros s c n v st F Hv Hn B.
  - cbn [app fold_left] in *. cbn [scan]. change (41 =? 41) with true. cbv iota. unfold count_end.
    rewrite (proj2 (Z.eqb_neq v 0)), (proj2 (Z.eqb_neq v (-1))), (proj2 (Z.eqb_neq n (-1))) by lia.
    rewrite (proj2 (Z.ltb_ge (INT_MAX - n) (v - 1))) by lia. do 2 f_equal. lia.
  - apply Forall_cons_iff in F as [F1 F2]. cbn [fold_left] in *. cbn [app scan].
    rewrite (proj2 (Z.eqb_neq x 41)) by lia.
    rewrite (proj2 (Z.leb_le 48 x)), (proj2 (Z.leb_le x 57)) by lia. cbn [andb].
    pose proof (fold_dec_ge ds (10 * v + (x - 48)) F2 ltac:(lia)) as G.
    unfold INT_MAX in *.
    assert (CD : count_digit v x = Ok (10 * v + (x - 48))).
    { unfold count_digit, INT_MAX, is_intb, INT_MIN, INT_MAX. change (2147483647 / 10) with 214748364.
      rewrite (proj2 (Z.ltb_ge 214748364 v)) by lia. cbv zeta.
      rewrite (proj2 (Z.leb_le (-2147483648) (2147483647 - v * 10))), (proj2 (Z.leb_le (2147483647 - v * 10) 2147483647)) by lia.
      cbn [andb negb]. rewrite (proj2 (Z.ltb_ge (2147483647 - v * 10) (x - 48))) by lia. f_equal. lia. }
    rewrite CD. cbn [obind]. apply IH; auto; lia.
Qed.

Lemma scan_zeros : forall m ds s c n st, Forall (fun x => 48 <= x <= 57) ds -> 1 <= decimal_value ds -> 1 <= n ->
  n + decimal_value ds - 1 <= INT_MAX ->
  scan m (ds ++ 41 :: s) (Zeros c n) st = scan m s (Run c (n + decimal_value ds - 1)) st.
Proof.
  induction ds as [|x ds IH]; intros s c n st F Hv Hn B; [unfold decimal_value in Hv; cbn in Hv; lia|].
  apply Forall_cons_iff in F as [F1 F2]. unfold decimal_value in *. cbn [fold_left] in *.
  change (10 * 0 + (x - 48)) with (x - 48) in *. cbn [app scan].
  destruct (Z.eqb_spec x 48) as [->|N48].
  - change (48 - 48) with 0 in *. apply IH; auto.
  - rewrite (proj2 (Z.eqb_neq x 41)) by lia.
    rewrite (proj2 (Z.leb_le 49 x)), (proj2 (Z.leb_le x 57)) by lia. cbn [andb].
    assert (CD : count_digit 0 x = Ok (x - 48)).
    { unfold count_digit, is_intb, INT_MAX, INT_MIN. change (2147483647 / 10 <? 0) with false. cbv zeta iota. change (0 * 10) with 0.
      change (negb _) with false. cbv iota. rewrite (proj2 (Z.ltb_ge (2147483647 - 0) (x - 48))) by lia. reflexivity. }
    rewrite CD. cbn [obind]. apply scan_count; auto; lia.
Qed.

(** ** Spelling *)
Lemma body_ne : forall c x, body_char c -> In x [67; 68; 82; 40; 41] -> (c =? x) = false.
Proof. intros c x B IN. apply Z.eqb_neq. intros ->. now apply B. Qed.

Lemma spells_nil : forall s t, spells s t -> (s = [] <-> t = []).
Proof.
  intros s t H. inversion H; subst; split; intros E; try discriminate; auto.
  exfalso. destruct (Z.to_nat (decimal_value ds)) eqn:K; [lia|discriminate E].
Qed.

(** The rest of the string only matters for P (and CR, DB). *)
Lemma add_run_look : forall m st c n r1 r2, (c =? 67) = false -> (c =? 68) = false ->
  (c = 80 -> match r1 with [] => true | [86] => true | _ => false end = match r2 with [] => true | [86] => true | _ => false end) ->
  add_run m st c n r1 = add_run m st c n r2.
Proof.
  intros m st c n r1 r2 H1 H2 H. unfold add_run. cbv zeta. rewrite H1, H2.
  destruct (Z.eqb_spec c 80) as [->|_].
  - rewrite (H eq_refl). reflexivity.
  - reflexivity.
Qed.

Lemma end_test : forall x (r1 r2 : list Z), (r1 = [] <-> r2 = []) ->
  match x :: r1 with [] => true | [86] => true | _ => false end = match x :: r2 with [] => true | [86] => true | _ => false end.
Proof.
  intros x r1 r2 [H1 H2].
  destruct r1; [rewrite (H1 eq_refl); reflexivity|].
  destruct r2; [specialize (H2 eq_refl); discriminate|].
  destruct x as [|q|q]; try reflexivity.
Qed.

Lemma end_other : forall x (r : list Z), x <> 86 -> match x :: r with [] => true | [86] => true | _ => false end = false.
Proof.
  intros x r H. destruct x as [|q|q]; try reflexivity. repeat (destruct q; try reflexivity). congruence.
Qed.

Lemma scan_repeat : forall m k c n l st, scan m (repeat c k ++ l) (Run c n) st = scan m l (Run c (n + Z.of_nat k)) st.
Proof.
  induction k as [|k IH]; intros c n l st; [cbn [repeat app]; now rewrite Z.add_0_r|].
  cbn [repeat app scan]. rewrite Z.eqb_refl, IH. do 2 f_equal. lia.
Qed.

Lemma spell_run : forall m s t e, spells s t -> ending e -> forall c n st, body_char c -> 1 <= n ->
  n + Z.of_nat (length t) <= INT_MAX ->
  scan m (s ++ e) (Run c n) st = scan m (t ++ e) (Run c n) st.
Proof.
  intros m s t e H HE. induction H as [|x s t B H IH|x ds s t B N86 F V H IH]; intros c n st BC Hn L.
  - reflexivity.
  - cbn [app length] in *. cbn [scan]. rewrite (body_ne x 40 B) by (cbn; tauto).
    destruct (Z.eqb_spec x c) as [->|NE]; [apply IH; auto; lia|].
    assert (LK : add_run m st c n (x :: s ++ e) = add_run m st c n (x :: t ++ e)).
    { apply add_run_look; [apply body_ne; [auto|cbn; tauto]|apply body_ne; [auto|cbn; tauto]|].
      intros _. apply end_test. pose proof (spells_nil s t H) as (A1 & A2).
      split; intros E; apply app_eq_nil in E as [E1 E2]; [rewrite (A1 E1)|rewrite (A2 E1)]; auto. }
    rewrite LK.
    destruct (add_run m st c n (x :: t ++ e)) as [o| |]; cbn [obind]; auto. destruct o as [st'|]; auto.
    rewrite (body_ne c 67), (body_ne c 68) by (auto; cbn; tauto). cbn [orb].
    apply IH; auto; lia.
  - rewrite app_length, repeat_length in L. set (k := decimal_value ds) in *.
    assert (RK : repeat x (Z.to_nat k) = x :: repeat x (Z.to_nat (k - 1))).
    { replace (Z.to_nat k) with (S (Z.to_nat (k - 1))) by lia. reflexivity. }
    assert (LK : Z.of_nat (Z.to_nat k) = k) by lia.
    rewrite <- !app_assoc. cbn [app]. rewrite <- !app_assoc. cbn [app].
    rewrite RK. cbn [app scan]. rewrite (body_ne x 40 B) by (cbn; tauto).
    destruct (Z.eqb_spec x c) as [->|NE].
    + rewrite (proj2 (Z.eqb_neq 40 c)) by (intros E; rewrite <- E in B; apply B; cbn; tauto).
      change (40 =? 40) with true. cbv iota.
      rewrite scan_zeros by (auto; fold k; lia). rewrite scan_repeat.
      rewrite IH; auto; [|fold k; lia|fold k; lia]. do 2 f_equal. fold k. lia.
    + match goal with |- obind ?l _ = obind ?r _ => assert (LOOK : l = r) end.
      { apply add_run_look; [apply body_ne; [auto|cbn; tauto]|apply body_ne; [auto|cbn; tauto]|].
        intros _. exact (eq_trans (end_other x (40 :: ds ++ 41 :: s ++ e) N86) (eq_sym (end_other x (repeat x (Z.to_nat (k - 1)) ++ t ++ e) N86))). }
      rewrite LOOK.
      destruct (add_run m st c n (x :: repeat x (Z.to_nat (k - 1)) ++ t ++ e)) as [o| |]; cbn [obind]; auto. destruct o as [st'|]; auto.
      rewrite (body_ne c 67), (body_ne c 68) by (auto; cbn; tauto). cbn [orb].
      rewrite (proj2 (Z.eqb_neq 40 x)) by (intros E; rewrite <- E in B; apply B; cbn; tauto).
      change (40 =? 40) with true. cbv iota.
      rewrite scan_zeros by (auto; fold k; lia). rewrite scan_repeat.
      rewrite IH; auto; [|fold k; lia|fold k; lia]. do 2 f_equal. fold k. lia.
Qed.

Lemma spell_fresh : forall m s t e st, spells s t -> ending e -> Z.of_nat (length t) <= INT_MAX ->
  scan m (s ++ e) Fresh st = scan m (t ++ e) Fresh st.
Proof.
  intros m s t e st H HE L. inversion H as [|x s' t' B H' E1 E2|x ds s' t' B N86 F V H' E1 E2]; subst.
  - reflexivity.
  - cbn [app scan length] in *. apply spell_run; auto; lia.
  - rewrite app_length, repeat_length in L. set (k := decimal_value ds) in *.
    assert (RK : repeat x (Z.to_nat k) = x :: repeat x (Z.to_nat (k - 1))).
    { replace (Z.to_nat k) with (S (Z.to_nat (k - 1))) by lia. reflexivity. }
    rewrite <- !app_assoc. cbn [app]. rewrite <- !app_assoc. cbn [app]. rewrite RK. cbn [app scan].
    rewrite (proj2 (Z.eqb_neq 40 x)) by (intros E; rewrite <- E in B; apply B; cbn; tauto).
    change (40 =? 40) with true. cbv iota.
    rewrite scan_zeros by (auto; fold k; lia). rewrite scan_repeat.
    rewrite (spell_run m s' t' e); auto; [|fold k; lia|fold k; lia]. do 2 f_equal. fold k. lia.
Qed.

(** ** The category *)
Lemma guess_body : forall m c r1 r2, body_char c -> guess_char m c r1 = guess_char m c r2.
Proof. intros m c r1 r2 B. unfold guess_char. rewrite (body_ne c 67), (body_ne c 68) by (auto; cbn; tauto). reflexivity. Qed.

Lemma guess_step : forall m c r, body_char c -> guess m (c :: r) 0 = Z.lor (guess_char m c []) (guess m r 0).
Proof.
  intros m c r B. cbn [guess]. rewrite (body_ne c 40), (body_ne c 41) by (auto; cbn; tauto). cbv zeta.
  change (0 =? 0) with true. cbv iota. now rewrite (guess_body m c r []).
Qed.

Lemma guess_digits : forall m ds r, Forall (fun x => 48 <= x <= 57) ds -> guess m (ds ++ r) 1 = guess m r 1.
Proof.
  induction ds as [|x ds IH]; intros r F; [reflexivity|]. apply Forall_cons_iff in F as [F1 F2].
  cbn [app guess]. rewrite (proj2 (Z.eqb_neq x 40)), (proj2 (Z.eqb_neq x 41)) by lia. cbv zeta.
  change (1 =? 0) with false. cbv iota. rewrite Z.lor_0_l. auto.
Qed.

Lemma guess_repeat : forall m c k r, body_char c -> guess m (repeat c (S k) ++ r) 0 = Z.lor (guess_char m c []) (guess m r 0).
Proof.
  induction k as [|k IH]; intros r B.
  - cbn [repeat app]. now apply guess_step.
  - change (repeat c (S (S k)) ++ r) with (c :: repeat c (S k) ++ r). rewrite guess_step, IH by auto.
    rewrite Z.lor_assoc, Z.lor_diag. reflexivity.
Qed.

Lemma guess_spells : forall m s t e, pic_cfg m -> spells s t -> guess m (s ++ e) 0 = guess m (t ++ e) 0.
Proof.
  intros m s t e CF H. induction H as [|x s t B H IH|x ds s t B N86 F V H IH]; [reflexivity| |].
  - cbn [app]. rewrite !guess_step by auto. now rewrite IH.
  - rewrite <- !app_assoc. replace (Z.to_nat (decimal_value ds)) with (S (Z.to_nat (decimal_value ds - 1))) by lia.
    rewrite guess_repeat by auto. cbn [app]. rewrite guess_step by auto. f_equal.
    cbn [guess]. change (40 =? 40) with true. cbv iota zeta. change (0 + 1 =? 0) with false. cbv iota. rewrite Z.lor_0_l.
    change (0 + 1) with 1. rewrite <- app_assoc, guess_digits by auto. cbn [app guess].
    change (41 =? 40) with false. change (41 =? 41) with true. cbv iota zeta. change (1 - 1) with 0. change (0 =? 0) with true. cbv iota.
    assert (G : guess_char m 41 (s ++ e) = 0).
    { assert (NC : (41 =? c_currency m) = false).
      { apply Z.eqb_neq. intros E. apply (proj2 CF). rewrite <- E. cbn; tauto. }
      unfold guess_char. rewrite NC. reflexivity. }
    rewrite G, Z.lor_0_l. exact IH.
Qed.

Theorem spelling : forall m am nm s t, pic_cfg m -> spelled_out s t -> (length s <= 50)%nat -> Z.of_nat (length t) <= INT_MAX ->
  build_picture m am nm s =
  (do o <- scan m t Fresh (mkPst false false false (guess m t 0) 0 0 0 0 0 0 [] false);
   Ok (match o with None => None | Some st => finish am nm st end)).
Proof.
  intros m am nm s t CF (s0 & t0 & e & -> & -> & H & HE) L LT. unfold build_picture.
  destruct (Nat.ltb_spec 50 (length (s0 ++ e))); [lia|].
  rewrite (guess_spells m s0 t0 e) by auto.
  rewrite (spell_fresh m s0 t0 e) by (auto; rewrite app_length in LT; lia). reflexivity.
Qed.
