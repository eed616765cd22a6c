(** PICTURE strings: numeric and numeric-edited pictures are accepted (proof file). *)
From Verif Require Import Base BaseFacts Field Picture SpecPic PicProofs PicAttr PicStep PicEnd PicOk PicMain.
Local Open Scope Z_scope.

Section Acc.
Variable m : cfg.
Hypothesis CF : pic_cfg m.

(** ** Runs *)
Fixpoint good (t : list Z) (R : list (Z * Z)) : Prop :=
  match R with
  | [] => True
  | (c, n) :: R' => 1 <= n /\ body_char c /\ ok_run m t c n (expand R') /\
      match R' with [] => True | (d, _) :: _ => d <> c end /\
      good (t ++ repeat c (Z.to_nat n)) R'
  end.

Lemma scan_one : forall c k l st, body_char c ->
  match l with [] => True | x :: _ => x <> c /\ x <> 40 end ->
  scan m (repeat c (S k) ++ l) Fresh st =
  (do o <- add_run m st c (Z.of_nat (S k)) l; match o with None => bad | Some st' => scan m l Fresh st' end).
Proof.
  clear. intros c k l st B H. cbn [repeat app scan]. rewrite scan_repeat. replace (1 + Z.of_nat k) with (Z.of_nat (S k)) by lia.
  destruct l as [|x l].
  - cbn [scan]. destruct (add_run m st c (Z.of_nat (S k)) []) as [[st'|]| |]; reflexivity.
  - destruct H as (H1 & H2). cbn [scan]. rewrite (proj2 (Z.eqb_neq x c)), (proj2 (Z.eqb_neq x 40)) by auto.
    rewrite (body_ne c 67 B), (body_ne c 68 B) by (cbn; tauto). cbn [orb]. reflexivity.
Qed.

Lemma scan_good : forall R t st, Inv m t st -> Z.odd (q_cat st) = false -> good t R ->
  Z.of_nat (length t) + Z.of_nat (length (expand R)) <= INT_MAX ->
  exists st', scan m (expand R) Fresh st = Ok (Some st').
Proof.
  induction R as [|[c n] R IH]; intros t st I OD G L; [cbn; eauto|].
  cbn [good] in G. destruct G as (Hn & B & OK & HD & G).
  assert (EX : expand ((c, n) :: R) = repeat c (Z.to_nat n) ++ expand R) by reflexivity.
  rewrite EX in *. rewrite app_length, repeat_length in L.
  destruct (add_run_ok m CF t st c n (expand R) I OD Hn ltac:(lia) OK) as (st' & A).
  assert (H2 : match expand R with [] => True | x :: _ => x <> c /\ x <> 40 end).
  { destruct R as [|[d k] R]; [exact Logic.I|]. cbn [good] in G. destruct G as (Hk & BD & _ & _ & _).
    unfold expand. cbn [flat_map fst snd]. destruct (Z.to_nat k) eqn:E; [lia|]. cbn [repeat app].
    split; [exact HD|]. intros ->. apply BD. cbn; tauto. }
  assert (E1 : exists k, Z.to_nat n = S k /\ Z.of_nat (S k) = n).
  { exists (Z.to_nat n - 1)%nat. split; lia. }
  destruct E1 as (k & E1 & E2). rewrite E1, scan_one, E2, A by auto. cbn [obind].
  destruct (legal_ne m CF c (ok_legal _ _ _ _ _ OK)) as (_ & _ & N78).
  destruct (add_run_cat m st c n (expand R) st' B N78 A) as (Q & _).
  assert (I' : Inv m (t ++ repeat c (Z.to_nat n)) st') by (eapply step; eauto; lia).
  apply (IH _ st' I'); auto; [now rewrite Q|]. rewrite app_length, repeat_length. lia.
Qed.

Lemma good_body : forall R t, good t R -> Forall body_char (expand R) /\ ~ In 78 (expand R) /\ Forall (legal m) (expand R).
Proof.
  induction R as [|[c n] R IH]; intros t G; [cbn; auto|].
  cbn [good] in G. destruct G as (Hn & B & OK & HD & G). destruct (IH _ G) as (A1 & A2 & A3).
  destruct (legal_ne m CF c (ok_legal _ _ _ _ _ OK)) as (_ & _ & N78).
  assert (EX : expand ((c, n) :: R) = repeat c (Z.to_nat n) ++ expand R) by reflexivity. rewrite EX.
  split; [|split].
  - apply Forall_app. split; auto. apply Forall_forall. intros x IN. apply repeat_spec in IN. now subst x.
  - intros IN. apply in_app_iff in IN as [IN|IN]; [apply repeat_spec in IN; congruence|auto].
  - apply Forall_app. split; auto. apply Forall_forall. intros x IN. apply repeat_spec in IN. subst x. apply (ok_legal _ _ _ _ _ OK).
Qed.

(** A numeric picture given by its runs. *)
Lemma numeric_accepted : forall am nm s R, spells s (expand R) -> (length s <= 50)%nat ->
  good [] R -> Forall (fun cn => numeric_sym (fst cn) = true) R ->
  Z.of_nat (length (expand R)) <= INT_MAX -> digit_places m (expand R) <= 36 -> 1 <= positions (expand R) ->
  exists p, build_picture m am nm s = Ok (Some p) /\ pc_cat p = CNumeric.
Proof.
  intros am nm s R HS L50 G FN L D P. set (t := expand R) in *.
  destruct (good_body R [] G) as (FB & NN & FL). fold t in FB, NN, FL.
  assert (HE : ending []) by (left; reflexivity).
  rewrite (spelling m am nm s t CF) by (auto; exists s, t, []; rewrite !app_nil_r; auto).
  assert (FT : Forall (fun c => numeric_sym c = true) t).
  { unfold t. clear - FN. induction FN as [|[c n] R H F IH]; [constructor|].
    assert (EX : expand ((c, n) :: R) = repeat c (Z.to_nat n) ++ expand R) by reflexivity. rewrite EX.
    apply Forall_app. split; auto. apply Forall_forall. intros x IN. apply repeat_spec in IN. now subst x. }
  assert (GT : guess m t 0 = 2).
  { pose proof (guess_text m CF t [] FL FB HE) as GT. rewrite app_nil_r in GT. rewrite GT.
    assert (X : occurs text_sym t = false /\ occurs (edit_sym m) t = false).
    { clear - FT CF. unfold occurs. induction FT as [|c t H F IH]; [auto|]. cbn [existsb]. destruct IH as (-> & ->).
      unfold numeric_sym in H. rewrite !orb_false_r.
      apply orb_true_iff in H as [H|H]; [apply orb_true_iff in H as [H|H]; [apply orb_true_iff in H as [H|H]|]|]; apply Z.eqb_eq in H; subst c;
        (split; [reflexivity|]); unfold edit_sym, insert_sym; rewrite cur_ne' by (auto; cbn; tauto); reflexivity. }
    destruct X as (-> & ->).
    assert (ON : occurs isN t = true).
    { destruct t as [|c t']; [cbn in P; lia|]. cbn [occurs existsb]. apply Forall_cons_iff in FT as [H _].
      unfold numeric_sym in H.
      apply orb_true_iff in H as [H|H]; [apply orb_true_iff in H as [H|H]; [apply orb_true_iff in H as [H|H]|]|]; apply Z.eqb_eq in H; subst c; reflexivity. }
    rewrite ON. reflexivity. }
  fold (start (guess m t 0)). rewrite GT.
  destruct (scan_good R [] (start 2)) as (st' & SC); auto; [apply start_inv; lia|].
  fold t in SC. rewrite SC. cbn [obind].
  rewrite <- GT in SC.
  destruct (whole m CF t [] st') as (st1 & I & W & K & _); rewrite ?app_nil_r; auto; [rewrite GT; lia|].
  cbn [wrap] in W. subst st1. rewrite app_nil_r, GT in K.
  unfold finish. rewrite K. cbv zeta. rewrite (i_size _ _ _ I), (proj2 (Z.eqb_neq (positions t) 0)) by lia.
  cbn [andb]. change (2 =? 1) with false. change (2 =? 2) with true. cbv iota.
  rewrite (proj2 (Z.ltb_ge 36 (q_digits st'))) by (rewrite (i_dig _ _ _ I); lia). eexists. split; reflexivity.
Qed.

(** ** Edited pictures *)
Definition edit_char (c : Z) : Prop := legal m c /\ c <> 65 /\ c <> 88 /\ c <> 83 /\ c <> 80.

Lemma edit_none : forall t, Forall edit_char t -> occurs (Z.eqb 83) t = false /\ occurs (Z.eqb 80) t = false /\ leads_P t = false.
Proof.
  clear. intros t F.
  assert (A : occurs (Z.eqb 83) t = false /\ occurs (Z.eqb 80) t = false).
  { unfold occurs. induction F as [|c t (H1 & H2 & H3 & H4 & H5) F IH]; [auto|]. cbn [existsb].
    rewrite (proj2 (Z.eqb_neq 83 c)), (proj2 (Z.eqb_neq 80 c)) by auto. exact IH. }
  destruct A as (A1 & A2). split; [auto|]. split; [auto|]. clear - F. unfold leads_P.
  assert (N : forall c, In c (filter (fun c => negb (c =? 83)) t) -> c =? 80 = false).
  { intros c IN. apply filter_In in IN as [IN _]. rewrite Forall_forall in F. apply Z.eqb_neq. apply (F c IN). }
  destruct (filter _ t) as [|c [|d r]]; auto; rewrite (N c) by (cbn; tauto); cbn [orb]; rewrite ?(N d) by (cbn; tauto); apply andb_false_r.
Qed.

Lemma edit_ok : forall t c n rest, Forall edit_char t -> edit_char c -> 1 <= n ->
  count (point_sym m) (t ++ repeat c (Z.to_nat n)) <= 1 -> ok_run m t c n rest.
Proof.
  clear. intros t c n rest F E Hn P. destruct (edit_none t F) as (N1 & N2 & N3). destruct E as (E1 & E2 & E3 & E4 & E5).
  constructor; auto; try congruence.
  intros PS. rewrite count_app, count_repeat, PS in P. pose proof (count_nonneg (point_sym m) t). split; [lia|]. split; [auto|lia].
Qed.

Lemma wrap_ok : forall e t st, ending e -> Inv m t st -> Forall edit_char t -> Z.of_nat (length t) + 2 <= INT_MAX ->
  exists st', wrap m e st st'.
Proof.
  intros e t st HE I F L. destruct (edit_none t F) as (N1 & N2 & N3).
  pose proof (count_le (fun c => negb ((c =? 86) || (c =? 80) || (c =? 83))) t) as SZ. fold (positions t) in SZ.
  pose proof (count_nonneg (fun c => negb ((c =? 86) || (c =? 80) || (c =? 83))) t) as SZ0. fold (positions t) in SZ0.
  pose proof (scale_bound m t) as SC.
  pose proof (clen_le m CF t) as CL. pose proof (dp_nonneg m t) as DP. pose proof (count_nonneg other_sym t) as CO.
  assert (IM : INT_MIN = - INT_MAX - 1) by reflexivity.
  assert (X : forall v, INT_MIN <= v <= INT_MAX -> is_intb v = true).
  { intros v H. unfold is_intb. rewrite (proj2 (Z.leb_le _ _)), (proj2 (Z.leb_le _ _)) by lia. reflexivity. }
  destruct HE as [-> | [-> | ->]]; cbn [wrap]; [eauto| |];
    unfold add_run; cbn [Z.eqb Pos.eqb orb]; cbv zeta; rewrite (i_s _ _ _ I), (i_p _ _ _ I), N1, N2; cbn [orb];
    unfold store_run; cbn [q_pseen q_sseen q_curseen q_cat q_size q_digits q_scale q_scount q_vcount q_clen q_runs q_national Z.eqb Pos.eqb orb negb];
    cbv zeta; rewrite (i_size _ _ _ I), (i_dig _ _ _ I), (i_scale _ _ _ I);
    rewrite !X by lia; cbn [andb]; eauto.
Qed.

Lemma repeat_snoc_assoc : forall (t : list Z) c n l, 1 <= n ->
  t ++ repeat c (Z.to_nat n) ++ c :: l = t ++ repeat c (Z.to_nat (n + 1)) ++ l.
Proof.
  clear. intros t c n l H. replace (Z.to_nat (n + 1)) with (Z.to_nat n + 1)%nat by lia. rewrite repeat_app, <- app_assoc. reflexivity.
Qed.

Lemma scan_edit : forall e l t st c n, ending e -> Inv m t st -> Z.odd (q_cat st) = false ->
  Forall edit_char t -> Forall edit_char (c :: l) -> Forall body_char (c :: l) -> 1 <= n ->
  count (point_sym m) (t ++ repeat c (Z.to_nat n) ++ l) <= 1 ->
  Z.of_nat (length t) + n + Z.of_nat (length l) + 2 <= INT_MAX ->
  exists st', scan m (l ++ e) (Run c n) st = Ok (Some st').
Proof.
  intros e l. induction l as [|x l IH]; intros t st c n HE I OD FT FC FB Hn P L.
  - apply Forall_cons_iff in FC as [EC _]. apply Forall_cons_iff in FB as [B _]. cbn [length] in L. rewrite app_nil_r in P.
    pose proof (fun rest => edit_ok t c n rest FT EC Hn P) as OK. destruct (legal_ne m CF c (proj1 EC)) as (_ & _ & N78).
    assert (FT' : Forall edit_char (t ++ repeat c (Z.to_nat n))).
    { apply Forall_app. split; auto. apply Forall_forall. intros y IN. apply repeat_spec in IN. now subst y. }
    destruct HE as [-> | [-> | ->]]; cbn [app scan].
    + apply (add_run_ok m CF t st c n []); auto. lia.
    + rewrite Z.eqb_sym, (body_ne c 67 B), (body_ne c 68 B) by (cbn; tauto). change (67 =? 40) with false. cbv iota.
      destruct (add_run_ok m CF t st c n [67; 82]) as (st' & A); auto; [lia|]. rewrite A. cbn [obind orb].
      assert (I' : Inv m (t ++ repeat c (Z.to_nat n)) st') by (eapply step; eauto; lia).
      destruct (wrap_ok [67; 82] (t ++ repeat c (Z.to_nat n)) st') as (st2 & W); auto; [right; left; auto|rewrite app_length, repeat_length; lia|].
      cbn [wrap] in W. change (82 =? 67) with false. change (82 =? 40) with false. cbv iota. rewrite W. cbn [obind].
      change ((67 =? 67) || (67 =? 68)) with true. cbv iota. eauto.
    + rewrite Z.eqb_sym, (body_ne c 68 B), (body_ne c 67 B) by (cbn; tauto). change (68 =? 40) with false. cbv iota.
      destruct (add_run_ok m CF t st c n [68; 66]) as (st' & A); auto; [lia|]. rewrite A. cbn [obind orb].
      assert (I' : Inv m (t ++ repeat c (Z.to_nat n)) st') by (eapply step; eauto; lia).
      destruct (wrap_ok [68; 66] (t ++ repeat c (Z.to_nat n)) st') as (st2 & W); auto; [right; right; auto|rewrite app_length, repeat_length; lia|].
      cbn [wrap] in W. change (66 =? 68) with false. change (66 =? 40) with false. cbv iota. rewrite W. cbn [obind].
      change ((68 =? 67) || (68 =? 68)) with true. cbv iota. eauto.
  - pose proof FC as FC0. apply Forall_cons_iff in FC as [EC FC]. apply Forall_cons_iff in FB as [B FB].
    pose proof (proj1 (proj1 (Forall_cons_iff _ _ _) FB)) as BX. pose proof (proj1 (proj1 (Forall_cons_iff _ _ _) FC)) as EX.
    cbn [app length] in *. cbn [scan]. rewrite (body_ne x 40 BX) by (cbn; tauto).
    destruct (Z.eqb_spec x c) as [->|NE].
    + apply (IH t st c (n + 1)); auto; try lia. now rewrite <- repeat_snoc_assoc.
    + destruct (legal_ne m CF c (proj1 EC)) as (_ & _ & N78).
      assert (P1 : count (point_sym m) (t ++ repeat c (Z.to_nat n)) <= 1).
      { rewrite app_assoc, count_app in P. pose proof (count_nonneg (point_sym m) (x :: l)). lia. }
      destruct (add_run_ok m CF t st c n (x :: l ++ e)) as (st' & A); auto; [lia|apply edit_ok; auto|]. rewrite A. cbn [obind].
      rewrite (body_ne c 67 B), (body_ne c 68 B) by (cbn; tauto). cbn [orb].
      destruct (add_run_cat m st c n _ st' B N78 A) as (Q & _).
      assert (I' : Inv m (t ++ repeat c (Z.to_nat n)) st') by (eapply step; eauto; lia).
      apply (IH (t ++ repeat c (Z.to_nat n)) st' x 1); auto; try lia.
      * now rewrite Q.
      * apply Forall_app. split; auto. apply Forall_forall. intros y IN. apply repeat_spec in IN. now subst y.
      * rewrite <- app_assoc. exact P.
      * rewrite app_length, repeat_length. lia.
Qed.

Lemma edited_accepted : forall am nm s t e, spells s t -> ending e -> (length (s ++ e) <= 50)%nat ->
  Forall edit_char t -> count (point_sym m) t <= 1 -> Z.of_nat (length t) + 2 <= INT_MAX ->
  digit_places m t + count other_sym t <= 160 -> 1 <= positions t ->
  occurs isN (t ++ e) = true -> occurs (edit_sym m) (t ++ e) = true ->
  exists p, build_picture m am nm (s ++ e) = Ok (Some p) /\ pc_cat p = CNumEdited.
Proof.
  intros am nm s t e HS HE L50 FE P L D SZ ON OE.
  pose proof (spells_body s t HS) as FB.
  assert (FL : Forall (legal m) t) by (eapply Forall_impl; [|exact FE]; intros c H; apply H).
  assert (NN : ~ In 78 t).
  { intros IN. rewrite Forall_forall in FL. destruct (legal_ne m CF 78 (FL 78 IN)) as (_ & _ & X). congruence. }
  assert (LE : (length e <= 2)%nat) by (destruct HE as [-> | [-> | ->]]; cbn; lia).
  rewrite (spelling m am nm (s ++ e) (t ++ e) CF); auto; [|exists s, t, e; auto|rewrite app_length; lia].
  assert (OT : occurs text_sym (t ++ e) = false).
  { rewrite occurs_app. assert (X : occurs text_sym t = false).
    { clear - FE. unfold occurs. induction FE as [|c t (H1 & H2 & H3 & _) F IH]; [auto|]. cbn [existsb]. rewrite IH.
      unfold text_sym. rewrite (proj2 (Z.eqb_neq c 65)), (proj2 (Z.eqb_neq c 88)) by auto. reflexivity. }
    rewrite X. destruct HE as [-> | [-> | ->]]; reflexivity. }
  assert (GT : guess m (t ++ e) 0 = 10).
  { rewrite (guess_text m CF t e FL FB HE), ON, OE, OT. reflexivity. }
  fold (start (guess m (t ++ e) 0)).
  assert (SC : exists st', scan m (t ++ e) Fresh (start (guess m (t ++ e) 0)) = Ok (Some st')).
  { rewrite GT. destruct t as [|c l]; [cbn in SZ; lia|]. cbn [app scan].
    apply (scan_edit e l [] (start 10) c 1); auto; try lia; [apply start_inv; lia|]. cbn [length] in *. lia. }
  destruct SC as (st' & SC). rewrite SC. cbn [obind].
  destruct (whole m CF t e st') as (st1 & I & W & K & _); auto; [rewrite GT; lia|lia|].
  destruct (wrap_inv m CF e t st1 st' HE FB I W) as (W1 & W2 & W3 & W4 & W5 & W6 & W7 & W8 & W9).
  assert (QC : q_cat st' = 10).
  { rewrite W9, K, GT. destruct HE as [-> | [-> | ->]]; reflexivity. }
  unfold finish. rewrite QC. cbv zeta.
  assert (SZ' : 1 <= q_size st').
  { rewrite W2. unfold positions in *. rewrite count_app.
    pose proof (count_nonneg (fun c => negb ((c =? 86) || (c =? 80) || (c =? 83))) e). lia. }
  rewrite (proj2 (Z.eqb_neq (q_size st') 0)) by lia. cbn [andb].
  rewrite W7, (i_clen _ _ _ I). pose proof (dp_nonneg m t) as DP. pose proof (count_nonneg other_sym t) as CO.
  rewrite (proj2 (Z.eqb_neq (digit_places m t + count other_sym t) (-1))), (proj2 (Z.ltb_ge 160 (digit_places m t + count other_sym t))) by lia.
  eexists. split; reflexivity.
Qed.
End Acc.
