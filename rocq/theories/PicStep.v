(** PICTURE strings: one more run keeps the invariant (proof file). *)
From Verif Require Import Base BaseFacts Field Picture SpecPic PicProofs PicAttr.
Local Open Scope Z_scope.

Section Step.
Variable m : cfg.
Hypothesis CF : pic_cfg m.

Lemma point_no : forall c, c <> 86 -> c <> 44 -> c <> 46 -> point_sym m c = false.
Proof.
  intros c H1 H2 H3. unfold point_sym. rewrite (proj2 (Z.eqb_neq c 86)) by auto.
  destruct (proj1 CF) as [-> | ->]; [rewrite (proj2 (Z.eqb_neq c 46)) by auto|rewrite (proj2 (Z.eqb_neq c 44)) by auto]; reflexivity.
Qed.

Lemma point_zero : forall t, (count (point_sym m) t =? 0) = negb (occurs (point_sym m) t).
Proof.
  clear. intros t. rewrite <- count_occurs. pose proof (count_nonneg (point_sym m) t) as P.
  destruct (Z.ltb_spec 0 (count (point_sym m) t)); [apply Z.eqb_neq|apply Z.eqb_eq]; lia.
Qed.

Lemma vzero : forall t st, Inv m t st -> (q_vcount st =? 0) = negb (occurs (point_sym m) t || leads_P t).
Proof.
  clear. intros t st I. rewrite (i_v _ _ _ I). pose proof (count_nonneg (point_sym m) t) as P.
  pose proof (point_zero t) as Z0. destruct (occurs (point_sym m) t), (leads_P t); cbn [negb orb] in *;
    try apply Z.eqb_neq in Z0; try apply Z.eqb_eq in Z0; try apply Z.eqb_neq; try apply Z.eqb_eq; lia.
Qed.

(** A digit symbol: 9, Z, *. *)
Lemma step_dig : forall t st c n st', Inv m t st -> c = 57 \/ c = 90 \/ c = 42 -> 1 <= n ->
  Z.of_nat (length t) + n <= INT_MAX ->
  store_run (let st := mkPst (q_pseen st) (q_sseen st) (q_curseen st) (q_cat st) (q_size st) (q_digits st + n)
               (q_scale st + if q_vcount st =? 0 then 0 else n) (q_scount st) (q_vcount st) (incr (q_clen st) n) (q_runs st) (q_national st) in st) c n
  = Ok (Some st') ->
  Inv m (t ++ repeat c (Z.to_nat n)) st'.
Proof.
  intros t st c n st' I C Hn L H. cbv zeta in H.
  apply store_run_inv in H; [|exact (i_cat _ _ _ I)|destruct C as [-> | [-> | ->]]; lia|destruct C as [-> | [-> | ->]]; lia|destruct C as [-> | [-> | ->]]; lia].
  cbn [q_pseen q_sseen q_curseen q_cat q_size q_digits q_scale q_scount q_vcount q_clen q_runs q_national] in H.
  assert (Hk : (1 <= Z.to_nat n)%nat) by lia. assert (Ek : Z.of_nat (Z.to_nat n) = n) by lia.
  assert (D : digit_sym c = true) by (destruct C as [-> | [-> | ->]]; reflexivity).
  assert (SG : sign_sym c = false) by (destruct C as [-> | [-> | ->]]; reflexivity).
  assert (OT : other_sym c = false) by (destruct C as [-> | [-> | ->]]; reflexivity).
  assert (CU : (c_currency m =? c) = false) by (destruct C as [-> | [-> | ->]]; apply cur_ne; auto; cbn; tauto).
  assert (PS : point_sym m c = false) by (apply point_no; destruct C as [-> | [-> | ->]]; lia).
  assert (N83 : c <> 83) by (destruct C as [-> | [-> | ->]]; lia).
  assert (N80 : c <> 80) by (destruct C as [-> | [-> | ->]]; lia).
  pose proof (clen_le m CF t) as CL. pose proof (dp_nonneg m t) as DP. pose proof (count_nonneg other_sym t) as CO.
  assert (INC : incr (q_clen st) n = q_clen st + n) by (rewrite (i_clen _ _ _ I); apply incr_ok; lia).
  rewrite INC in H.
  assert (DPE : digit_places m (t ++ repeat c (Z.to_nat n)) = digit_places m t + n).
  { rewrite places_app by (auto; rewrite Z.eqb_sym; auto). rewrite D, Ek. reflexivity. }
  subst st'. eapply (inv_make m t st c n _ I Hn N83);
    cbn [q_pseen q_sseen q_curseen q_cat q_size q_digits q_scale q_scount q_vcount q_clen q_runs q_national]; auto.
  - rewrite DPE, (i_dig _ _ _ I). reflexivity.
  - rewrite scale_dig by auto. rewrite (i_scale _ _ _ I), (vzero t st I), Ek.
    destruct (occurs (point_sym m) t || leads_P t); reflexivity.
  - rewrite SG. lia.
  - rewrite count_app, count_repeat, PS, leads_other by auto. rewrite (i_v _ _ _ I). lia.
  - rewrite count_app, count_repeat, PS. pose proof (i_v1 _ _ _ I). lia.
  - now rewrite CU, orb_false_r.
  - now rewrite (proj2 (Z.eqb_neq 80 c)), orb_false_r by auto.
  - rewrite DPE, count_app, count_repeat, OT, (i_clen _ _ _ I). lia.
Qed.

(** A character that only takes room. *)
Lemma step_other : forall t st c n st' b, Inv m t st -> other_sym c = true \/ (c = 44 \/ c = 46) /\ point_sym m c = false -> 1 <= n ->
  Z.of_nat (length t) + n <= INT_MAX ->
  b = (if other_sym c then incr (q_clen st) n else q_clen st) ->
  store_run (mkPst (q_pseen st) (q_sseen st) (q_curseen st) (q_cat st) (q_size st) (q_digits st)
               (q_scale st) (q_scount st) (q_vcount st) b (q_runs st) (q_national st)) c n
  = Ok (Some st') ->
  Inv m (t ++ repeat c (Z.to_nat n)) st'.
Proof.
  intros t st c n st' b I C Hn L Eb H.
  assert (C' : In c [65; 88; 48; 66; 47; 44; 46]).
  { destruct C as [C|[[-> | ->] _]]; [|cbn; tauto|cbn; tauto]. unfold other_sym in C.
    repeat (apply orb_true_iff in C as [C|C]; [|apply Z.eqb_eq in C; subst c; cbn; tauto]). apply Z.eqb_eq in C; subst c; cbn; tauto. }
  assert (NE : c <> 83 /\ c <> 80 /\ c <> 78 /\ c <> 67 /\ c <> 68 /\ c <> 86).
  { cbn in C'. repeat destruct C' as [C'|C']; try contradiction; subst c; lia. }
  destruct NE as (N83 & N80 & N78 & N67 & N68 & N86).
  apply store_run_inv in H; [|exact (i_cat _ _ _ I)|auto|auto|auto].
  cbn [q_pseen q_sseen q_curseen q_cat q_size q_digits q_scale q_scount q_vcount q_clen q_runs q_national] in H.
  assert (Hk : (1 <= Z.to_nat n)%nat) by lia. assert (Ek : Z.of_nat (Z.to_nat n) = n) by lia.
  assert (D : digit_sym c = false) by (cbn in C'; repeat destruct C' as [C'|C']; try contradiction; subst c; reflexivity).
  assert (SG : sign_sym c = false) by (cbn in C'; repeat destruct C' as [C'|C']; try contradiction; subst c; reflexivity).
  assert (CU : (c_currency m =? c) = false) by (apply cur_ne; auto; cbn in C' |- *; tauto).
  assert (PS : point_sym m c = false).
  { destruct C as [C|[_ C]]; [|exact C]. apply point_no; [auto| |]; intros ->; discriminate C. }
  pose proof (clen_le m CF t) as CL. pose proof (dp_nonneg m t) as DP. pose proof (count_nonneg other_sym t) as CO.
  assert (INC : incr (q_clen st) n = q_clen st + n) by (rewrite (i_clen _ _ _ I); apply incr_ok; lia).
  rewrite INC in Eb.
  assert (DPE : digit_places m (t ++ repeat c (Z.to_nat n)) = digit_places m t).
  { rewrite places_app by (auto; rewrite Z.eqb_sym; auto). rewrite D. lia. }
  subst st'. eapply (inv_make m t st c n _ I Hn N83);
    cbn [q_pseen q_sseen q_curseen q_cat q_size q_digits q_scale q_scount q_vcount q_clen q_runs q_national]; auto.
  - rewrite DPE, (i_dig _ _ _ I). reflexivity.
  - rewrite scale_other by auto. apply (i_scale _ _ _ I).
  - rewrite SG. lia.
  - rewrite count_app, count_repeat, PS, leads_other by auto. rewrite (i_v _ _ _ I). lia.
  - rewrite count_app, count_repeat, PS. pose proof (i_v1 _ _ _ I). lia.
  - now rewrite CU, orb_false_r.
  - now rewrite (proj2 (Z.eqb_neq 80 c)), orb_false_r by auto.
  - rewrite DPE, count_app, count_repeat, Eb, (i_clen _ _ _ I). destruct (other_sym c); lia.
Qed.

(** The decimal point. *)
Lemma step_point : forall t st c n st', Inv m t st -> c = 86 \/ c = 44 \/ c = 46 -> point_sym m c = true -> 1 <= n ->
  q_vcount st + n <= 1 ->
  store_run (mkPst (q_pseen st) (q_sseen st) (q_curseen st) (q_cat st) (q_size st) (q_digits st)
               (q_scale st) (q_scount st) (q_vcount st + n) (q_clen st) (q_runs st) (q_national st)) c n
  = Ok (Some st') ->
  Inv m (t ++ repeat c (Z.to_nat n)) st'.
Proof.
  intros t st c n st' I C PS Hn V1 H.
  pose proof (count_nonneg (point_sym m) t) as C0.
  assert (n = 1 /\ count (point_sym m) t = 0 /\ leads_P t = false) as (-> & C1 & LD).
  { rewrite (i_v _ _ _ I) in V1. destruct (leads_P t); [lia|]. repeat split; lia. }
  assert (NE : c <> 83 /\ c <> 80 /\ c <> 78 /\ c <> 67 /\ c <> 68) by (destruct C as [-> | [-> | ->]]; lia).
  destruct NE as (N83 & N80 & N78 & N67 & N68).
  apply store_run_inv in H; [|exact (i_cat _ _ _ I)|auto|auto|auto].
  cbn [q_pseen q_sseen q_curseen q_cat q_size q_digits q_scale q_scount q_vcount q_clen q_runs q_national] in H.
  assert (D : digit_sym c = false) by (destruct C as [-> | [-> | ->]]; reflexivity).
  assert (SG : sign_sym c = false) by (destruct C as [-> | [-> | ->]]; reflexivity).
  assert (OT : other_sym c = false) by (destruct C as [-> | [-> | ->]]; reflexivity).
  assert (CU : (c_currency m =? c) = false) by (destruct C as [-> | [-> | ->]]; apply cur_ne; auto; cbn; tauto).
  assert (O : occurs (point_sym m) t = false).
  { rewrite <- count_occurs, C1. reflexivity. }
  assert (DPE : digit_places m (t ++ repeat c (Z.to_nat 1)) = digit_places m t).
  { rewrite places_app by (auto; try rewrite Z.eqb_sym; auto; lia). rewrite D. lia. }
  subst st'. eapply (inv_make m t st c 1 _ I Hn N83);
    cbn [q_pseen q_sseen q_curseen q_cat q_size q_digits q_scale q_scount q_vcount q_clen q_runs q_national]; auto.
  - rewrite DPE, (i_dig _ _ _ I). reflexivity.
  - change (Z.to_nat 1) with 1%nat. rewrite scale_point by auto. apply (i_scale _ _ _ I).
  - rewrite SG. lia.
  - rewrite count_app, count_repeat, PS, leads_other by auto. rewrite (i_v _ _ _ I). lia.
  - rewrite count_app, count_repeat, PS. lia.
  - now rewrite CU, orb_false_r.
  - now rewrite (proj2 (Z.eqb_neq 80 c)), orb_false_r by auto.
  - rewrite DPE, count_app, count_repeat, OT, (i_clen _ _ _ I). lia.
Qed.

(** + and -. *)
Lemma step_sign : forall t st c n st', Inv m t st -> sign_sym c = true -> q_sseen st = false -> 1 <= n ->
  Z.of_nat (length t) + n <= INT_MAX ->
  (let st0 := mkPst (q_pseen st) (q_sseen st) (q_curseen st) (q_cat st) (q_size st) (q_digits st + (n - 1))
               (q_scale st) (q_scount st) (q_vcount st) (incr (q_clen st) (n - 1)) (q_runs st) (q_national st) in
   let st1 := if 0 <? q_scount st0 then
               mkPst (q_pseen st0) (q_sseen st0) (q_curseen st0) (q_cat st0) (q_size st0) (q_digits st0 + 1)
               (q_scale st0) (q_scount st0) (q_vcount st0) (incr (q_clen st0) 1) (q_runs st0) (q_national st0) else st0 in
   store_run (mkPst (q_pseen st1) (q_sseen st1) (q_curseen st1) (q_cat st1) (q_size st1) (q_digits st1)
               (q_scale st1) (q_scount st1 + 1) (q_vcount st1) (q_clen st1) (q_runs st1) (q_national st1)) c n)
  = Ok (Some st') ->
  Inv m (t ++ repeat c (Z.to_nat n)) st'.
Proof.
  intros t st c n st' I SG SS Hn L H.
  assert (C : c = 43 \/ c = 45).
  { unfold sign_sym in SG. apply orb_true_iff in SG as [SG|SG]; apply Z.eqb_eq in SG; auto. }
  assert (NE : c <> 83 /\ c <> 80 /\ c <> 78 /\ c <> 67 /\ c <> 68 /\ c <> 86 /\ c <> 44 /\ c <> 46) by (destruct C as [-> | ->]; lia).
  destruct NE as (N83 & N80 & N78 & N67 & N68 & N86 & N44 & N46).
  assert (Hk : (1 <= Z.to_nat n)%nat) by lia. assert (Ek : Z.of_nat (Z.to_nat n) = n) by lia.
  assert (D : digit_sym c = false) by (destruct C as [-> | ->]; reflexivity).
  assert (OT : other_sym c = false) by (destruct C as [-> | ->]; reflexivity).
  assert (CU : (c_currency m =? c) = false) by (destruct C as [-> | ->]; apply cur_ne; auto; cbn; tauto).
  assert (PS : point_sym m c = false) by (apply point_no; auto).
  pose proof (clen_le m CF t) as CL. pose proof (dp_nonneg m t) as DP. pose proof (count_nonneg other_sym t) as CO.
  assert (OS : (0 <? q_scount st) = occurs sign_sym t).
  { rewrite (i_sc _ _ _ I). rewrite (i_s _ _ _ I) in SS. clear - SS. unfold occurs in *.
    induction t as [|x t IH]; [reflexivity|]. cbn [existsb] in *. apply orb_false_iff in SS as [S1 S2].
    unfold sgn0 at 1. rewrite Z.eqb_sym, S1, IH by auto. reflexivity. }
  cbv zeta in H. cbn [q_pseen q_sseen q_curseen q_cat q_size q_digits q_scale q_scount q_vcount q_clen q_runs q_national] in H.
  rewrite OS in H.
  assert (INC : incr (q_clen st) (n - 1) = q_clen st + (n - 1)) by (rewrite (i_clen _ _ _ I); apply incr_ok; lia).
  assert (INC1 : incr (q_clen st + (n - 1)) 1 = q_clen st + n).
  { replace (q_clen st + n) with (q_clen st + (n - 1) + 1) by lia. rewrite (i_clen _ _ _ I); apply incr_ok; lia. }
  rewrite INC, INC1 in H.
  set (k := if occurs sign_sym t then n else n - 1).
  assert (H' : store_run (mkPst (q_pseen st) (q_sseen st) (q_curseen st) (q_cat st) (q_size st) (q_digits st + k)
               (q_scale st) (q_scount st + 1) (q_vcount st) (q_clen st + k) (q_runs st) (q_national st)) c n = Ok (Some st')).
  { unfold k. destruct (occurs sign_sym t);
      cbn [q_pseen q_sseen q_curseen q_cat q_size q_digits q_scale q_scount q_vcount q_clen q_runs q_national] in H; [|exact H].
    rewrite <- H. do 2 f_equal; lia. }
  clear H. rename H' into H.
  apply store_run_inv in H; [|exact (i_cat _ _ _ I)|auto|auto|auto].
  cbn [q_pseen q_sseen q_curseen q_cat q_size q_digits q_scale q_scount q_vcount q_clen q_runs q_national] in H.
  assert (DPE : digit_places m (t ++ repeat c (Z.to_nat n)) = digit_places m t + k).
  { rewrite places_sign by (auto; apply Z.eqb_neq; rewrite Z.eqb_sym; auto). unfold k. rewrite Ek. reflexivity. }
  subst st'. eapply (inv_make m t st c n _ I Hn N83);
    cbn [q_pseen q_sseen q_curseen q_cat q_size q_digits q_scale q_scount q_vcount q_clen q_runs q_national]; auto.
  - rewrite DPE, (i_dig _ _ _ I). reflexivity.
  - rewrite scale_other by auto. apply (i_scale _ _ _ I).
  - rewrite SG. lia.
  - rewrite count_app, count_repeat, PS, leads_other by auto. rewrite (i_v _ _ _ I). lia.
  - rewrite count_app, count_repeat, PS. pose proof (i_v1 _ _ _ I). lia.
  - now rewrite CU, orb_false_r.
  - now rewrite (proj2 (Z.eqb_neq 80 c)), orb_false_r by auto.
  - rewrite DPE, count_app, count_repeat, OT, (i_clen _ _ _ I). lia.
Qed.

(** The currency sign. *)
Lemma step_cur : forall t st n st', Inv m t st -> 1 <= n -> Z.of_nat (length t) + n <= INT_MAX ->
  (let k := if q_curseen st then n else n - 1 in
   store_run (mkPst (q_pseen st) (q_sseen st) true (q_cat st) (q_size st) (q_digits st + k)
               (q_scale st) (q_scount st) (q_vcount st) (incr (q_clen st) k) (q_runs st) (q_national st)) (c_currency m) n)
  = Ok (Some st') ->
  Inv m (t ++ repeat (c_currency m) (Z.to_nat n)) st'.
Proof.
  intros t st n st' I Hn L H. cbv zeta in H.
  assert (NQ : forall x, In x [32; 40; 41; 42; 43; 44; 45; 46; 47; 48; 49; 50; 51; 52; 53; 54; 55; 56; 57;
                       65; 66; 67; 68; 78; 80; 82; 83; 86; 88; 90] -> c_currency m <> x).
  { intros x IN. apply Z.eqb_neq. apply cur_ne; auto. }
  apply store_run_inv in H; [|exact (i_cat _ _ _ I)|apply NQ; cbn; tauto|apply NQ; cbn; tauto|apply NQ; cbn; tauto].
  cbn [q_pseen q_sseen q_curseen q_cat q_size q_digits q_scale q_scount q_vcount q_clen q_runs q_national] in H.
  assert (Hk : (1 <= Z.to_nat n)%nat) by lia. assert (Ek : Z.of_nat (Z.to_nat n) = n) by lia.
  assert (D : digit_sym (c_currency m) = false).
  { unfold digit_sym. rewrite !cur_ne by (auto; cbn; tauto). reflexivity. }
  assert (SG : sign_sym (c_currency m) = false).
  { unfold sign_sym. rewrite !cur_ne by (auto; cbn; tauto). reflexivity. }
  assert (OT : other_sym (c_currency m) = false).
  { unfold other_sym. rewrite !cur_ne by (auto; cbn; tauto). reflexivity. }
  assert (PS : point_sym m (c_currency m) = false) by (apply point_no; apply NQ; cbn; tauto).
  pose proof (clen_le m CF t) as CL. pose proof (dp_nonneg m t) as DP. pose proof (count_nonneg other_sym t) as CO.
  rewrite (i_cur _ _ _ I) in H.
  set (k := if occurs (Z.eqb (c_currency m)) t then n else n - 1) in *.
  assert (KB : 0 <= k <= n) by (unfold k; destruct (occurs _ t); lia).
  assert (INC : incr (q_clen st) k = q_clen st + k) by (rewrite (i_clen _ _ _ I); apply incr_ok; lia).
  rewrite INC in H.
  assert (DPE : digit_places m (t ++ repeat (c_currency m) (Z.to_nat n)) = digit_places m t + k).
  { rewrite places_cur by auto. unfold k. rewrite Ek. reflexivity. }
  subst st'. eapply (inv_make m t st (c_currency m) n _ I Hn (NQ 83 ltac:(cbn; tauto)));
    cbn [q_pseen q_sseen q_curseen q_cat q_size q_digits q_scale q_scount q_vcount q_clen q_runs q_national]; auto.
  - rewrite DPE, (i_dig _ _ _ I). reflexivity.
  - rewrite scale_other by auto. apply (i_scale _ _ _ I).
  - rewrite SG. lia.
  - rewrite count_app, count_repeat, PS, leads_other by (apply NQ; cbn; tauto). rewrite (i_v _ _ _ I). lia.
  - rewrite count_app, count_repeat, PS. pose proof (i_v1 _ _ _ I). lia.
  - now rewrite Z.eqb_refl, orb_true_r.
  - rewrite Z.eqb_sym, cur_ne, orb_false_r by (auto; cbn; tauto). reflexivity.
  - rewrite DPE, count_app, count_repeat, OT, (i_clen _ _ _ I). lia.
Qed.

(** P. *)
Lemma step_P : forall t st n st' b, Inv m t st -> q_pseen st = false -> 1 <= n -> Z.of_nat (length t) + n <= INT_MAX ->
  (b = true <-> nonS t = [] \/ nonS t = [86]) ->
  (let v := if b then q_vcount st + 1 else q_vcount st in
   store_run (mkPst true (q_sseen st) (q_curseen st) (q_cat st) (q_size st) (q_digits st + n)
               (q_scale st + (if v =? 0 then - n else n)) (q_scount st) v (incr (q_clen st) n) (q_runs st) (q_national st)) 80 n)
  = Ok (Some st') ->
  Inv m (t ++ repeat 80 (Z.to_nat n)) st'.
Proof.
  intros t st n st' b I PF Hn L HB H. cbv zeta in H.
  apply store_run_inv in H; [|exact (i_cat _ _ _ I)|lia|lia|lia].
  cbn [q_pseen q_sseen q_curseen q_cat q_size q_digits q_scale q_scount q_vcount q_clen q_runs q_national] in H.
  assert (Hk : (1 <= Z.to_nat n)%nat) by lia. assert (Ek : Z.of_nat (Z.to_nat n) = n) by lia.
  assert (CU : (c_currency m =? 80) = false) by (apply cur_ne; auto; cbn; tauto).
  assert (PS : point_sym m 80 = false) by (apply point_no; lia).
  pose proof (clen_le m CF t) as CL. pose proof (dp_nonneg m t) as DP. pose proof (count_nonneg other_sym t) as CO.
  assert (INC : incr (q_clen st) n = q_clen st + n) by (rewrite (i_clen _ _ _ I); apply incr_ok; lia).
  rewrite INC in H.
  assert (DPE : digit_places m (t ++ repeat 80 (Z.to_nat n)) = digit_places m t + n).
  { rewrite places_app by (auto; rewrite Z.eqb_sym; auto). change (digit_sym 80) with true. cbv iota. rewrite Ek. reflexivity. }
  assert (NP : occurs (Z.eqb 80) t = false) by (rewrite <- (i_p _ _ _ I); exact PF).
  assert (LT : leads_P t = false).
  { unfold leads_P. assert (N80 : ~ In 80 (nonS t)).
    { intros IN. apply filter_In in IN as [IN _]. assert (X : occurs (Z.eqb 80) t = true); [|congruence].
      apply existsb_exists. exists 80. auto. }
    fold (nonS t). destruct (nonS t) as [|x [|y r]]; auto.
    - rewrite (proj2 (Z.eqb_neq x 80)) by (intros ->; apply N80; cbn; tauto). apply andb_false_r.
    - rewrite (proj2 (Z.eqb_neq x 80)) by (intros ->; apply N80; cbn; tauto).
      rewrite (proj2 (Z.eqb_neq y 80)) by (intros ->; apply N80; cbn; tauto). apply andb_false_r. }
  assert (LD : leads_P (t ++ repeat 80 (Z.to_nat n)) = b).
  { destruct b.
    - apply leads_start; auto. now apply HB.
    - rewrite leads_late, LT; auto; intros E; [assert (X : false = true) by (apply HB; auto)|assert (X : false = true) by (apply HB; auto)]; discriminate X. }
  subst st'. eapply (inv_make m t st 80 n _ I Hn ltac:(lia));
    cbn [q_pseen q_sseen q_curseen q_cat q_size q_digits q_scale q_scount q_vcount q_clen q_runs q_national]; auto.
  - rewrite DPE, (i_dig _ _ _ I). reflexivity.
  - rewrite (i_scale _ _ _ I). destruct b.
    + pose proof (count_nonneg (point_sym m) t) as C0.
      rewrite (proj2 (Z.eqb_neq (q_vcount st + 1) 0)) by (rewrite (i_v _ _ _ I), LT; lia).
      unfold scale_of. rewrite LD, LT, count_app, count_repeat, Ek. change (digit_sym 80) with true. cbv iota.
      assert (CD : count digit_sym t = 0).
      { rewrite count_nonS by reflexivity. destruct (proj1 HB eq_refl) as [-> | ->]; reflexivity. }
      assert (CP : count (Z.eqb 80) t = 0).
      { rewrite count_nonS by reflexivity. destruct (proj1 HB eq_refl) as [-> | ->]; reflexivity. }
      pose proof (count_after_le m digit_sym t). pose proof (count_before_le m (Z.eqb 80) t).
      pose proof (count_nonneg digit_sym (after m t)). pose proof (count_nonneg (Z.eqb 80) (before m t)). lia.
    + destruct (scale_P m CF t (Z.to_nat n) Hk NP) as [E|E]; [|congruence]. rewrite E, LD, Ek. cbn [orb].
      rewrite (vzero t st I), LT, orb_false_r. destruct (occurs (point_sym m) t); reflexivity.
  - change (sign_sym 80) with false. cbv iota. lia.
  - rewrite count_app, count_repeat, PS, LD, (i_v _ _ _ I), LT. destruct b; lia.
  - rewrite count_app, count_repeat, PS. pose proof (i_v1 _ _ _ I). lia.
  - now rewrite CU, orb_false_r.
  - now rewrite orb_true_r.
  - rewrite DPE, count_app, count_repeat, (i_clen _ _ _ I). change (other_sym 80) with false. cbv iota. lia.
Qed.

(** S. *)
Lemma step_S : forall t st n, Inv m t st -> 1 <= n -> q_scount st + n <= 1 ->
  Inv m (t ++ repeat 83 (Z.to_nat n)) (mkPst (q_pseen st) true (q_curseen st) (q_cat st) (q_size st) (q_digits st)
     (q_scale st) (q_scount st + n) (q_vcount st) (q_clen st) (q_runs st) (q_national st)).
Proof.
  intros t st n I Hn V1. pose proof (i_sc0 _ _ _ I) as S0.
  assert (n = 1 /\ q_scount st = 0) as (-> & SC) by lia. change (Z.to_nat 1) with 1%nat.
  assert (CU : (c_currency m =? 83) = false) by (apply cur_ne; auto; cbn; tauto).
  assert (PS : point_sym m 83 = false) by (apply point_no; lia).
  destruct I as [I1 I2 I3 I4 I5 I6 I7 I8 I9 I10 I11 I12 I13 I14 I15].
  assert (DPE : digit_places m (t ++ repeat 83 1) = digit_places m t).
  { rewrite places_app by (auto; rewrite Z.eqb_sym; auto). change (digit_sym 83) with false. cbv iota. lia. }
  constructor; cbn [q_pseen q_sseen q_curseen q_cat q_size q_digits q_scale q_scount q_vcount q_clen q_runs q_national]; auto.
  - now rewrite DPE.
  - rewrite positions_app. change (negb _) with false. cbv iota. lia.
  - rewrite scale_other by auto. exact I3.
  - lia.
  - rewrite SC, occurs_app, occurs_repeat by lia. change (sgn0 83) with true. now rewrite orb_true_r.
  - rewrite count_app, count_repeat, PS, leads_other by lia. lia.
  - rewrite count_app, count_repeat, PS. lia.
  - rewrite occurs_app, occurs_repeat, CU, orb_false_r by lia. exact I8.
  - rewrite occurs_app, occurs_repeat by lia. change (83 =? 83) with true. now rewrite orb_true_r.
  - rewrite occurs_app, occurs_repeat by lia. change (80 =? 83) with false. now rewrite orb_false_r.
  - rewrite nonS_app, nonS_repeat. change (83 =? 83) with true. now rewrite app_nil_r.
  - rewrite DPE, count_app, count_repeat. change (other_sym 83) with false. cbv iota. lia.
  - rewrite count_app, count_repeat. change (sign_sym 83) with false. cbv iota. pose proof (count_nonneg sign_sym t). lia.
Qed.

Lemma step : forall t st c n rest st', Inv m t st -> body_char c -> c <> 78 -> 1 <= n ->
  Z.of_nat (length t) + n <= INT_MAX -> add_run m st c n rest = Ok (Some st') ->
  Inv m (t ++ repeat c (Z.to_nat n)) st'.
Proof.
  intros t st c n rest st' I B N78 Hn L H. unfold add_run in H. cbv zeta in H.
  rewrite (body_ne c 67 B), (body_ne c 68 B), (proj2 (Z.eqb_neq c 78) N78) in H by (cbn; tauto).
  cbn [q_pseen q_sseen q_curseen q_cat q_size q_digits q_scale q_scount q_vcount q_clen q_runs q_national] in H.
  destruct (Z.eqb_spec c 65) as [->|N65].
  { cbn [orb] in H. destruct (q_sseen st || q_pseen st); [discriminate H|].
    eapply step_other; [exact I|left; reflexivity|exact Hn|exact L|reflexivity|exact H]. }
  destruct (Z.eqb_spec c 88) as [->|N88].
  { cbn [orb] in H. destruct (q_sseen st || q_pseen st); [discriminate H|].
    eapply step_other; [exact I|left; reflexivity|exact Hn|exact L|reflexivity|exact H]. }
  cbn [orb] in H.
  destruct (Z.eqb_spec c 57) as [->|N57].
  { eapply step_dig; [exact I|auto|exact Hn|exact L|]. cbv zeta. destruct (q_vcount st =? 0); [rewrite Z.add_0_r|]; exact H. }
  destruct (Z.eqb_spec c 83) as [->|N83].
  { destruct (Z.odd (q_cat st)); [discriminate H|].
    destruct (Z.ltb_spec 1 (q_scount st + n)) as [|Hs]; [discriminate H|]. cbn [orb] in H.
    destruct (length (q_runs st) =? 0)%nat; [|discriminate H]. cbn [negb] in H. injection H as <-.
    apply step_S; auto. }
  destruct ((c =? 44) || (c =? 46) || (c =? 86)) eqn:EP.
  { assert (C : c = 86 \/ c = 44 \/ c = 46).
    { apply orb_true_iff in EP as [EP|EP]; [apply orb_true_iff in EP as [EP|EP]|]; apply Z.eqb_eq in EP; auto. }
    destruct (negb (c =? 86) && (q_sseen st || q_pseen st)); [discriminate H|].
    destruct (negb (c =? 86) && negb (c =? c_decpoint m)) eqn:ED.
    - apply andb_true_iff in ED as [E1 E2]. apply negb_true_iff in E1, E2. apply Z.eqb_neq in E1.
      apply (step_other t st c n st' (q_clen st)); [exact I| |exact Hn|exact L| |destruct st; exact H].
      + right. split; [tauto|]. unfold point_sym. rewrite (proj2 (Z.eqb_neq c 86)) by auto. exact E2.
      + destruct C as [C | [C | C]]; subst c; try congruence; reflexivity.
    - assert (PS : point_sym m c = true).
      { unfold point_sym. destruct (c =? 86); [reflexivity|]. destruct (c =? c_decpoint m); [reflexivity|discriminate ED]. }
      destruct (Z.odd (q_cat st)); [discriminate H|].
      destruct (Z.ltb_spec 1 (q_vcount st + n)) as [|Hv]; [discriminate H|].
      eapply (step_point t st c n st'); eauto. }
  apply orb_false_iff in EP as [EP E86]. apply orb_false_iff in EP as [E44 E46].
  destruct (Z.eqb_spec c 80) as [->|N80].
  { destruct (Z.odd (q_cat st)); [discriminate H|]. cbn [orb] in H. destruct (q_pseen st) eqn:QP; [discriminate H|].
    pose proof (begins m t st I) as BG.
    set (b := match map fst (q_runs st) with [] => true | [c1] => (c1 =? 86) || (c1 =? 83) | [c2; c1] => (c2 =? 83) && (c1 =? 86) | _ => false end) in *.
    destruct (negb b && _) in H; [discriminate H|].
    eapply (step_P t st n st' b I QP Hn L BG). cbv zeta. destruct b;
      cbn [q_pseen q_sseen q_curseen q_cat q_size q_digits q_scale q_scount q_vcount q_clen q_runs q_national] in H; exact H. }
  destruct ((c =? 48) || (c =? 66) || (c =? 47)) eqn:EO.
  { destruct (q_sseen st || q_pseen st); [discriminate H|].
    eapply (step_other t st c n st'); [exact I|left|exact Hn|exact L| |exact H].
    - unfold other_sym. apply orb_true_iff in EO as [EO|EO]; [apply orb_true_iff in EO as [EO|EO]|]; rewrite EO, ?orb_true_r; reflexivity.
    - assert (OT : other_sym c = true).
      { unfold other_sym. apply orb_true_iff in EO as [EO|EO]; [apply orb_true_iff in EO as [EO|EO]|]; rewrite EO, ?orb_true_r; reflexivity. }
      rewrite OT. reflexivity. }
  destruct ((c =? 42) || (c =? 90)) eqn:EZ.
  { destruct (Z.odd (q_cat st)); [discriminate H|]. destruct (q_sseen st || q_pseen st); [discriminate H|].
    eapply step_dig; [exact I| |exact Hn|exact L|].
    - apply orb_true_iff in EZ as [EZ|EZ]; apply Z.eqb_eq in EZ; auto.
    - cbv zeta. destruct (q_vcount st =? 0); [rewrite Z.add_0_r|]; exact H. }
  destruct ((c =? 43) || (c =? 45)) eqn:EG.
  { destruct (Z.odd (q_cat st)); [discriminate H|]. destruct (q_sseen st) eqn:QS; [discriminate H|]. cbn [orb] in H.
    destruct (q_pseen st) eqn:QP; [discriminate H|].
    eapply (step_sign t st c n st' I EG QS Hn L). cbv zeta. rewrite QP, QS.
    cbn [q_pseen q_sseen q_curseen q_cat q_size q_digits q_scale q_scount q_vcount q_clen q_runs q_national] in *.
    destruct (0 <? q_scount st);
    cbn [q_pseen q_sseen q_curseen q_cat q_size q_digits q_scale q_scount q_vcount q_clen q_runs q_national] in *; exact H. }
  destruct (Z.eqb_spec c (c_currency m)) as [->|NC]; [|discriminate H].
  eapply step_cur; eauto.
Qed.
End Step.
