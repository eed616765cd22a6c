(** PICTURE strings: what the compiler computes from a spelled-out picture
    (proof file). *)
From Verif Require Import Base BaseFacts Field Picture SpecPic PicProofs.
Local Open Scope Z_scope.

(** ** Counting *)
Lemma count_app : forall q a b, count q (a ++ b) = count q a + count q b.
Proof. intros. unfold count. rewrite filter_app, app_length. lia. Qed.
Lemma count_repeat : forall q c n, count q (repeat c n) = if q c then Z.of_nat n else 0.
Proof.
  intros q c n. unfold count. induction n as [|n IH]; [destruct (q c); reflexivity|].
  cbn [repeat filter]. destruct (q c); cbn [length]; lia.
Qed.
Lemma count_nonneg : forall q t, 0 <= count q t.
Proof. intros. unfold count. lia. Qed.
Lemma count_occurs : forall q t, (0 <? count q t) = occurs q t.
Proof.
  intros q t. unfold count, occurs. induction t as [|c t IH]; [reflexivity|].
  cbn [filter existsb]. destruct (q c); cbn [length orb]; [reflexivity|exact IH].
Qed.
Lemma occurs_app : forall q a b, occurs q (a ++ b) = occurs q a || occurs q b.
Proof. intros. apply existsb_app. Qed.
Lemma occurs_repeat : forall q c n, (1 <= n)%nat -> occurs q (repeat c n) = q c.
Proof.
  intros q c n H. destruct n; [lia|]. cbn [repeat occurs existsb]. destruct (q c) eqn:E; [reflexivity|].
  cbn [orb]. clear H. induction n as [|n IH]; [reflexivity|]. cbn [repeat existsb]. now rewrite E.
Qed.

Definition nonS (t : list Z) : list Z := filter (fun c => negb (c =? 83)) t.
Lemma nonS_app : forall a b, nonS (a ++ b) = nonS a ++ nonS b.
Proof. intros. apply filter_app. Qed.
Lemma nonS_repeat : forall c n, nonS (repeat c n) = if c =? 83 then [] else repeat c n.
Proof.
  intros c n. unfold nonS. induction n as [|n IH]; [destruct (c =? 83); reflexivity|].
  cbn [repeat filter]. destruct (c =? 83); cbn [negb]; rewrite IH; reflexivity.
Qed.

Lemma leads_other : forall t c n, c <> 80 -> leads_P (t ++ repeat c n) = leads_P t.
Proof.
  intros t c n H. unfold leads_P. fold (nonS (t ++ repeat c n)). fold (nonS t).
  rewrite nonS_app, nonS_repeat. destruct (nonS t) as [|x [|y r]]; cbn [app].
  - destruct (c =? 83); [reflexivity|]. destruct n as [|n]; [reflexivity|]. cbn [repeat].
    rewrite (proj2 (Z.eqb_neq c 80)) by auto. cbn [orb]. destruct n; cbn [repeat]; [apply andb_false_r|].
    rewrite (proj2 (Z.eqb_neq c 80)) by auto. apply andb_false_r.
  - destruct (c =? 83); [reflexivity|]. destruct n as [|n]; [reflexivity|]. cbn [repeat].
    rewrite (proj2 (Z.eqb_neq c 80)) by auto. reflexivity.
  - reflexivity.
Qed.
Lemma leads_start : forall t n, (1 <= n)%nat -> nonS t = [] \/ nonS t = [86] -> leads_P (t ++ repeat 80 n) = true.
Proof.
  intros t n H E. unfold leads_P. fold (nonS (t ++ repeat 80 n)). rewrite nonS_app, nonS_repeat.
  change (80 =? 83) with false. cbv iota. destruct n; [lia|]. destruct E as [-> | ->]; reflexivity.
Qed.
Lemma leads_late : forall t n, nonS t <> [] -> nonS t <> [86] -> leads_P (t ++ repeat 80 n) = leads_P t.
Proof.
  intros t n H1 H2. unfold leads_P. fold (nonS (t ++ repeat 80 n)). fold (nonS t). rewrite nonS_app, nonS_repeat.
  change (80 =? 83) with false. cbv iota. destruct (nonS t) as [|x [|y r]]; [congruence| |reflexivity].
  cbn [app]. destruct n; [reflexivity|]. cbn [repeat]. change (80 =? 80) with true. rewrite andb_true_r.
  destruct (Z.eqb_spec x 86); [congruence|]. now rewrite andb_false_l.
Qed.

Section Attr.
Variable m : cfg.
Hypothesis CF : pic_cfg m.

Lemma after_app : forall a b, after m (a ++ b) = if occurs (point_sym m) a then after m a ++ b else after m b.
Proof.
  clear. induction a as [|c a IH]; intros b; [reflexivity|]. cbn [app after occurs existsb].
  destruct (point_sym m c); [reflexivity|]. cbn [orb]. apply IH.
Qed.
Lemma before_app : forall a b, before m (a ++ b) = if occurs (point_sym m) a then before m a else a ++ before m b.
Proof.
  clear. induction a as [|c a IH]; intros b; [reflexivity|]. cbn [app before occurs existsb].
  destruct (point_sym m c); [reflexivity|]. cbn [orb]. rewrite IH.
  change (existsb (point_sym m) a) with (occurs (point_sym m) a). destruct (occurs (point_sym m) a); reflexivity.
Qed.
Lemma no_point_after : forall a, occurs (point_sym m) a = false -> after m a = [] /\ before m a = a.
Proof.
  clear. induction a as [|c a IH]; intros H; [auto|]. cbn [occurs existsb] in H. apply orb_false_iff in H as [H1 H2].
  cbn [after before]. rewrite H1. destruct (IH H2) as (-> & ->). auto.
Qed.

(** Scale after one more run. *)
Lemma scale_dig : forall t c n, digit_sym c = true -> c <> 80 -> point_sym m c = false ->
  scale_of m (t ++ repeat c n) = scale_of m t +
    (if occurs (point_sym m) t || leads_P t then Z.of_nat n else 0).
Proof.
  clear. intros t c n D NP NV. unfold scale_of. rewrite leads_other by auto.
  destruct (leads_P t).
  - rewrite orb_true_r, count_app, count_repeat, D. reflexivity.
  - rewrite orb_false_r, after_app, before_app. destruct (occurs (point_sym m) t) eqn:O.
    + rewrite count_app, count_repeat, D. lia.
    + destruct (no_point_after t O) as (A1 & A2). rewrite A1, A2.
      destruct (no_point_after (repeat c n)) as (A3 & A4).
      { destruct n; [reflexivity|]. rewrite occurs_repeat by lia. exact NV. }
      rewrite A3, A4, count_app, count_repeat, (proj2 (Z.eqb_neq 80 c)) by auto. lia.
Qed.
Lemma scale_other : forall t c n, digit_sym c = false -> point_sym m c = false ->
  scale_of m (t ++ repeat c n) = scale_of m t.
Proof.
  clear. intros t c n D NV.
  assert (NP : c <> 80) by (intros ->; discriminate D).
  unfold scale_of. rewrite leads_other by auto.
  destruct (leads_P t).
  - rewrite count_app, count_repeat, D. lia.
  - rewrite after_app, before_app. destruct (occurs (point_sym m) t) eqn:O.
    + rewrite count_app, count_repeat, D. lia.
    + destruct (no_point_after t O) as (A1 & A2). rewrite A1, A2.
      destruct (no_point_after (repeat c n)) as (A3 & A4).
      { destruct n; [reflexivity|]. rewrite occurs_repeat by lia. exact NV. }
      rewrite A3, A4, count_app, count_repeat, (proj2 (Z.eqb_neq 80 c)) by auto. lia.
Qed.
Lemma scale_point : forall t c, digit_sym c = false -> point_sym m c = true -> occurs (point_sym m) t = false ->
  scale_of m (t ++ repeat c 1) = scale_of m t.
Proof.
  clear. intros t c D NV O.
  assert (NP : c <> 80) by (intros ->; discriminate D).
  unfold scale_of. rewrite leads_other by auto.
  destruct (leads_P t).
  - rewrite count_app, count_repeat, D. lia.
  - rewrite after_app, before_app, O. destruct (no_point_after t O) as (A1 & A2). rewrite A1, A2.
    cbn [repeat after before]. rewrite NV, app_nil_r. reflexivity.
Qed.
Lemma scale_P : forall t n, (1 <= n)%nat -> occurs (Z.eqb 80) t = false ->
  scale_of m (t ++ repeat 80 n) = scale_of m t +
    (if leads_P (t ++ repeat 80 n) || occurs (point_sym m) t then Z.of_nat n else - Z.of_nat n) \/
  leads_P (t ++ repeat 80 n) = true.
Proof.
  intros t n H1 NP. destruct (leads_P (t ++ repeat 80 n)) eqn:L; [right; reflexivity|left].
  unfold scale_of. rewrite L. cbn [orb].
  assert (LT : leads_P t = false).
  { unfold leads_P in *. fold (nonS t). fold (nonS (t ++ repeat 80 n)) in L. rewrite nonS_app in L.
    destruct (nonS t) as [|x [|y r]]; auto. cbn [app] in L.
    apply orb_false_iff in L as [L1 L2]. now rewrite L1, andb_false_r. }
  rewrite LT, after_app, before_app.
  assert (P80 : point_sym m 80 = false) by (unfold point_sym; destruct (proj1 CF) as [-> | ->]; reflexivity).
  destruct (occurs (point_sym m) t) eqn:O.
  - rewrite count_app, count_repeat. change (digit_sym 80) with true. cbv iota. lia.
  - destruct (no_point_after t O) as (A1 & A2). rewrite A1, A2.
    destruct (no_point_after (repeat 80 n)) as (A3 & A4).
    { rewrite occurs_repeat by lia. exact P80. }
    rewrite A3, A4, count_app, count_repeat. change (80 =? 80) with true. cbv iota. lia.
Qed.

(** ** The invariant *)
Definition other_sym (c : Z) : bool := (c =? 65) || (c =? 88) || (c =? 48) || (c =? 66) || (c =? 47).
Definition sgn0 (c : Z) : bool := (c =? 83) || sign_sym c.
Definition expand (l : list (Z * Z)) : list Z := flat_map (fun cn => repeat (fst cn) (Z.to_nat (snd cn))) l.

Record Inv (t : list Z) (st : pst) : Prop := mkInv {
  i_dig : q_digits st = digit_places m t;
  i_size : q_size st = positions t;
  i_scale : q_scale st = scale_of m t;
  i_sc0 : 0 <= q_scount st;
  i_sc : (0 <? q_scount st) = occurs sgn0 t;
  i_v : q_vcount st = count (point_sym m) t + (if leads_P t then 1 else 0);
  i_v1 : count (point_sym m) t <= 1;
  i_cur : q_curseen st = occurs (Z.eqb (c_currency m)) t;
  i_s : q_sseen st = occurs (Z.eqb 83) t;
  i_p : q_pseen st = occurs (Z.eqb 80) t;
  i_runs : expand (q_runs st) = nonS t;
  i_pos : Forall (fun cn => 1 <= snd cn) (q_runs st);
  i_clen : q_clen st = digit_places m t + count other_sym t;
  i_cat : q_cat st <> 12;
  i_sc1 : q_scount st <= 1 + count sign_sym t }.

Lemma store_run_inv : forall st c n st', q_cat st <> 12 -> c <> 78 -> c <> 67 -> c <> 68 -> store_run st c n = Ok (Some st') ->
  st' = mkPst (q_pseen st) (q_sseen st) (q_curseen st) (q_cat st)
              (if negb ((c =? 86) || (c =? 80)) then q_size st + n else q_size st)
              (q_digits st) (q_scale st)
              (q_scount st) (q_vcount st) (q_clen st) (q_runs st ++ [(c, n)]) (q_national st).
Proof.
  clear. intros st c n st' C N1 N2 N3 H. unfold store_run in H. cbv zeta in H.
  rewrite (proj2 (Z.eqb_neq c 67)), (proj2 (Z.eqb_neq c 68)), (proj2 (Z.eqb_neq c 78)), (proj2 (Z.eqb_neq (q_cat st) 12)) in H by auto.
  cbn [orb andb] in H. destruct (_ && _ && _ && _) in H; [|discriminate]. now injection H as <-.
Qed.

Lemma incr_ok : forall a n, 0 <= a -> 0 <= n -> a + n <= INT_MAX -> incr a n = a + n.
Proof.
  clear. intros a n H1 H2 H3. unfold incr. rewrite (proj2 (Z.eqb_neq a (-1))), (proj2 (Z.eqb_neq n (-1))) by lia.
  rewrite (proj2 (Z.ltb_ge n 0)), (proj2 (Z.ltb_ge (INT_MAX - a) n)) by lia. reflexivity.
Qed.

Lemma expand_app1 : forall l c n, expand (l ++ [(c, n)]) = expand l ++ repeat c (Z.to_nat n).
Proof. clear. intros. unfold expand. rewrite flat_map_app. cbn [flat_map fst snd]. now rewrite app_nil_r. Qed.

Lemma dp_nonneg : forall t, 0 <= digit_places m t.
Proof. clear. intros. unfold digit_places. pose proof (count_nonneg digit_sym t). lia. Qed.

(** The counters after one more run. *)
Lemma places_app : forall t c n, (1 <= n)%nat -> (c =? c_currency m) = false -> sign_sym c = false ->
  digit_places m (t ++ repeat c n) = digit_places m t + (if digit_sym c then Z.of_nat n else 0).
Proof.
  clear. intros t c n H1 H2 H3. unfold digit_places. rewrite !count_app, !count_repeat, H3.
  rewrite Z.eqb_sym, H2. lia.
Qed.

Lemma places_sign : forall t c n, (1 <= n)%nat -> sign_sym c = true -> c <> c_currency m ->
  digit_places m (t ++ repeat c n) = digit_places m t + (if occurs sign_sym t then Z.of_nat n else Z.of_nat n - 1).
Proof.
  clear. intros t c n H1 H2 H3. unfold digit_places. rewrite !count_app, !count_repeat, H2.
  rewrite (proj2 (Z.eqb_neq (c_currency m) c)) by auto.
  assert (D : digit_sym c = false).
  { unfold sign_sym in H2. apply orb_true_iff in H2 as [H2|H2]; apply Z.eqb_eq in H2; subst c; reflexivity. }
  rewrite D, <- count_occurs. pose proof (count_nonneg sign_sym t) as P.
  destruct (Z.ltb_spec 0 (count sign_sym t)); lia.
Qed.
Lemma places_cur : forall t n, (1 <= n)%nat -> sign_sym (c_currency m) = false -> digit_sym (c_currency m) = false ->
  digit_places m (t ++ repeat (c_currency m) n) =
  digit_places m t + (if occurs (Z.eqb (c_currency m)) t then Z.of_nat n else Z.of_nat n - 1).
Proof.
  clear. intros t n H1 H2 H3. unfold digit_places. rewrite !count_app, !count_repeat, H2, H3, Z.eqb_refl.
  rewrite <- count_occurs. pose proof (count_nonneg (Z.eqb (c_currency m)) t) as P.
  destruct (Z.ltb_spec 0 (count (Z.eqb (c_currency m)) t)); lia.
Qed.

Lemma cur_ne : forall c, In c [32; 40; 41; 42; 43; 44; 45; 46; 47; 48; 49; 50; 51; 52; 53; 54; 55; 56; 57;
                       65; 66; 67; 68; 78; 80; 82; 83; 86; 88; 90] -> (c_currency m =? c) = false.
Proof. intros c H. apply Z.eqb_neq. intros E. apply (proj2 CF). now rewrite E. Qed.
Lemma cur_ne' : forall c, In c [32; 40; 41; 42; 43; 44; 45; 46; 47; 48; 49; 50; 51; 52; 53; 54; 55; 56; 57;
                       65; 66; 67; 68; 78; 80; 82; 83; 86; 88; 90] -> (c =? c_currency m) = false.
Proof. intros c H. rewrite Z.eqb_sym. now apply cur_ne. Qed.

Lemma clen_le : forall t, digit_places m t + count other_sym t <= Z.of_nat (length t).
Proof.
  intros t. unfold digit_places.
  assert (A : count digit_sym t + count sign_sym t + count (Z.eqb (c_currency m)) t + count other_sym t <= Z.of_nat (length t)).
  { unfold count. induction t as [|c t IH]; [cbn; lia|].
    assert (S : (if digit_sym c then 1 else 0) + (if sign_sym c then 1 else 0) + (if c_currency m =? c then 1 else 0)
              + (if other_sym c then 1 else 0) <= 1).
    { destruct (Z.eqb_spec (c_currency m) c) as [E|_].
      - subst c. unfold digit_sym, sign_sym, other_sym. rewrite !cur_ne by (cbn; tauto). cbn. lia.
      - unfold digit_sym, sign_sym, other_sym. clear.
        repeat match goal with |- context [c =? ?k] => destruct (Z.eqb_spec c k); [subst c; cbn; lia|] end. cbn. lia. }
    cbn [filter length]. destruct (digit_sym c), (sign_sym c), (c_currency m =? c), (other_sym c); cbn [length] in *; lia. }
  pose proof (count_nonneg sign_sym t). pose proof (count_nonneg (Z.eqb (c_currency m)) t). lia.
Qed.

Lemma positions_app : forall t c n, positions (t ++ repeat c n) = positions t +
  (if negb ((c =? 86) || (c =? 80) || (c =? 83)) then Z.of_nat n else 0).
Proof. clear. intros. unfold positions. now rewrite count_app, count_repeat. Qed.

(** Putting the invariant together after a run that is kept in the buffer. *)
Lemma inv_make : forall t st c n st', Inv t st -> 1 <= n -> c <> 83 ->
  q_digits st' = digit_places m (t ++ repeat c (Z.to_nat n)) ->
  q_size st' = (if negb ((c =? 86) || (c =? 80)) then q_size st + n else q_size st) ->
  q_scale st' = scale_of m (t ++ repeat c (Z.to_nat n)) ->
  q_scount st' = q_scount st + (if sign_sym c then 1 else 0) ->
  q_vcount st' = count (point_sym m) (t ++ repeat c (Z.to_nat n)) + (if leads_P (t ++ repeat c (Z.to_nat n)) then 1 else 0) ->
  count (point_sym m) (t ++ repeat c (Z.to_nat n)) <= 1 ->
  q_curseen st' = q_curseen st || (c_currency m =? c) ->
  q_sseen st' = q_sseen st ->
  q_pseen st' = q_pseen st || (80 =? c) ->
  q_runs st' = q_runs st ++ [(c, n)] ->
  q_clen st' = digit_places m (t ++ repeat c (Z.to_nat n)) + count other_sym (t ++ repeat c (Z.to_nat n)) ->
  q_cat st' = q_cat st ->
  Inv (t ++ repeat c (Z.to_nat n)) st'.
Proof.
  clear. intros t st c n st' I Hn N83 E1 E2 E3 E4 E5 E6 E7 E8 E9 E10 E11 E12.
  destruct I as [I1 I2 I3 I4 I5 I6 I7 I8 I9 I10 I11 I12 I13 I14 I15].
  assert (Hk : (1 <= Z.to_nat n)%nat) by lia.
  constructor; auto.
  - rewrite E2, positions_app, (proj2 (Z.eqb_neq c 83)) by auto. rewrite orb_false_r, I2. destruct (negb _); lia.
  - rewrite E4. destruct (sign_sym c); lia.
  - rewrite E4, occurs_app, occurs_repeat, <- I5 by auto. unfold sgn0. rewrite (proj2 (Z.eqb_neq c 83)) by auto. cbn [orb].
    destruct (sign_sym c); [rewrite orb_true_r; apply Z.ltb_lt; lia|now rewrite orb_false_r, Z.add_0_r].
  - rewrite E7, occurs_app, occurs_repeat, I8 by auto. reflexivity.
  - rewrite E8, occurs_app, occurs_repeat, I9 by auto. now rewrite (proj2 (Z.eqb_neq 83 c)), orb_false_r by auto.
  - rewrite E9, occurs_app, occurs_repeat, I10 by auto. reflexivity.
  - rewrite E10, expand_app1, I11, nonS_app, nonS_repeat, (proj2 (Z.eqb_neq c 83)) by auto. reflexivity.
  - rewrite E10. apply Forall_app. split; auto.
  - now rewrite E12.
  - rewrite E4, count_app, count_repeat. destruct (sign_sym c); lia.
Qed.

Lemma count_after_le : forall q t, count q (after m t) <= count q t.
Proof.
  clear. intros q t. unfold count. induction t as [|c t IH]; [cbn; lia|]. cbn [after filter].
  destruct (point_sym m c); destruct (q c); cbn [length]; lia.
Qed.
Lemma count_before_le : forall q t, count q (before m t) <= count q t.
Proof.
  clear. intros q t. unfold count. induction t as [|c t IH]; [cbn; lia|]. cbn [before filter].
  destruct (point_sym m c); cbn [filter]; destruct (q c); cbn [length]; lia.
Qed.
Lemma count_nonS : forall q t, q 83 = false -> count q t = count q (nonS t).
Proof.
  clear. intros q t H. unfold count, nonS. induction t as [|c t IH]; [reflexivity|]. cbn [filter].
  destruct (Z.eqb_spec c 83) as [->|N]; cbn [negb]; [rewrite H; exact IH|].
  cbn [filter]. destruct (q c); cbn [length]; lia.
Qed.

(** The buffer holds nothing, or V only. *)
Lemma begins : forall t st, Inv t st ->
  match map fst (q_runs st) with
        | [] => true
        | [c1] => (c1 =? 86) || (c1 =? 83)
        | [c2; c1] => (c2 =? 83) && (c1 =? 86)
        | _ => false
        end = true <-> nonS t = [] \/ nonS t = [86].
Proof.
  clear. intros t st I. pose proof (i_runs _ _ I) as R. pose proof (i_pos _ _ I) as P. pose proof (i_v1 _ _ I) as V.
  assert (NS : ~ In 83 (nonS t)).
  { unfold nonS. intros H. apply filter_In in H as [_ H]. discriminate H. }
  assert (CV : count (point_sym m) t = count (point_sym m) (nonS t) + (if point_sym m 83 then count (Z.eqb 83) t else 0)).
  { clear. unfold count, nonS. induction t as [|c t IH]; [cbn [filter length]; destruct (point_sym m 83); reflexivity|]. cbn [filter].
    destruct (Z.eqb_spec c 83) as [->|N].
    - change (83 =? 83) with true. cbn [negb]. destruct (point_sym m 83); cbn [length]; lia.
    - rewrite (proj2 (Z.eqb_neq 83 c)) by auto. cbn [negb filter]. destruct (point_sym m c); cbn [length]; lia. }
  pose proof (count_nonneg (Z.eqb 83) t) as C0.
  rewrite <- R in *. clear R. destruct (q_runs st) as [|[c1 n1] [|[c2 n2] [|[c3 n3] r]]]; cbn [map fst].
  - cbn. tauto.
  - apply Forall_cons_iff in P as [P1 _]. cbn [snd] in P1. unfold expand in *. cbn [flat_map fst snd] in *. rewrite app_nil_r in *.
    destruct (Z.to_nat n1) as [|k] eqn:K; [lia|]. cbn [repeat] in *. split.
    + intros H. apply orb_true_iff in H as [H|H]; apply Z.eqb_eq in H; subst c1.
      * right. destruct k; [reflexivity|]. exfalso. unfold count in CV, V. cbn [repeat filter] in CV. change (point_sym m 86) with true in CV.
        cbn [length] in CV. destruct (point_sym m 83); lia.
      * exfalso. apply NS. left. reflexivity.
    + intros [H|H]; [discriminate|]. injection H as -> H. reflexivity.
  - apply Forall_cons_iff in P as [P1 P]. apply Forall_cons_iff in P as [P2 _]. cbn [snd] in P1, P2.
    unfold expand in *. cbn [flat_map fst snd] in *.
    destruct (Z.to_nat n1) as [|k1] eqn:K1; [lia|]. destruct (Z.to_nat n2) as [|k2] eqn:K2; [lia|].
    split.
    + intros H. apply andb_true_iff in H as [H _]. apply Z.eqb_eq in H. subst c1. exfalso. apply NS. left. reflexivity.
    + cbn [repeat app]. intros [H|H]; [discriminate|]. injection H as _ H. destruct k1; discriminate H.
  - apply Forall_cons_iff in P as [P1 P]. apply Forall_cons_iff in P as [P2 _]. cbn [snd] in P1, P2.
    unfold expand in *. cbn [flat_map fst snd] in *.
    destruct (Z.to_nat n1) as [|k1] eqn:K1; [lia|]. destruct (Z.to_nat n2) as [|k2] eqn:K2; [lia|].
    split; [discriminate|]. cbn [repeat app]. intros [H|H]; [discriminate|]. injection H as _ H. destruct k1; discriminate H.
Qed.

End Attr.
