(** INSPECT: uniqueness of the specified result, closed forms, counters. *)
From Verif Require Import Base BaseFacts Field Sign SpecNum SpecStore DispProofs StoreProofs MoveProofs CmpProofs
  Numeric MoveAll DispInt P_Int Inspect SpecInspect InspectProofs InspectStmt InspectStmt2.

Local Open Scope nat_scope.

(** ** Uniqueness *)
Lemma first_occ_unique : forall data s e x p q, first_occurrence data s e x p -> first_occurrence data s e x q -> p = q.
Proof.
  intros data s e x p q [W1 F1] [W2 F2]. destruct (Nat.lt_trichotomy p q) as [L|[L|L]]; auto; exfalso.
  - apply (F2 p); auto. destruct W1. lia.
  - apply (F1 q); auto. destruct W2. lia.
Qed.
Lemma region_is_det : forall data ds r r1, region_is data ds r r1 -> forall r2, region_is data ds r r2 -> r1 = r2.
Proof.
  intros data ds r r1 H. induction H as [r|x ds s e p r F H IH|x ds s e r N H IH|x ds s e p r F H IH|x ds s e r N H IH];
    intros r2 H2; inversion H2 as [|? ? ? ? p' ? F'|? ? ? ? ? N'|? ? ? ? p' ? F'|? ? ? ? ? N']; subst; auto;
    try (exfalso; destruct F as [F _]; eapply N'; exact F);
    try (exfalso; destruct F' as [F' _]; eapply N; exact F').
  - rewrite (first_occ_unique _ _ _ _ _ _ F' F) in *. auto.
  - rewrite (first_occ_unique _ _ _ _ _ _ F' F) in *. auto.
Qed.

Lemma all_matches_det : forall data ov s e pat from ps, all_matches data ov s e pat from ps ->
  forall ps', all_matches data ov s e pat from ps' -> ps = ps'.
Proof.
  intros data ov s e pat from ps A. induction A as [from N|from p ps L C N A IH]; intros ps' B;
    inversion B as [from' N'|from' p' ps0 L' C' N' A']; subst; auto.
  - exfalso. eapply N; eauto.
  - exfalso. eapply N'; eauto.
  - assert (p = p') as <-.
    { destruct (Nat.lt_trichotomy p p') as [Q|[Q|Q]]; auto; exfalso; [apply (N' p)|apply (N p')]; auto; lia. }
    f_equal. now apply IH.
Qed.
Lemma leading_matches_det : forall data ov s e pat from ps, leading_matches data ov s e pat from ps ->
  forall ps', leading_matches data ov s e pat from ps' -> ps = ps'.
Proof.
  intros data ov s e pat from ps A.
  induction A as [from N|from ps C A IH|from ps W N A IH]; intros ps' B;
    inversion B as [from' N'|from' ps0 C' A'|from' ps0 W' N' A']; subst; auto;
    try (exfalso; destruct C; auto; fail); try (exfalso; destruct C'; auto; fail); try (exfalso; auto; fail).
  f_equal. auto.
Qed.
Lemma trailing_matches_det : forall data ov s e pat till ps, 1 <= length pat -> trailing_matches data ov s e pat till ps ->
  forall ps', trailing_matches data ov s e pat till ps' -> ps = ps'.
Proof.
  intros data ov s e pat till ps HP A.
  induction A as [till N|p ps C A IH|p ps W N A IH]; intros ps' B.
  - inversion B as [till' N'|p' ps0 C' A' X|p' ps0 W' N' A' X]; subst; auto.
    + exfalso. apply (N p'); auto. now destruct C'.
    + exfalso. now apply (N p').
  - inversion B as [till' N'|p' ps0 C' A' X|p' ps0 W' N' A' X]; subst; auto.
    + exfalso. apply (N' p); auto. now destruct C.
    + assert (p' = p) by lia. subst p'. f_equal. auto.
    + assert (p' = p) by lia. subst p'. contradiction.
  - inversion B as [till' N'|p' ps0 C' A' X|p' ps0 W' N' A' X]; subst; auto.
    + exfalso. now apply (N' p).
    + assert (p' = p) by lia. subst p'. contradiction.
    + assert (p' = p) by lia. subst p'. auto.
Qed.

Definition ov_eq (a b : overlay) : Prop := forall i, a i = b i.

Lemma candidate_ext : forall data ov ov' s e pat p, ov_eq ov ov' ->
  candidate data ov s e pat p -> candidate data ov' s e pat p.
Proof. intros data ov ov' s e pat p H. apply candidate_same. intros i _. apply H. Qed.

Lemma matches_det : forall k data ov ov' s e pat ps ps', 1 <= length pat -> ov_eq ov ov' ->
  matches k data ov s e pat ps -> matches k data ov' s e pat ps' -> ps = ps'.
Proof.
  intros k data ov ov' s e pat ps ps' HP HE A B. destruct k; cbn [matches] in *.
  - eapply all_matches_det; [|exact B]. eapply all_matches_same; [|exact A]. intros i _. apply HE.
  - eapply leading_matches_det; [|exact B]. eapply leading_matches_same; [|exact A]. intros i _. apply HE.
  - inversion A as [N|p C N]; inversion B as [N'|p' C' N']; subst; auto.
    + exfalso. apply (N p'). eapply candidate_ext; [|exact C']. intros i. symmetry. apply HE.
    + exfalso. apply (N' p). eapply candidate_ext; [|exact C]. exact HE.
    + f_equal. destruct (Nat.lt_trichotomy p p') as [Q|[Q|Q]]; auto; exfalso.
      * apply (N' p Q). eapply candidate_ext; [|exact C]. exact HE.
      * apply (N p' Q). eapply candidate_ext; [|exact C']. intros i. symmetry. apply HE.
  - eapply trailing_matches_det; [exact HP| |exact B]. eapply trailing_matches_same; [|exact A]. intros i _. apply HE.
Qed.

Lemma sorted_nodup : forall l, StronglySorted lt l -> NoDup l.
Proof.
  induction l as [|x l IH]; intros H; constructor; inversion H as [|? ? S F]; subst; auto.
  intros I. rewrite Forall_forall in F. specialize (F x I). lia.
Qed.
Lemma char_positions_det : forall ov ov' s e ps ps', ov_eq ov ov' ->
  char_positions ov s e ps -> char_positions ov' s e ps' -> length ps = length ps' /\ forall i, In i ps <-> In i ps'.
Proof.
  intros ov ov' s e ps ps' HE [S1 I1] [S2 I2].
  assert (X : forall i, In i ps <-> In i ps') by (intros i; rewrite I1, I2, HE; reflexivity).
  split; [|exact X]. apply Permutation_length. apply NoDup_Permutation; auto using sorted_nodup.
Qed.

Lemma stamped_det : forall ov1 ov2 ps1 ps2 vals r1 r2, ov_eq ov1 ov2 -> (forall i, In i ps1 <-> In i ps2) ->
  stamped ov1 r1 ps1 vals -> stamped ov2 r2 ps2 vals -> ov_eq r1 r2.
Proof.
  intros ov1 ov2 ps1 ps2 vals r1 r2 HE HP [A1 A2] [B1 B2] i.
  destruct (existsb (fun p => (p <=? i) && (i <? p + length vals)) ps1) eqn:X.
  - apply existsb_exists in X as (p & I & X). apply andb_true_iff in X as [X1 X2].
    apply Nat.leb_le in X1. apply Nat.ltb_lt in X2. replace i with (p + (i - p)) by lia.
    rewrite A1, B1; auto; try lia. now apply HP.
  - assert (Y : forall p, In p ps1 -> ~ (p <= i < p + length vals)).
    { intros p I [X1 X2].
      assert (existsb (fun p => (p <=? i) && (i <? p + length vals)) ps1 = true); [|congruence].
      apply existsb_exists. exists p. split; auto. apply andb_true_iff. split; [now apply Nat.leb_le|now apply Nat.ltb_lt]. }
    rewrite A2, B2; auto. intros p I. apply Y. now apply HP.
Qed.

Definition what_ok (w : what) : Prop := match w with Chars => True | Pat _ pat => pat <> [] end.
Lemma nonempty_len : forall (l : list Z), l <> [] -> 1 <= length l.
Proof. intros [|x l] H; [congruence|cbn; lia]. Qed.

Lemma tally_counts_det : forall data phs, Forall (fun p => what_ok (t_what p)) phs ->
  forall ov1 ov2 ns1 ns2, ov_eq ov1 ov2 ->
  tally_counts data ov1 phs ns1 -> tally_counts data ov2 phs ns2 -> ns1 = ns2.
Proof.
  induction phs as [|ph phs IH]; intros HF ov1 ov2 ns1 ns2 HE A B.
  - inversion A; inversion B; subst. reflexivity.
  - inversion HF as [|? ? HW HF']; subst.
    inversion A as [|? ov1' ? ? s1 e1 ps1 n1 R1 T1 S1 C1]; subst.
    inversion B as [|? ov2' ? ? s2 e2 ps2 n2 R2 T2 S2 C2]; subst.
    pose proof (region_is_det _ _ _ _ R1 _ R2) as EQ. injection EQ as <- <-.
    assert (L : length ps1 = length ps2 /\ forall i, In i ps1 <-> In i ps2).
    { destruct (t_what ph) as [|k pat]; cbn [taken_by what_ok] in *.
      - eapply char_positions_det; eauto.
      - rewrite (matches_det k data ov1 ov2 s1 e1 pat ps1 ps2); auto using nonempty_len. split; [auto|reflexivity]. }
    destruct L as [L1 L2]. f_equal; auto.
    eapply IH; [auto|eapply stamped_det; [exact HE|exact L2|exact S1|exact S2]|exact C1|exact C2].
Qed.

Lemma replaced_det : forall data phs,
  Forall (fun p => match r_what p with CharsBy _ => True | PatBy _ pat _ => pat <> [] end) phs ->
  forall ov1 ov2 r1 r2, ov_eq ov1 ov2 -> replaced data ov1 phs r1 -> replaced data ov2 phs r2 -> ov_eq r1 r2.
Proof.
  induction phs as [|ph phs IH]; intros HF ov1 ov2 r1 r2 HE A B.
  - inversion A; inversion B; subst. exact HE.
  - inversion HF as [|? ? HW HF']; subst.
    destruct ph as [[c|k pat by_] ds]; cbn [r_what] in HW.
    + inversion A as [|? ov1' ? ? ? ? s1 e1 ps1 R1 T1 S1 C1| | ]; subst.
      inversion B as [|? ov2' ? ? ? ? s2 e2 ps2 R2 T2 S2 C2| | ]; subst.
      pose proof (region_is_det _ _ _ _ R1 _ R2) as EQ. injection EQ as <- <-.
      destruct (char_positions_det _ _ _ _ _ _ HE T1 T2) as [_ L].
      eapply IH; [auto|eapply stamped_det; [exact HE|exact L|exact S1|exact S2]|exact C1|exact C2].
    + inversion A as [| |? ov1' ? ? ? ? ? ? s1 e1 ps1 R1 L1 T1 S1 C1|? ? ? ? ? ? ? N1 C1]; subst;
      inversion B as [| |? ov2' ? ? ? ? ? ? s2 e2 ps2 R2 L2 T2 S2 C2|? ? ? ? ? ? ? N2 C2]; subst; try congruence.
      * pose proof (region_is_det _ _ _ _ R1 _ R2) as EQ. injection EQ as <- <-.
        assert (ps1 = ps2) as <- by (eapply matches_det; [apply nonempty_len; exact HW|exact HE|exact T1|exact T2]).
        eapply IH; [auto|eapply stamped_det; [exact HE|intros i; reflexivity|exact S1|exact S2]|exact C1|exact C2].
      * eapply IH; eauto.
Qed.

Lemma skipn_skipn : forall {A} a b (l : list A), skipn a (skipn b l) = skipn (b + a) l.
Proof. intros A a b. induction b as [|b IH]; intros l; [reflexivity|]. destruct l; cbn; [apply skipn_nil|apply IH]. Qed.

(** ** Closed form of LEADING and TRAILING *)
Lemma slice_within : forall data s e pat p, s <= p -> p <= e -> e <= length data ->
  (within data s e pat p <-> exists r, slice data p e = pat ++ r).
Proof.
  intros data s e pat p Hs Hp He. split.
  - intros (_ & B & (a & b & -> & <-)). unfold slice. rewrite !app_length in He.
    rewrite skipn_app, skipn_all, Nat.sub_diag. cbn [app skipn].
    exists (firstn (e - length a - length pat) b). rewrite firstn_app, firstn_all2 by lia. reflexivity.
  - intros [r H]. assert (L : length (slice data p e) = e - p) by (unfold slice; rewrite firstn_length, skipn_length; lia).
    rewrite H, app_length in L. split; [auto|]. split; [lia|].
    exists (firstn p data), (r ++ skipn e data). split.
    + replace (pat ++ r ++ skipn e data) with (slice data p e ++ skipn e data) by (now rewrite H, <- app_assoc).
      unfold slice. rewrite <- (firstn_skipn p data) at 1. f_equal.
      rewrite <- (firstn_skipn (e - p) (skipn p data)) at 1. f_equal. rewrite skipn_skipn. f_equal. lia.
    + rewrite firstn_length. lia.
Qed.
Lemma slice_split : forall data a b c, a <= b -> b <= c -> c <= length data ->
  slice data a c = slice data a b ++ slice data b c.
Proof.
  intros data a b c H1 H2 H3. unfold slice.
  replace (skipn b data) with (skipn (b - a) (skipn a data)) by (rewrite skipn_skipn; f_equal; lia).
  generalize (skipn a data). intros l. replace (c - a) with ((b - a) + (c - b)) by lia.
  rewrite <- (firstn_skipn (b - a) l) at 1. rewrite firstn_app.
  destruct (Nat.le_gt_cases (b - a) (length l)) as [L|L].
  - rewrite firstn_length. replace (Nat.min (b - a) (length l)) with (b - a) by lia.
    rewrite firstn_all2 by (rewrite firstn_length; lia). f_equal. f_equal. lia.
  - rewrite (firstn_all2 l) by lia. rewrite firstn_all2 by lia. rewrite skipn_all2 by lia. now rewrite !firstn_nil.
Qed.
Lemma slice_pat : forall data s e pat p, within data s e pat p -> slice data p (p + length pat) = pat.
Proof.
  intros data s e pat p (_ & _ & (a & b & -> & <-)). unfold slice.
  rewrite skipn_app, skipn_all, Nat.sub_diag. cbn [app skipn].
  replace (length a + length pat - length a) with (length pat) by lia.
  rewrite firstn_app, firstn_all, Nat.sub_diag. cbn [firstn]. apply app_nil_r.
Qed.

Lemma leading_closed : forall data ov s e pat from ps, e <= length data -> pat <> [] ->
  (forall i, s <= i < e -> ov i = None) ->
  leading_matches data ov s e pat from ps -> s <= from -> from <= e ->
  exists rest, slice data from e = concat (repeat pat (length ps)) ++ rest /\ ~ exists r, rest = pat ++ r.
Proof.
  intros data ov s e pat from ps He HP HO A.
  induction A as [from N|from ps C A IH|from ps W N A IH]; intros Hs Hf.
  - exists (slice data from e). split; [reflexivity|]. intros X. apply N. now apply slice_within.
  - destruct C as [W F]. pose proof W as (_ & B & _). destruct IH as (rest & R1 & R2); try lia.
    exists rest. split; [|exact R2]. cbn [length repeat concat]. rewrite <- app_assoc, <- R1.
    rewrite (slice_split data from (from + length pat) e) by lia. f_equal. eapply slice_pat; eauto.
  - exfalso. apply N. split; auto. intros i Hi. apply HO. destruct W as (_ & B & _). lia.
Qed.

Lemma repeat_snoc_concat : forall (pat : list Z) n, concat (repeat pat n) ++ pat = pat ++ concat (repeat pat n).
Proof.
  induction n as [|n IH]; cbn [repeat concat]; [now rewrite app_nil_r|]. rewrite <- app_assoc, IH. reflexivity.
Qed.
Lemma slice_ends : forall data s e pat p, s <= p -> p + length pat <= e -> e <= length data ->
  within data s e pat p <-> exists r, slice data s (p + length pat) = r ++ pat.
Proof.
  intros data s e pat p Hs Hp He.
  assert (LP : length (slice data p (p + length pat)) = length pat) by (unfold slice; rewrite firstn_length, skipn_length; lia).
  split.
  - intros W. exists (slice data s p). rewrite (slice_split data s p (p + length pat)) by lia. f_equal. eapply slice_pat; eauto.
  - intros [r H]. rewrite (slice_split data s p (p + length pat)) in H by lia.
    assert (E : slice data p (p + length pat) = pat).
    { assert (LR : length (slice data s p) = length r).
      { apply (f_equal (@length Z)) in H. rewrite !app_length in H. lia. }
      revert H LR. generalize (slice data s p). clear. intros l. revert r.
      induction l as [|x l IH]; intros [|y r] H LR; cbn in LR; try lia; [exact H|].
      injection H as _ H. apply (IH r); auto. }
    apply slice_within; try lia. exists (slice data (p + length pat) e). rewrite (slice_split data p (p + length pat) e) by lia. now rewrite E.
Qed.
Lemma trailing_closed : forall data ov s e pat till ps, e <= length data -> pat <> [] ->
  (forall i, s <= i < e -> ov i = None) ->
  trailing_matches data ov s e pat till ps -> s <= till -> till <= e ->
  exists rest, slice data s till = rest ++ concat (repeat pat (length ps)) /\ ~ exists r, rest = r ++ pat.
Proof.
  intros data ov s e pat till ps He HP HO A.
  induction A as [till N|p ps C A IH|p ps W N A IH]; intros Hs Hf.
  - exists (slice data s till). cbn [length repeat concat]. rewrite app_nil_r. split; [reflexivity|]. intros [r X].
    assert (LS : length (slice data s till) = till - s) by (unfold slice; rewrite firstn_length, skipn_length; lia).
    rewrite X, app_length in LS. apply (N (till - length pat)); [lia|].
    apply slice_ends; try lia. exists r. now replace (till - length pat + length pat) with till by lia.
  - destruct C as [W F]. pose proof W as (B & _ & _). destruct IH as (rest & R1 & R2); try lia.
    exists rest. split; [|exact R2]. cbn [length repeat concat]. rewrite <- repeat_snoc_concat, app_assoc, <- R1.
    rewrite (slice_split data s p (p + length pat)) by lia. f_equal. eapply slice_pat; eauto.
  - exfalso. apply N. split; auto. intros i Hi. apply HO. destruct W as (B & B2 & _). lia.
Qed.

(** ** Counters *)
Definition counter_is (e : bool) (c : field) (x : Z) (k : nat) : Prop :=
  denotes e c x /\ wf_display c k /\ k <= 64 /\ a_scale (fa c) = 0%Z /\ (0 <= x)%Z.

Lemma upd_f_nth : forall cs i j v, nth_error (upd_f i v cs) j =
  if i =? j then match nth_error cs j with Some _ => Some v | None => None end else nth_error cs j.
Proof.
  induction cs as [|c cs IH]; intros [|i] [|j] v; cbn; auto.
  destruct (i =? j); reflexivity.
Qed.
Lemma upd_f_length : forall cs i v, length (upd_f i v cs) = length cs.
Proof. induction cs; intros [|i] v; cbn; auto. Qed.

Lemma total_le_self : forall i idx ns n j, i = j -> total i (j :: idx) (n :: ns) = n + total i idx ns.
Proof. intros. subst. cbn [total]. now rewrite Nat.eqb_refl. Qed.

Lemma add_counts_spec : forall m idx ns cs xs ks,
  length idx = length ns -> Forall (fun i => i < length cs) idx ->
  (forall i c, nth_error cs i = Some c -> counter_is (c_ebcdic m) c (xs i) (ks i)) ->
  (forall i, i < length cs -> (xs i + Z.of_nat (total i idx ns) < 10 ^ Z.of_nat (ks i))%Z /\ (Z.of_nat (total i idx ns) < 2 ^ 31)%Z) ->
  exists cs', add_counts m idx ns cs = Ok cs' /\ length cs' = length cs /\
    forall i c, nth_error cs' i = Some c ->
      counter_is (c_ebcdic m) c (xs i + Z.of_nat (total i idx ns))%Z (ks i).
Proof.
  induction idx as [|j idx IH]; intros ns cs xs ks HL HF HC HT.
  - exists cs. split; [reflexivity|]. split; [reflexivity|]. intros i c E. cbn [total].
    rewrite Z.add_0_r. auto.
  - destruct ns as [|n ns]; [discriminate|]. inversion HF as [|? ? HJ HF']; subst.
    destruct (nth_error cs j) as [c|] eqn:E; [|apply nth_error_None in E; lia].
    cbn [add_counts]. rewrite E.
    destruct (HC j c E) as (D & W & K & S & P).
    assert (TJ : total j (j :: idx) (n :: ns) = n + total j idx ns) by (apply total_le_self; reflexivity).
    destruct (HT j HJ) as [T1 T2]. rewrite TJ in T1, T2.
    assert (ADD : exists b c', add_int m c (Z.of_nat n) = Ok (b, c') /\ counter_is (c_ebcdic m) c' (xs j + Z.of_nat n)%Z (ks j)).
    { destruct (Nat.eq_dec n 0) as [->|NZ].
      - exists false, c. split; [reflexivity|]. change (Z.of_nat 0) with 0%Z. rewrite Z.add_0_r. repeat split; auto; apply W.
      - destruct (C14_add_int_dispatch m c (Z.of_nat n)) as (_ & DD & _).
        rewrite DD; [|lia|now destruct W].
        destruct (C14_add_display m c (xs j) (Z.of_nat n) (ks j) D W K) as (AD & _).
        + unfold is_int, INT_MIN, INT_MAX. lia.
        + unfold in_units. rewrite S. cbn [Z.leb Z.compare]. rewrite Z.pow_0_r. lia.
        + assert (IU : in_units (a_scale (fa c)) (Z.of_nat n) = Z.of_nat n).
          { unfold in_units. rewrite S. cbn [Z.leb Z.compare]. rewrite Z.pow_0_r. lia. }
          rewrite IU in AD. destruct AD as (c' & A1 & A2 & A3 & A4); [lia|].
          exists false, c'. split; [exact A1|].
          assert (HH : held c (xs j + Z.of_nat n) = (xs j + Z.of_nat n)%Z) by (unfold held; destruct (a_sign (fa c)); lia).
          rewrite HH in A4. destruct W as (W1 & W2 & W3 & W4).
          unfold f_size in A3. unfold counter_is, wf_display. rewrite A2, A3. repeat split; auto; lia. }
    destruct ADD as (b & c' & A & CI). rewrite A. cbn [obind snd].
    destruct (IH ns (upd_f j c' cs) (fun i => if j =? i then (xs i + Z.of_nat n)%Z else xs i) ks) as (cs' & R1 & R2 & R3).
    + cbn in HL. lia.
    + rewrite upd_f_length. exact HF'.
    + intros i c0 E0. rewrite upd_f_nth in E0. destruct (Nat.eqb_spec j i) as [<-|NE].
      * rewrite E in E0. injection E0 as <-. exact CI.
      * apply HC. exact E0.
    + intros i Hi. rewrite upd_f_length in Hi. destruct (Nat.eqb_spec j i) as [<-|NE].
      * lia.
      * destruct (HT i Hi) as [Q1 Q2]. cbn [total] in Q1, Q2. destruct (Nat.eqb_spec i j); [congruence|]. lia.
    + exists cs'. split; [exact R1|]. split; [rewrite R2; apply upd_f_length|].
      intros i c0 E0. specialize (R3 i c0 E0). cbn [total].
      destruct (Nat.eqb_spec j i) as [<-|NE].
      * rewrite Nat.eqb_refl. replace (xs j + Z.of_nat (n + total j idx ns))%Z with (xs j + Z.of_nat n + Z.of_nat (total j idx ns))%Z by lia. exact R3.
      * destruct (Nat.eqb_spec i j); [congruence|]. exact R3.
Qed.

Lemma tally_counts_length : forall data ov phs ns, tally_counts data ov phs ns -> length ns = length phs.
Proof. intros data ov phs ns H. induction H; cbn; auto. Qed.

(** ** Overlays that agree everywhere *)
Lemma matches_ext : forall k data ov ov' s e pat ps, ov_eq ov ov' -> matches k data ov s e pat ps -> matches k data ov' s e pat ps.
Proof.
  intros k data ov ov' s e pat ps HE A. destruct k; cbn [matches] in *.
  - eapply all_matches_same; [|exact A]. intros i _. apply HE.
  - eapply leading_matches_same; [|exact A]. intros i _. apply HE.
  - inversion A as [N|p C N]; subst.
    + apply first_none. intros p C. apply (N p). eapply candidate_ext; [|exact C]. intros i. symmetry. apply HE.
    + apply first_take; [eapply candidate_ext; eauto|]. intros q Q C'. apply (N q Q). eapply candidate_ext; [|exact C']. intros i. symmetry. apply HE.
  - eapply trailing_matches_same; [|exact A]. intros i _. apply HE.
Qed.
Lemma char_positions_ext : forall ov ov' s e ps, ov_eq ov ov' -> char_positions ov s e ps -> char_positions ov' s e ps.
Proof. intros ov ov' s e ps HE [A B]. split; auto. intros i. rewrite B, HE. reflexivity. Qed.
Lemma stamped_ext : forall ov ov' r ps vals, ov_eq ov ov' -> stamped ov r ps vals -> stamped ov' r ps vals.
Proof. intros ov ov' r ps vals HE [A B]. split; auto. intros i H. rewrite <- HE. auto. Qed.
Lemma tally_counts_ext : forall data ov ov' phs ns, ov_eq ov ov' -> tally_counts data ov phs ns -> tally_counts data ov' phs ns.
Proof.
  intros data ov ov' phs ns HE H. inversion H as [|? ov1 ph rest s e ps ns0 R T S C]; subst; [constructor|].
  eapply tc_cons; [exact R| |eapply stamped_ext; [exact HE|exact S]|exact C].
  destruct (t_what ph); cbn [taken_by] in *; [eapply char_positions_ext|eapply matches_ext]; eauto.
Qed.
Lemma replaced_ext : forall data phs ov ov' r, ov_eq ov ov' -> replaced data ov phs r ->
  exists r', replaced data ov' phs r' /\ ov_eq r r'.
Proof.
  induction phs as [|ph phs IH]; intros ov ov' r HE H.
  - inversion H; subst. exists ov'. split; [apply rp_nil|exact HE].
  - inversion H as [|? ov1 ? ? ? ? s e ps R T S C|? ov1 ? ? ? ? ? ? s e ps R L T S C|? ? ? ? ? ? ? N C]; subst.
    + exists r. split; [|intros i; reflexivity].
      eapply rp_chars; [exact R|eapply char_positions_ext; eauto|eapply stamped_ext; eauto|exact C].
    + exists r. split; [|intros i; reflexivity].
      eapply rp_pat; [exact R|exact L|eapply matches_ext; eauto|eapply stamped_ext; eauto|exact C].
    + destruct (IH _ _ _ HE C) as (r' & R1 & R2). exists r'. split; [now apply rp_ignored|exact R2].
Qed.
Lemma overlaid_ext : forall data ov ov' res, ov_eq ov ov' -> overlaid data ov res -> overlaid data ov' res.
Proof. intros data ov ov' res HE [A B]. split; auto. intros i Hi. rewrite <- HE. auto. Qed.
Lemma overlaid_unique : forall data ov r1 r2, overlaid data ov r1 -> overlaid data ov r2 -> r1 = r2.
Proof.
  intros data ov r1 r2 [A1 A2] [B1 B2]. apply (nth_ext _ _ 0%Z 0%Z); [congruence|].
  intros i Hi. rewrite A1 in Hi. rewrite A2, B2; auto.
Qed.
