(** READ NEXT and START on RELATIVE files. *)
From Verif Require Import Base BaseFacts Stdio StdioProofs FileIO SpecFile RelProofs RelHist.

Ltac ffields := cbn [f_org f_access f_optional f_min f_max f_dep f_key f_data f_size f_open f_nonexistent f_eof f_bof f_first f_read_done f_needs_nl f_stream f_disk f_status
   set_dep set_key set_data set_size set_open set_flags set_first set_done set_nl set_stream set_disk set_status] in *.

Definition size_at (l : list slot) (i : nat) : nat := match nth_error l i with Some (n, _) => n | None => 0%nat end.

(** What the functions below leave alone. *)
Definition frame (f f' : cfile) : Prop :=
  f_org f' = f_org f /\ f_access f' = f_access f /\ f_optional f' = f_optional f /\ f_min f' = f_min f /\ f_max f' = f_max f /\
  f_dep f' = f_dep f /\ f_open f' = f_open f /\ f_nonexistent f' = f_nonexistent f /\ f_eof f' = f_eof f /\ f_bof f' = f_bof f /\
  f_read_done f' = f_read_done f /\ f_disk f' = f_disk f.
Lemma frame_refl : forall f, frame f f.
Proof. intros; unfold frame; intuition. Qed.

Definition fits (k : option item) (n : nat) : Prop :=
  match k with None => True | Some d => Z.of_nat n < 10 ^ i_digits d end.

Lemma next_spec : forall mx slots fuel p f, f_max f = mx -> (1 <= mx)%nat -> Forall (slot_ok mx) slots ->
  length (f_data f) = mx -> fits (f_key f) (length slots) -> (length slots - p < fuel)%nat ->
  exists st f', next_loop fuel f (mkStream (flat slots) (p * (mx + 8)) false) = Ok (st, f') /\ frame f f' /\
    ((st = 0 /\ exists i n d, (p <= i)%nat /\ nth_error slots i = Some (n, d) /\ (0 < n)%nat /\
        (forall j, (p <= j < i)%nat -> size_at slots j = 0%nat) /\
        f_data f' = d /\ f_size f' = n /\ f_stream f' = Some (mkStream (flat slots) (S i * (mx + 8)) false) /\
        f_key f' = match f_key f with None => None
                   | Some k => Some (if negb (f_first f =? 0) && (i =? p)%nat then item_set k 1 else mkItem (Z.of_nat i + 1) (i_digits k)) end) \/
     (st = 10 /\ (forall j, (p <= j)%nat -> size_at slots j = 0%nat) /\ f_data f' = f_data f /\
        (exists q, f_stream f' = Some (mkStream (flat slots) (q * (mx + 8)) false)) /\
        match f_key f, f_key f' with
        | None, None => True
        | Some k, Some k' => i_digits k' = i_digits k /\ (k' = k \/ i_val k' = 1 \/ Z.of_nat p + 1 <= i_val k') /\ (k' = k \/ i_val k' <= Z.of_nat (length slots))
        | _, _ => False
        end)).
Proof.
  intros mx slots. induction fuel as [|fuel IH]; intros p f MX M1 F DL FT FU; [lia|].
  cbn [next_loop]. destruct (nth_error slots p) as [[n d]|] eqn:N.
  - rewrite (read_size_in mx slots p (n, d) false F N). cbn [obind fst]. ffields.
    assert (LI : (p < length slots)%nat) by (apply nth_error_Some; congruence).
    pose proof (proj1 (Forall_forall _ _) F _ (nth_error_In _ _ N)) as [RL RS]. cbn [fst snd] in RL, RS.
    set (g0 := match f_key f with None => _ | Some k => _ end).
    set (kk := match f_key f with None => None | Some k => Some (if negb (f_first f =? 0) then item_set k 1 else mkItem (Z.of_nat p + 1) (i_digits k)) end).
    assert (EG : exists fr, g0 = (true, set_first fr (set_key kk (set_size n f))) /\ (f_key f <> None -> fr = 0)).
    { unfold g0, kk. destruct (f_key f) as [k|] eqn:KE.
      - exists 0. split; auto. destruct (negb (f_first f =? 0)) eqn:FR; [reflexivity|].
        cbn [s_pos]. unfold relsize. ffields. rewrite MX. unfold SZ.
        replace ((p * (mx + 8) + 8) / (mx + 8))%nat with p.
        2:{ rewrite Nat.div_add_l by lia. rewrite (Nat.div_small 8 (mx + 8)) by lia. now rewrite Nat.add_0_r. }
        unfold item_set_fits. unfold fits in FT.
        destruct (Z.ltb_spec (Z.of_nat p + 1) (10 ^ i_digits k)); [|lia].
        apply negb_false_iff, Z.eqb_eq in FR. destruct f; ffields. subst. reflexivity.
      - exists (f_first f). split; [|congruence]. destruct f; ffields. subst. reflexivity. }
    destruct EG as (fr & EG & FR0). rewrite EG. cbn [negb].
    destruct (Nat.ltb_spec 0 n) as [NP|NP].
    + unfold read_body. ffields. rewrite MX. rewrite (fread_body mx slots p (n, d) false F N). cbn [snd].
      rewrite DL, RL, Nat.ltb_irrefl, Nat.eqb_refl. cbn [andb]. destruct (Nat.ltb_spec 0 mx); [|lia]. cbn [obind].
      eexists 0, _. split; [reflexivity|]. rewrite into_area_all by (ffields; lia). split; [unfold frame; ffields; intuition|].
      left. split; auto. exists p, n, d. repeat (split; [first [lia|auto|intros j J; lia]|]); ffields.
      unfold kk. destruct (f_key f); auto. rewrite Nat.eqb_refl, andb_true_r. reflexivity.
    + assert (n = 0%nat) by lia. subst n. unfold fseek_cur, fseek_set. cbn [s_pos]. ffields. rewrite MX.
      destruct (Z.ltb_spec (Z.of_nat (p * (mx + 8) + 8) + Z.of_nat mx) 0); [lia|]. unfold set_pos. cbn [s_bytes s_append].
      replace (Z.to_nat (Z.of_nat (p * (mx + 8) + 8) + Z.of_nat mx)) with (S p * (mx + 8))%nat by lia.
      set (g := set_first fr (set_key kk (set_size 0 f))).
      assert (FTG : fits (f_key g) (length slots)).
      { unfold g, fits, kk in *. ffields. destruct (f_key f) as [k|]; auto. destruct (negb (f_first f =? 0)); cbn [item_set i_digits]; auto. }
      destruct (IH (S p) g) as (st & f' & E & FRM & R); unfold g; ffields; auto; try lia. fold g.
      exists st, f'. split; [exact E|]. split.
      { unfold frame in *. unfold g in FRM. ffields. intuition congruence. }
      assert (SP : size_at slots p = 0%nat) by (unfold size_at; now rewrite N).
      destruct R as [(-> & i & n' & d' & I1 & I2 & I3 & I4 & I5 & I6 & I7 & I8) | (-> & I1 & I2 & I3 & I4)].
      * left. split; auto. exists i, n', d'. split; [lia|]. split; [auto|]. split; [auto|]. split; [|split; [auto|split; [auto|split; [auto|]]]].
        -- intros j J. destruct (Nat.eq_dec j p) as [->|]; auto. apply I4. lia.
        -- rewrite I8. unfold g, kk. ffields. destruct (f_key f) as [k|]; auto.
           assert (fr = 0) by (apply FR0; congruence). subst fr. cbn [negb andb].
           destruct (Nat.eqb_spec i p); [lia|]. rewrite andb_false_r. change (0 =? 0) with true. cbn [negb andb].
           destruct (negb (f_first f =? 0)); reflexivity.
      * right. split; auto. split; [|split; [exact I2|split; [exact I3|]]].
        2:{ unfold g, kk in I4. ffields. destruct (f_key f) as [k|]; [|exact I4]. unfold fits in FT. destruct (f_key f') as [k'|]; [|contradiction].
            set (k1 := if negb (f_first f =? 0) then item_set k 1 else mkItem (Z.of_nat p + 1) (i_digits k)) in *.
            assert (K1 : i_digits k1 = i_digits k /\ (i_val k1 = 1 \/ i_val k1 = Z.of_nat p + 1)).
            { unfold k1. destruct (negb (f_first f =? 0)); cbn [item_set i_digits i_val]; split; auto. left. apply Z.mod_small. lia. }
            destruct K1 as (D1 & V1). destruct I4 as (D & A & B). split; [congruence|].
            split; [destruct A as [->|[A|A]]; [destruct V1; lia|lia|lia]|destruct B as [->|B]; [destruct V1; lia|lia]]. }
        intros j J. destruct (Nat.eq_dec j p) as [->|]; auto. apply I1. lia.
  - apply nth_error_None in N. rewrite (read_size_out mx slots p false F N).
    eexists 10, _. split; [reflexivity|]. split; [unfold frame; ffields; intuition|]. right. split; auto.
    split; [|split; [reflexivity|ffields; split; [eauto|]; destruct (f_key f); auto]]. intros j J. unfold size_at. rewrite (proj2 (nth_error_None slots j)); [auto|lia].
Qed.

(** START. *)
Lemma start_spec : forall mx slots cd fuel kx f k s, f_max f = mx -> Forall (slot_ok mx) slots ->
  s_bytes s = flat slots -> s_append s = false ->
  (match cd with LT | LE => Z.to_nat (Z.min (kx + 1) (Z.of_nat (length slots) + 1))%Z | _ => (length slots - Z.to_nat kx) + (if (0 <=? kx)%Z then 0 else 1) end < fuel)%nat ->
  exists st f', start_loop fuel f s cd k kx = Ok (st, f') /\
    ((st = 0 /\ exists i, 0 <= i /\ (0 < size_at slots (Z.to_nat i))%nat /\ f_key f' = Some (item_set k (i + 1)) /\
        f_stream f' = Some (mkStream (flat slots) (Z.to_nat i * (mx + 8)) false) /\
        match cd with
        | EQ => i = kx
        | LT | LE => i <= kx /\ forall j, i < j <= kx -> size_at slots (Z.to_nat j) = 0%nat
        | GT | GE => kx <= i /\ forall j, kx <= j < i -> size_at slots (Z.to_nat j) = 0%nat
        end /\ frame f f' /\ f_data f' = f_data f /\ f_first f' = f_first f) \/
     (st = 23 /\ (exists p, f_stream f' = Some (mkStream (flat slots) p false)) /\ f_key f' = f_key f /\ frame f f' /\ f_data f' = f_data f /\ f_first f' = f_first f /\
        match cd with
        | EQ => kx < 0 \/ size_at slots (Z.to_nat kx) = 0%nat
        | LT | LE => Z.of_nat (length slots) <= kx \/ forall j, 0 <= j <= kx -> size_at slots (Z.to_nat j) = 0%nat
        | GT | GE => kx < 0 \/ forall j, kx <= j -> size_at slots (Z.to_nat j) = 0%nat
        end)).
Proof.
  intros mx slots cd. induction fuel as [|fuel IH]; intros kx f k s MX F SB SA FU; [lia|].
  cbn [start_loop]. destruct (Z.ltb_spec kx 0) as [K|K].
  - rewrite seek_slot_neg by auto. eexists 23, _. split; [reflexivity|]. right. split; auto. ffields.
    split; [destruct s as [sb sp sa]; cbn [s_bytes s_append] in *; subst; eauto|]. split; auto. split; [unfold frame; ffields; intuition|]. split; auto. split; auto.
    destruct cd; try (left; exact K); right; intros; lia.
  - rewrite seek_slot by auto. unfold set_pos. rewrite SB, SA, MX.
    destruct (nth_error slots (Z.to_nat kx)) as [[n d]|] eqn:N.
    + rewrite (read_size_in mx slots _ (n, d) false F N). cbn [obind fst].
      assert (LI : (Z.to_nat kx < length slots)%nat) by (apply nth_error_Some; congruence).
      assert (SK : size_at slots (Z.to_nat kx) = n) by (unfold size_at; now rewrite N).
      destruct (Nat.ltb_spec 0 n) as [NP|NP].
      * unfold fseek_cur, fseek_set. cbn [s_pos].
        destruct (Z.ltb_spec (Z.of_nat (Z.to_nat kx * (mx + 8) + 8) + - Z.of_nat SZ) 0); [unfold SZ in *; lia|].
        unfold set_pos. cbn [s_bytes s_append].
        eexists 0, _. split; [reflexivity|]. left. split; auto. exists kx. ffields. repeat split; auto; try lia.
        -- do 2 f_equal. unfold SZ. lia.
        -- destruct cd; auto; split; try lia; intros; lia.
      * destruct n; [|lia].
        assert (STEP : forall kx', 
          (match cd with LT | LE => Z.to_nat (Z.min (kx' + 1) (Z.of_nat (length slots) + 1))%Z | _ => (length slots - Z.to_nat kx') + (if (0 <=? kx')%Z then 0 else 1) end < fuel)%nat ->
          cd = EQ \/ kx' = match cd with LT | LE => kx - 1 | _ => kx + 1 end ->
          cd <> EQ -> 
          exists st f', start_loop fuel (set_size 0 f) (mkStream (flat slots) (Z.to_nat kx * (mx + 8) + 8) false) cd k kx' = Ok (st, f') /\
    ((st = 0 /\ exists i, 0 <= i /\ (0 < size_at slots (Z.to_nat i))%nat /\ f_key f' = Some (item_set k (i + 1)) /\
        f_stream f' = Some (mkStream (flat slots) (Z.to_nat i * (mx + 8)) false) /\
        match cd with
        | EQ => i = kx
        | LT | LE => i <= kx /\ forall j, i < j <= kx -> size_at slots (Z.to_nat j) = 0%nat
        | GT | GE => kx <= i /\ forall j, kx <= j < i -> size_at slots (Z.to_nat j) = 0%nat
        end /\ frame f f' /\ f_data f' = f_data f /\ f_first f' = f_first f) \/
     (st = 23 /\ (exists p, f_stream f' = Some (mkStream (flat slots) p false)) /\ f_key f' = f_key f /\ frame f f' /\ f_data f' = f_data f /\ f_first f' = f_first f /\
        match cd with
        | EQ => kx < 0 \/ size_at slots (Z.to_nat kx) = 0%nat
        | LT | LE => Z.of_nat (length slots) <= kx \/ forall j, 0 <= j <= kx -> size_at slots (Z.to_nat j) = 0%nat
        | GT | GE => kx < 0 \/ forall j, kx <= j -> size_at slots (Z.to_nat j) = 0%nat
        end))).
        { intros kx' FU' EK NE.
          destruct (IH kx' (set_size 0 f) k (mkStream (flat slots) (Z.to_nat kx * (mx + 8) + 8) false)) as (st & f' & E & R); auto.
          exists st, f'. split; [exact E|].
          assert (KX : forall j, j = kx -> size_at slots (Z.to_nat j) = 0%nat) by (intros; subst; auto).
          destruct R as [(-> & i & I1 & I2 & I3 & I4 & I5 & I6 & I7 & I8) | (-> & I1 & I2 & I3 & I4 & I5 & I6)].
          - left. split; auto. exists i. split; [auto|]. split; [auto|]. split; [auto|]. split; [auto|]. split; [|split; [exact I6|split; auto]].
            destruct cd; [congruence| | | |]; (destruct EK as [EK|EK]; [discriminate|]); destruct I5 as [I5 I5']; (split; [lia|]); intros j J;
              (destruct (Z.eq_dec j kx) as [->|]; [auto|apply I5'; lia]).
          - right. split; [auto|]. split; [auto|]. split; [auto|]. split; [exact I3|]. split; [auto|]. split; [auto|].
            destruct cd; [congruence| | | |]; (destruct EK as [EK|EK]; [discriminate|]); destruct I6 as [I6|I6]; try lia;
              right; intros j J; (destruct (Z.eq_dec j kx) as [->|]; [auto|apply I6; lia]). }
        destruct cd.
        -- eexists 23, _. split; [reflexivity|]. right. ffields. split; auto. split; eauto. split; auto. split; [unfold frame; ffields; intuition|]. split; auto.
        -- refine (STEP (kx - 1) _ _ _); [lia|auto|discriminate].
        -- refine (STEP (kx - 1) _ _ _); [lia|auto|discriminate].
        -- refine (STEP (kx + 1) _ _ _); [|auto|discriminate]. destruct (Z.leb_spec 0 (kx + 1)); destruct (Z.leb_spec 0 kx); lia.
        -- refine (STEP (kx + 1) _ _ _); [|auto|discriminate]. destruct (Z.leb_spec 0 (kx + 1)); destruct (Z.leb_spec 0 kx); lia.
    + assert (LE' : (length slots <= Z.to_nat kx)%nat) by (apply nth_error_None; auto).
      rewrite (read_size_out mx slots _ false F LE'). eexists 23, _. split; [reflexivity|]. right. ffields.
      split; auto. split; eauto. split; auto. split; [unfold frame; ffields; intuition|]. split; auto. split; auto.
      assert (OUT : forall j, kx <= j -> size_at slots (Z.to_nat j) = 0%nat).
      { intros j J. unfold size_at. rewrite (proj2 (nth_error_None slots (Z.to_nat j))); auto. lia. }
      destruct cd; auto; try (right; apply OUT; lia); try (left; lia).
Qed.
