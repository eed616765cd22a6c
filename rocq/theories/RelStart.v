(** START, and sequential WRITE, on RELATIVE files. *)
From Verif Require Import Base BaseFacts Stdio StdioProofs FileIO SpecFile RelProofs RelHist RelNext RelScan.

(** Items keep their number of digits. *)
Definition like (a b : option item) : Prop :=
  match a, b with None, None => True | Some i, Some j => i_digits i = i_digits j | _, _ => False end.
Lemma like_refl : forall a, like a a.
Proof. intros [i|]; cbn; auto. Qed.
Lemma like_trans : forall a b c, like a b -> like b c -> like a c.
Proof. intros [i|] [j|] [k|]; cbn; intuition congruence. Qed.

(** What a function that only reads leaves alone. *)
Definition kept (bs : list Z) (f f' : cfile) : Prop :=
  f_org f' = f_org f /\ f_access f' = f_access f /\ f_max f' = f_max f /\ f_open f' = f_open f /\ f_nonexistent f' = f_nonexistent f /\
  like (f_key f) (f_key f') /\ like (f_dep f) (f_dep f') /\ length (f_data f') = length (f_data f) /\
  exists pos, f_stream f' = Some (mkStream bs pos false).

Lemma kept_trans : forall bs f g h, kept bs f g -> kept bs g h -> kept bs f h.
Proof.
  intros bs f g h (A1 & A2 & A3 & A4 & A5 & A6 & A7 & A8 & A9) (B1 & B2 & B3 & B4 & B5 & B6 & B7 & B8 & B9). unfold kept.
  do 5 (split; [congruence|]). split; [eapply like_trans; eauto|]. split; [eapply like_trans; eauto|]. split; [congruence|auto].
Qed.

Lemma fread_eq : forall s n, fread s n = (fst (fread s n), set_pos s (s_pos s + length (fst (fread s n)))).
Proof. intros s n. reflexivity. Qed.
Lemma read_slot_size_eq : forall s r s', read_slot_size s = (r, s') ->
  exists q, s' = set_pos s q /\ (forall n, r = Some (Ok n) -> q = (s_pos s + 8)%nat).
Proof.
  intros s r s' E. unfold read_slot_size in E. rewrite fread_eq in E. set (h := fst (fread s SZ)) in *.
  injection E as <- <-. eexists. split; [reflexivity|]. intros n N. destruct (Nat.eqb_spec (length h) SZ) as [L|]; [unfold SZ in *; lia|].
  destruct (length h =? 0)%nat; discriminate.
Qed.
Lemma into_area_length : forall f bs, (length bs <= length (f_data f))%nat -> length (f_data (into_area f bs)) = length (f_data f).
Proof. intros f bs H. unfold into_area. ffields. rewrite app_length, skipn_length. lia. Qed.

Lemma seek_back : forall s p, s_append s = false -> exists pos, fseek_cur (set_pos s (p + 8)) (- Z.of_nat SZ) = Some (mkStream (s_bytes s) pos false).
Proof.
  intros s p A. unfold fseek_cur, fseek_set, set_pos. cbn [s_pos s_bytes s_append]. rewrite A.
  destruct (Z.ltb_spec (Z.of_nat (p + 8) + - Z.of_nat SZ) 0) as [H|H]; [unfold SZ in H; lia|eauto].
Qed.
Ltac kept_done := unfold kept; ffields; repeat (split; [first [reflexivity|apply like_refl|cbn [like item_set i_digits]; auto]|]).

Lemma read_body_kept : forall f s b f', s_append s = false -> read_body f s = Ok (b, f') -> kept (s_bytes s) f f'.
Proof.
  intros f s b f' A E. unfold read_body in E. rewrite fread_eq in E. set (h := fst (fread s (f_max f))) in *.
  destruct (Nat.ltb_spec (length (f_data f)) (length h)); [discriminate|]. injection E as _ <-.
  pose proof (into_area_length f h ltac:(lia)) as L. unfold into_area in *. ffields. unfold kept; ffields.
  do 5 (split; [reflexivity|]). do 2 (split; [apply like_refl|]). split; [exact L|]. unfold set_pos. rewrite A. eauto.
Qed.

Lemma next_kept : forall fuel f s st f', s_append s = false -> next_loop fuel f s = Ok (st, f') -> kept (s_bytes s) f f'.
Proof.
  induction fuel as [|fuel IH]; intros f s st f' A E; cbn [next_loop] in E; [discriminate|].
  destruct (read_slot_size s) as [r s'] eqn:R. destruct (read_slot_size_eq s r s' R) as (q & -> & Q).
  destruct r as [[n| | ]|]; cbn [obind] in E; try discriminate.
  2:{ injection E as _ <-. kept_done. unfold set_pos. rewrite A. eauto. }
  specialize (Q n eq_refl). subst q.
  set (G := match f_key (set_size n f) with None => _ | Some k => _ end) in E.
  assert (HG : exists b g, G = (b, g) /\ (f_org g = f_org f /\ f_access g = f_access f /\ f_max g = f_max f /\ f_open g = f_open f /\ f_nonexistent g = f_nonexistent f /\
    like (f_key f) (f_key g) /\ like (f_dep f) (f_dep g) /\ length (f_data g) = length (f_data f))).
  { unfold G. ffields. destruct (f_key f) as [k|] eqn:KE.
    - destruct (negb (f_first f =? 0)).
      + do 2 eexists. split; [reflexivity|]. ffields. rewrite ?KE. repeat (split; [first [reflexivity|apply like_refl|cbn [like item_set i_digits]; auto]|]). reflexivity.
      + unfold item_set_fits. destruct (_ <? _); (do 2 eexists; split; [reflexivity|]; ffields; rewrite ?KE; repeat (split; [first [reflexivity|apply like_refl|cbn [like item_set i_digits]; auto]|]); reflexivity).
    - do 2 eexists. split; [reflexivity|]. ffields. rewrite KE. repeat (split; [first [reflexivity|apply like_refl]|]). reflexivity. }
  destruct HG as (b & g & EG & g1 & g2 & g3 & g4 & g5 & g6 & g7 & g8). rewrite EG in E. clear G EG.
  assert (LIFT : forall h, kept (s_bytes s) g h -> kept (s_bytes s) f h).
  { intros h (B1 & B2 & B3 & B4 & B5 & B6 & B7 & B8 & B9). unfold kept.
    do 5 (split; [congruence|]). split; [eapply like_trans; eauto|]. split; [eapply like_trans; eauto|]. split; [congruence|auto]. }
  apply LIFT. destruct (negb b).
  - injection E as _ <-. kept_done. apply seek_back; auto.
  - destruct (0 <? n)%nat.
    + destruct (read_body g _) as [[b' h]| |] eqn:RB; cbn [obind] in E; try discriminate. injection E as _ <-.
      exact (read_body_kept g (set_pos s (s_pos s + 8)) b' h A RB).
    + destruct (fseek_cur _ _) as [s2|] eqn:FS; [|discriminate].
      unfold fseek_cur, fseek_set, set_pos in FS. cbn [s_pos s_bytes s_append] in FS. destruct (_ <? 0); [discriminate|]. injection FS as <-.
      apply IH in E; [exact E|exact A].
Qed.

Lemma start_kept : forall fuel f s cd k kx st f', s_append s = false -> f_key f = Some k -> start_loop fuel f s cd k kx = Ok (st, f') -> kept (s_bytes s) f f'.
Proof.
  induction fuel as [|fuel IH]; intros f s cd k kx st f' A KE E; cbn [start_loop] in E; [discriminate|].
  destruct (fseek_set s (slot_off f kx)) as [s1|] eqn:FS.
  2:{ injection E as _ <-. kept_done. destruct s; cbn in *; subst; eauto. }
  unfold fseek_set in FS. destruct (_ <? 0); [discriminate|]. injection FS as <-.
  match type of E with context [read_slot_size ?x] => set (s1 := x) in *; destruct (read_slot_size s1) as [r s'] eqn:R end.
  destruct (read_slot_size_eq _ r s' R) as (q & -> & Q).
  assert (A1 : s_append s1 = false) by exact A. change (s_bytes s) with (s_bytes s1).
  destruct r as [[n| | ]|]; cbn [obind] in E; try discriminate.
  2:{ injection E as _ <-. kept_done. unfold set_pos. rewrite A1. eauto. }
  specialize (Q n eq_refl). subst q. destruct (0 <? n)%nat.
  - injection E as _ <-. unfold kept. ffields. rewrite KE. repeat (split; [first [reflexivity|apply like_refl|cbn [like item_set i_digits]; auto]|]). apply seek_back; auto.
  - assert (NX : forall kx', start_loop fuel (set_size n f) (set_pos s1 (s_pos s1 + 8)) cd k kx' = Ok (st, f') -> kept (s_bytes s1) f f').
    { intros kx' E'. apply IH in E'; auto. }
    destruct cd; try (eapply NX; exact E). injection E as _ <-. kept_done. unfold set_pos. rewrite A1. eauto.
Qed.

Lemma read_kept : forall f s st f', s_append s = false -> f_stream f = Some s -> relative_read f = Ok (st, f') -> kept (s_bytes s) f f'.
Proof.
  intros f s st f' A ST E. unfold relative_read, with_stream in E. rewrite ST in E. destruct (f_key f) as [k|] eqn:KE; [|discriminate].
  destruct (fseek_set s (slot_off f (i_val k - 1))) as [s1|] eqn:FS.
  2:{ injection E as _ <-. kept_done. rewrite ST. destruct s; cbn in *; subst; eauto. }
  unfold fseek_set in FS. destruct (_ <? 0); [discriminate|]. injection FS as <-.
  match type of E with context [read_slot_size ?x] => set (s1 := x) in *; destruct (read_slot_size s1) as [r s'] eqn:R end.
  destruct (read_slot_size_eq _ r s' R) as (q & -> & Q).
  assert (A1 : s_append s1 = false) by exact A. change (s_bytes s) with (s_bytes s1).
  destruct r as [[n| | ]|]; cbn [obind] in E; try discriminate.
  2:{ injection E as _ <-. kept_done. unfold set_pos. rewrite A1. eauto. }
  specialize (Q n eq_refl). subst q. destruct (n =? 0)%nat.
  - injection E as _ <-. kept_done. apply seek_back; auto.
  - destruct (read_body _ _) as [[b' h]| |] eqn:RB; cbn [obind] in E; try discriminate. injection E as _ <-.
    exact (read_body_kept (set_size n f) (set_pos s1 (s_pos s1 + 8)) b' h A1 RB).
Qed.

(** A relative file open for reading. *)
Record browsing (hi : nat) (bs : list Z) (g : cfile) : Prop := mkBrowsing {
  b_org : f_org g = OrgRelative; b_mode : readable (f_open g) = true; b_ne : f_nonexistent g = false;
  b_max : f_max g = hi; b_area : length (f_data g) = hi; b_stream : exists pos, f_stream g = Some (mkStream bs pos false) }.

Lemma browse_op_inv : forall c hi bs g o g', browsing hi bs g -> browse_op hi o -> run_op c g o = Ok g' ->
  browsing hi bs g' /\ like (f_key g) (f_key g') /\ like (f_dep g) (f_dep g') /\ f_access g' = f_access g.
Proof.
  intros c hi bs g o g' [B1 B2 B3 B4 B5 (pos & B6)] BO E.
  assert (FIN : forall h, kept bs g h -> browsing hi bs h /\ like (f_key g) (f_key h) /\ like (f_dep g) (f_dep h) /\ f_access h = f_access g).
  { intros h (A1 & A2 & A3 & A4 & A5 & A6 & A7 & A8 & A9). split; [constructor; congruence || auto|auto]. }
  assert (SELF : forall h, kept bs (set_done false h) = kept bs h) by reflexivity.
  destruct o; cbn [browse_op] in BO; try contradiction; cbn [run_op] in E.
  - unfold ex_start in E. ffields. rewrite B3 in E.
    destruct (_ || _).
    { injection E as <-. apply FIN. kept_done. eauto. }
    unfold org_start in E. ffields. rewrite B1 in E. unfold relative_start, with_stream in E. ffields. rewrite B6 in E.
    destruct (f_key g) as [k|] eqn:KE; [|discriminate]. cbn [s_bytes] in E.
    match type of E with context [start_loop ?a ?b ?x ?y ?z ?w] => destruct (start_loop a b x y z w) as [[st h]| |] eqn:SL end; cbn [obind] in E; try discriminate.
    apply start_kept in SL; auto. injection E as <-. apply FIN.
    destruct SL as (A1 & A2 & A3 & A4 & A5 & A6 & A7 & A8 & A9). ffields. unfold kept.
    destruct (st =? 0); ffields; repeat (split; [assumption|]); auto.
  - unfold ex_read in E. ffields. rewrite B3 in E. cbn [negb andb] in E.
    destruct (f_open g) eqn:MO; try discriminate B2.
    all: unfold org_read in E; ffields; rewrite B1 in E;
    destruct (relative_read _) as [[st h]| |] eqn:SL; cbn [obind] in E; try discriminate;
    apply (read_kept _ (mkStream bs pos false)) in SL; auto; destruct SL as (A1 & A2 & A3 & A4 & A5 & A6 & A7 & A8 & A9); ffields;
    destruct (st =? 0); [|destruct (st =? 10)]; unfold ret in E; injection E as <-; apply FIN; unfold kept; ffields; repeat (split; [assumption|]); auto.
    all: destruct (f_dep h) as [d|] eqn:DH; [destruct (f_org h) eqn:OH|]; ffields; rewrite ?DH; repeat (split; [first [assumption|congruence|eapply like_trans; [exact A7|reflexivity]]|]); auto.
  - unfold ex_read in E. ffields. rewrite B3 in E. destruct (f_eof g); cbn [negb andb] in E.
    { injection E as <-. apply FIN. kept_done. eauto. }
    destruct (f_open g) eqn:MO; try discriminate B2.
    all: unfold org_read_next in E; ffields; rewrite B1 in E; unfold relative_read_next, with_stream in E; ffields; rewrite B6 in E; cbn [s_bytes] in E;
    destruct (next_loop _ _ _) as [[st h]| |] eqn:SL; cbn [obind] in E; try discriminate;
    apply next_kept in SL; auto; destruct SL as (A1 & A2 & A3 & A4 & A5 & A6 & A7 & A8 & A9); ffields;
    destruct (st =? 0); [|destruct (st =? 10)]; unfold ret in E; injection E as <-; apply FIN; unfold kept; ffields; repeat (split; [assumption|]); auto.
    all: destruct (f_dep h) as [d|] eqn:DH; [destruct (f_org h) eqn:OH|]; ffields; rewrite ?DH; repeat (split; [first [assumption|congruence|eapply like_trans; [exact A7|reflexivity]]|]); auto.
  - injection E as <-. apply FIN. unfold kept. ffields. repeat (split; [first [reflexivity|apply like_refl|congruence]|]). eauto.
  - injection E as <-. apply FIN. destruct (f_key g) as [k|] eqn:KE; unfold kept; ffields; rewrite ?KE; repeat (split; [first [reflexivity|apply like_refl|congruence]|]); eauto.
  - injection E as <-. apply FIN. destruct (f_dep g) as [k|] eqn:KE; unfold kept; ffields; rewrite ?KE; repeat (split; [first [reflexivity|apply like_refl|congruence]|]); eauto.
Qed.

Lemma map_size : forall slots k, map_of slots k <> None <-> 1 <= k /\ (0 < size_at slots (Z.to_nat (k - 1)))%nat.
Proof.
  intros slots k. unfold map_of, size_at. destruct (Z.ltb_spec k 1); [split; [congruence|lia]|].
  destruct (nth_error slots (Z.to_nat (k - 1))) as [[n d]|]; [|split; [congruence|lia]].
  destruct (Nat.ltb_spec 0 n); split; intros; try congruence; try lia.
Qed.
Lemma map_size0 : forall slots k, 1 <= k -> size_at slots (Z.to_nat (k - 1)) = 0%nat -> map_of slots k = None.
Proof. intros slots k K S. destruct (map_of slots k) eqn:M; auto. assert (H : map_of slots k <> None) by congruence. apply map_size in H. lia. Qed.

Lemma start_at : forall c hi slots g cd n i, (1 <= hi)%nat -> Forall (slot_ok hi) slots ->
  browsing hi (flat slots) g -> f_key g = Some i -> Z.of_nat (length slots) < 10 ^ i_digits i -> f_access g <> AccRandom -> 0 <= n < 10 ^ i_digits i ->
  exists g1, run_ops c g [OKey n; OStart cd] = Ok g1 /\
   ((f_status g1 = 0 /\ exists k, nearest cd (map_of slots) n k /\ f_key g1 = Some (mkItem k (i_digits i)) /\
        reading hi slots g1 (Z.to_nat (k - 1)) /\ f_dep g1 = f_dep g) \/
    (f_status g1 = 23 /\ ((forall k, ~ nearest cd (map_of slots) n k) \/ ~ served cd (map_of slots) n))).
Proof.
  intros c hi slots g cd n i H1 F [B1 B2 B3 B4 B5 (pos & B6)] KE FT AC N.
  cbn [run_ops run_op]. rewrite KE. cbn [obind]. unfold ex_start. ffields. rewrite B3.
  set (den := (match f_open g with Closed | Output | Extend => true | _ => false end || match f_access g with AccRandom => true | _ => false end)).
  assert (DN : den = false) by (unfold den; destruct (f_open g); try discriminate B2; destruct (f_access g); congruence || reflexivity). rewrite DN. clear den DN.
  unfold org_start. ffields. rewrite B1. unfold relative_start, with_stream. ffields. rewrite B6. cbn [s_bytes].
  rewrite item_set_id by lia. cbn [i_val].
  set (h := set_first 0 (set_done false (set_key (Some (mkItem n (i_digits i))) g))).
  set (kx := match cd with LT => n - 1 - 1 | GT => n - 1 + 1 | _ => n - 1 end).
  assert (LF : (length slots <= length (flat slots))%nat) by (rewrite (flat_length hi) by auto; rewrite <- (Nat.mul_1_r (length slots)) at 1; apply Nat.mul_le_mono_l; lia).
  destruct (start_spec hi slots cd (S (S (length (flat slots)))) kx h (mkItem n (i_digits i)) (mkStream (flat slots) pos false)) as (st & f' & E & R); auto.
  { destruct cd; try (destruct (0 <=? kx)); try lia. }
  match goal with |- context [start_loop ?a ?b ?x ?y ?z ?w] => change (start_loop a b x y z w) with (start_loop (S (S (length (flat slots)))) h (mkStream (flat slots) pos false) cd (mkItem n (i_digits i)) kx) end.
  rewrite E. cbn [obind]. unfold ret. cbn [obind]. eexists. split; [reflexivity|].
  destruct R as [(-> & x & X0 & X1 & X2 & X3 & X4 & X5 & X6 & X7) | (-> & X1 & X2 & X3 & X4 & X5 & X6)].
  - left. change (0 =? 0) with true. cbv iota. ffields. split; auto. exists (x + 1).
    assert (LX : (Z.to_nat x < length slots)%nat).
    { destruct (Nat.lt_ge_cases (Z.to_nat x) (length slots)); auto. rewrite size_at_out in X1 by auto. lia. }
    destruct X5 as (M1 & M2 & M3 & M4 & M5 & M6 & M7 & M8 & M9 & M10 & M11 & M12). unfold h in *. ffields.
    split; [|split; [|split]].
    + split; [unfold kx in X4; destruct cd; cbn [sat]; lia|]. split; [apply map_size; replace (x + 1 - 1) with x by lia; lia|].
      intros j SJ MJ. apply map_size in MJ. destruct MJ as [MJ1 MJ2]. unfold kx in X4.
      destruct cd; cbn [sat] in SJ; try lia; destruct X4 as [X4 X4'].
      * destruct (Z.le_gt_cases j (x + 1)); auto. rewrite (X4' (j - 1)) in MJ2 by lia. lia.
      * destruct (Z.le_gt_cases j (x + 1)); auto. rewrite (X4' (j - 1)) in MJ2 by lia. lia.
      * destruct (Z.le_gt_cases (x + 1) j); auto. rewrite (X4' (j - 1)) in MJ2 by lia. lia.
      * destruct (Z.le_gt_cases (x + 1) j); auto. rewrite (X4' (j - 1)) in MJ2 by lia. lia.
    + rewrite X2. f_equal. rewrite item_set_id; cbn [i_digits]; auto. lia.
    + replace (x + 1 - 1) with x by lia. constructor; ffields; try congruence. 
    + congruence.
  - right. change (23 =? 0) with false. cbv iota. ffields. split; auto. unfold kx in X6.
    destruct cd; cbn [served].
    + left. intros k (K1 & K2 & _). cbn [sat] in K1. subst k. apply map_size in K2. lia.
    + destruct X6 as [X6|X6].
      * right. intros (j & J1 & J2). apply map_size in J2.
        destruct (Nat.lt_ge_cases (Z.to_nat (j - 1)) (length slots)); [lia|]. rewrite size_at_out in J2 by auto. lia.
      * left. intros k (K1 & K2 & _). cbn [sat] in K1. apply map_size in K2. rewrite X6 in K2 by lia. lia.
    + destruct X6 as [X6|X6].
      * right. intros (j & J1 & J2). apply map_size in J2.
        destruct (Nat.lt_ge_cases (Z.to_nat (j - 1)) (length slots)); [lia|]. rewrite size_at_out in J2 by auto. lia.
      * left. intros k (K1 & K2 & _). cbn [sat] in K1. apply map_size in K2. rewrite X6 in K2 by lia. lia.
    + destruct X6 as [X6|X6]; [lia|]. left. intros k (K1 & K2 & _). cbn [sat] in K1. apply map_size in K2. rewrite X6 in K2 by lia. lia.
    + destruct X6 as [X6|X6]; [right; lia|]. left. intros k (K1 & K2 & _). cbn [sat] in K1. apply map_size in K2. rewrite X6 in K2 by lia. lia.
Qed.

(** Sequential WRITE. *)
Lemma seq_write_step : forall c f slots n d, f_org f = OrgRelative -> f_access f = AccSequential -> f_open f = Output ->
  Forall (slot_ok (f_max f)) slots -> (f_min f <= n <= f_max f)%nat -> (1 <= f_max f)%nat -> length d = f_max f -> dep_fits (f_max f) (f_dep f) ->
  f_stream f = Some (mkStream (flat slots) (length slots * (f_max f + 8)) false) ->
  exists f', run_ops c f [ODep (Z.of_nat n); OSet d; OWrite n WNone] = Ok f' /\ f_status f' = 0 /\
    f_org f' = OrgRelative /\ f_access f' = AccSequential /\ f_open f' = Output /\ f_max f' = f_max f /\ f_min f' = f_min f /\ f_nonexistent f' = f_nonexistent f /\
    like (f_dep f) (f_dep f') /\ f_stream f' = Some (mkStream (flat (slots ++ [(n, d)])) (length (slots ++ [(n, d)]) * (f_max f + 8)) false) /\
    f_key f' = match f_key f with Some k => Some (item_set k (Z.of_nat (S (length slots)))) | None => None end.
Proof.
  intros c f slots n d O A OP F NB M1 DL DF ST.
  assert (E1 : exists g, run_op c f (ODep (Z.of_nat n)) = Ok g /\ g = set_dep (match f_dep f with Some k => Some (mkItem (Z.of_nat n) (i_digits k)) | None => None end) f).
  { cbn [run_op]. destruct (f_dep f) as [k|] eqn:DE.
    - eexists. split; [reflexivity|]. cbn [dep_fits] in DF. rewrite item_set_id by lia. reflexivity.
    - eexists. split; [reflexivity|]. destruct f; ffields. subst. reflexivity. }
  destruct E1 as (g & E1 & EG). cbn [run_ops]. rewrite E1. cbn [obind]. cbn [run_op obind].
  unfold ex_write. subst g. ffields. rewrite A, OP.
  set (len := match match f_dep f with Some k => _ | None => _ end with Some dd => Z.to_nat (i_val dd) | None => n end).
  assert (EL : len = n) by (unfold len; destruct (f_dep f); cbn [i_val]; lia). rewrite EL. clear len EL.
  destruct (Nat.ltb_spec n (f_min f)); [lia|]. destruct (Nat.ltb_spec (f_max f) n); [lia|]. cbn [orb].
  unfold org_write. ffields. rewrite O. unfold relative_write, with_stream. ffields. rewrite A, ST. cbn [obind].
  unfold SZ at 1; rewrite (fread_out (f_max f) slots (length slots) false F) by lia. cbn [length Nat.eqb andb s_pos]. unfold set_pos. cbn [s_bytes s_append].
  match goal with |- context [write_slot ?h _] => set (hh := h) end.
  assert (WS := write_slot_out hh slots (length slots) F ltac:(lia) DL M1).
  change (f_max hh) with (f_max f) in WS. rewrite WS. cbn [obind]. change (negb (0 =? 0)) with false. cbv iota.
  rewrite Nat.sub_diag. cbn [repeat app]. unfold hh. ffields. rewrite A. unfold ret. cbn [obind].
  eexists. split; [reflexivity|]. unfold relsize, SZ. ffields.
  replace ((length slots * (f_max f + 8) + (f_max f + 8)) / (f_max f + 8))%nat with (S (length slots))
    by (symmetry; rewrite <- (Nat.mul_succ_l (length slots)); apply Nat.div_mul; lia).
  rewrite app_length. cbn [length]. replace (length slots + 1)%nat with (S (length slots)) by lia.
  assert (LK : like (f_dep f) (match f_dep f with Some k => Some (mkItem (Z.of_nat n) (i_digits k)) | None => None end)) by (destruct (f_dep f); cbn; auto).
  destruct (f_key f) eqn:KE; ffields; rewrite ?KE; repeat (split; [first [reflexivity|assumption]|]); reflexivity.
Qed.

Lemma seq_write_all : forall c recs f slots, f_org f = OrgRelative -> f_access f = AccSequential -> f_open f = Output -> f_nonexistent f = false ->
  Forall (slot_ok (f_max f)) slots -> (1 <= f_max f)%nat -> dep_fits (f_max f) (f_dep f) -> Z.of_nat (f_max f) < 256 ^ 8 ->
  Forall (fun r : frec => (f_min f <= fst r <= f_max f)%nat /\ length (snd r) = f_max f) recs ->
  f_stream f = Some (mkStream (flat slots) (length slots * (f_max f + 8)) false) ->
  exists f', run_ops c f (flat_map (fun r => [ODep (Z.of_nat (fst r)); OSet (snd r); OWrite (fst r) WNone]) recs ++ [OClose CloseNormal]) = Ok f' /\
    f_status f' = 0 /\ f_open f' = Closed /\ f_disk f' = Some (flat (slots ++ recs)).
Proof.
  intros c. induction recs as [|[n d] recs IH]; intros f slots O A OP NE F M1 DF B FR ST.
  - cbn [flat_map app run_ops run_op]. unfold ex_close. ffields. rewrite OP, NE. unfold file_close, with_stream. ffields. rewrite ST, O. cbn [obind].
    change (0 =? 0) with true. cbv iota. unfold ret. cbn [obind]. eexists. split; [reflexivity|]. ffields. rewrite app_nil_r. auto.
  - apply Forall_cons_iff in FR. destruct FR as [[R1 R2] FR]. cbn [fst snd] in R1, R2.
    destruct (seq_write_step c f slots n d O A OP F R1 M1 R2 DF ST) as (f1 & E & S1 & O1 & A1 & OP1 & MX1 & MN1 & NE1 & LK & ST1 & _).
    destruct (IH f1 (slots ++ [(n, d)])) as (f2 & E2 & S2 & O2 & D2); auto; rewrite ?MX1, ?MN1; auto.
    + congruence.
    + apply Forall_app. split; auto. constructor; [|constructor]. split; cbn [fst snd]; auto. lia.
    + unfold dep_fits, like in *. destruct (f_dep f), (f_dep f1); auto; congruence || contradiction.
    + exists f2. cbn [flat_map fst snd]. rewrite <- app_assoc in D2. cbn [app] in D2. split; auto.
      cbn [app]. cbn [run_ops] in E |- *.
      destruct (run_op c f (ODep (Z.of_nat n))) as [g1| |]; cbn [obind] in *; try discriminate.
      destruct (run_op c g1 (OSet d)) as [g2| |]; cbn [obind] in *; try discriminate.
      destruct (run_op c g2 (OWrite n WNone)) as [g3| |]; cbn [obind] in *; try discriminate. injection E as <-. exact E2.
Qed.
