(** SEQUENTIAL files: the record formats. *)
From Verif Require Import Base BaseFacts Stdio StdioProofs FileIO SpecFile SpecSeq RelHist RelNext SeqHist.

Lemma fwrite_tail : forall l p ap y, ap = true \/ p = length l ->
  exists p', fwrite (mkStream l p ap) y = mkStream (l ++ y) p' ap /\ (ap = true \/ p' = length (l ++ y)).
Proof.
  intros l p ap y H. unfold fwrite. cbn [s_append s_bytes s_pos]. destruct y as [|b y].
  - exists p. rewrite app_nil_r. auto.
  - set (q := if ap then length l else p). assert (EQ : q = length l) by (unfold q; destruct ap; auto; destruct H; [discriminate|auto]).
    rewrite EQ, write_at_end. eexists. split; [reflexivity|]. right. rewrite app_length. reflexivity.
Qed.

Section Seq.
Variables (c : iocfg) (lo hi : nat).
Hypothesis LO : (1 <= lo <= hi)%nat.
Hypothesis PM : Z.of_nat hi < prefix_max (io_varseq c).

Definition head (n : nat) : list Z := if (lo =? hi)%nat then [] else head_enc (io_varseq c) (Z.of_nat n).
Definition enc_rec (r : list Z) : list Z := head (length r) ++ r.
Definition valid_rec (r : list Z) : Prop := (lo <= length r <= hi)%nat.

Lemma head_len : forall n, lo <> hi -> length (head n) = head_width (io_varseq c).
Proof.
  intros n H. unfold head. destruct (Nat.eqb_spec lo hi); [contradiction|]. unfold head_enc, head_width.
  destruct (io_varseq c) as [|[|[|v]]]; rewrite ?app_length, ?be_enc_length, ?le_enc_length; reflexivity.
Qed.
Lemma head_len_any : forall n m, length (head n) = length (head m).
Proof.
  intros n m. destruct (Nat.eq_dec lo hi) as [E|E]; [|rewrite !head_len by auto; auto].
  unfold head. now rewrite (proj2 (Nat.eqb_eq lo hi) E).
Qed.
Lemma head_dec_enc : forall n, (n <= hi)%nat -> head_dec (io_varseq c) (head_enc (io_varseq c) (Z.of_nat n)) = Z.of_nat n.
Proof.
  intros n H. unfold head_dec, head_enc, prefix_max in *. destruct (io_varseq c) as [|[|[|v]]].
  - change 2%nat with (length (be_enc 2 (Z.of_nat n mod 65536))) at 1. rewrite firstn_app_exact.
    rewrite Z.mod_small by lia. apply be_dec_enc. change (256 ^ Z.of_nat 2) with 65536. lia.
  - rewrite Z.mod_small by lia. apply be_dec_enc. change (256 ^ Z.of_nat 4) with (2 ^ 32). lia.
  - apply le_dec_enc. change (256 ^ Z.of_nat 8) with (2 ^ 64). lia.
  - rewrite Z.mod_small by lia. apply be_dec_enc. change (256 ^ Z.of_nat 2) with 65536. lia.
Qed.

Lemma seq_write_ok : forall ld f (r : list (list Z)) n p ap x, seq_op lo hi ld (OWrite n x) -> f_org f = OrgSequential -> f_min f = lo -> f_max f = hi -> length (f_data f) = hi -> True -> f_needs_nl f = false ->
  (lo <= f_size f <= hi)%nat -> f_stream f = Some (mkStream (encs enc_rec r) p ap) -> ap = true \/ p = length (encs enc_rec r) ->
  exists t p', org_write c f x = Ok (0, set_nl false (set_stream (Some (mkStream (encs enc_rec (r ++ [t])) p' ap)) f)) /\
    seq_keeps (firstn (f_size f) (f_data f)) t /\ valid_rec t /\ (ap = true \/ p' = length (encs enc_rec (r ++ [t]))).
Proof.
  intros ld f r n p ap x [-> _] O MN MX DL _ NL SZ ST AP. unfold org_write. rewrite O. unfold sequential_write, with_stream. rewrite ST, MN, MX, NL.
  set (t := firstn (f_size f) (f_data f)). assert (LT : length t = f_size f) by (unfold t; rewrite firstn_length; lia).
  rewrite DL. destruct (Nat.ltb_spec hi (f_size f)); [lia|]. destruct (Nat.eqb_spec (f_size f) 0); [lia|].
  assert (H1 : exists p1, (if (lo =? hi)%nat then mkStream (encs enc_rec r) p ap else fwrite (mkStream (encs enc_rec r) p ap) (head_enc (io_varseq c) (Z.of_nat (f_size f)))) =
     mkStream (encs enc_rec r ++ head (length t)) p1 ap /\ (ap = true \/ p1 = length (encs enc_rec r ++ head (length t)))).
  { rewrite LT. unfold head. destruct (lo =? hi)%nat; [exists p; rewrite app_nil_r; auto|]. apply fwrite_tail. exact AP. }
  destruct H1 as (p1 & E1 & P1). rewrite E1. destruct (fwrite_tail (encs enc_rec r ++ head (length t)) p1 ap t P1) as (p2 & E2 & P2). rewrite E2.
  exists t, p2. rewrite encs_app, encs_one. unfold enc_rec at 2 4. rewrite <- app_assoc in P2 |- *. split; [reflexivity|]. split; [reflexivity|]. split; [unfold valid_rec; lia|exact P2].
Qed.

Lemma seq_read_ok : forall f t A B, f_org f = OrgSequential -> f_min f = lo -> f_max f = hi -> length (f_data f) = hi -> True -> valid_rec t -> (lo = hi \/ false = true -> f_size f = hi) ->
  f_stream f = Some (mkStream (A ++ enc_rec t ++ B) (length A) false) ->
  exists f1, org_read_next c f = Ok (0, f1) /\
    f_org f1 = OrgSequential /\ f_access f1 = f_access f /\ f_optional f1 = f_optional f /\ f_nonexistent f1 = f_nonexistent f /\
    f_min f1 = lo /\ f_max f1 = hi /\ f_open f1 = f_open f /\ f_needs_nl f1 = f_needs_nl f /\ f_disk f1 = f_disk f /\
    f_data f1 = seq_fetch (f_data f) t /\ length (f_data f1) = hi /\ True /\
    f_stream f1 = Some (mkStream (A ++ enc_rec t ++ B) (length (A ++ enc_rec t)) false) /\
    (lo = hi \/ false = true -> f_size f1 = hi) /\ (false = false -> f_size f1 = length t) /\
    (f_dep f1 = f_dep f /\ f_size f1 = length t).
Proof.
  intros f t A B O MN MX DL _ VT SZ ST. unfold valid_rec in VT.
  assert (H : exists g, org_read_next c f = Ok (0, set_stream (Some (mkStream (A ++ enc_rec t ++ B) (length (A ++ enc_rec t)) false)) (into_area g t)) /\ g = set_size (length t) f).
  { unfold org_read_next. rewrite O. unfold sequential_read, with_stream. rewrite ST, MN, MX.
    destruct (Nat.eqb_spec lo hi) as [E|E].
    - assert (ER : enc_rec t = t) by (unfold enc_rec, head; rewrite (proj2 (Nat.eqb_eq lo hi) E); reflexivity). rewrite ER in *.
      assert (LT : length t = hi) by lia. assert (SZ' : f_size f = length t) by (rewrite (SZ (or_introl E)); lia). rewrite SZ'.
      rewrite (fread_all (mkStream (A ++ t ++ B) (length A) false) A t B) by reflexivity.
      rewrite DL. destruct (Nat.ltb_spec hi (length t)); [lia|]. unfold into_area. ffields. rewrite ?SZ', Nat.eqb_refl.
      exists f. unfold set_pos. cbn [s_bytes s_append]. split; [reflexivity|].
      clear - SZ'. destruct f; ffields. subst. reflexivity.
    - assert (EH : head (length t) = head_enc (io_varseq c) (Z.of_nat (length t))) by (unfold head; destruct (Nat.eqb_spec lo hi); [contradiction|reflexivity]).
      pose proof (head_len (length t) E) as HL. unfold enc_rec. rewrite <- (app_assoc (head (length t))).
      rewrite <- HL. rewrite (fread_all (mkStream (A ++ head (length t) ++ t ++ B) (length A) false) A (head (length t)) (t ++ B)) by reflexivity.
      rewrite Nat.eqb_refl. rewrite EH, head_dec_enc, <- EH, Nat2Z.id by lia. ffields.
      rewrite (fread_all _ (A ++ head (length t)) t B) by (unfold set_pos; cbn [s_bytes s_pos]; rewrite ?app_length, <- ?app_assoc; try lia; reflexivity).
      rewrite DL. destruct (Nat.ltb_spec hi (length t)); [lia|]. unfold into_area. ffields. rewrite Nat.eqb_refl.
      exists (set_size (length t) f). unfold set_pos, into_area. cbn [s_bytes s_append]. split; auto. do 5 f_equal. rewrite !app_length. lia. }
  destruct H as (g & E & EG). eexists. split; [exact E|]. subst g. unfold into_area, seq_fetch. ffields.
  repeat (split; [first [reflexivity|assumption]|]).
  split; [rewrite app_length, skipn_length; lia|]. repeat (split; [first [reflexivity|exact I]|]).
  split; [intros [X|X]; [lia|discriminate]|]. auto.
Qed.

Lemma seq_end_ok : forall f, f_org f = OrgSequential -> f_min f = lo -> f_max f = hi -> length (f_data f) = hi -> (lo = hi \/ false = true -> f_size f = hi) ->
  forall bs, f_stream f = Some (mkStream bs (length bs) false) -> org_read_next c f = Ok (10, f).
Proof.
  intros f O MN MX DL SZ bs ST. unfold org_read_next. rewrite O. unfold sequential_read, with_stream. rewrite ST, MN, MX.
  assert (FE : forall n, fread (mkStream bs (length bs) false) n = ([], mkStream bs (length bs) false)) by (intros; apply fread_eof; cbn [s_pos s_bytes]; lia).
  rewrite !FE. destruct (Nat.eqb_spec lo hi) as [E|E].
  - cbn [length]. destruct (Nat.ltb_spec (length (f_data f)) 0); [lia|]. unfold into_area. ffields. rewrite (SZ (or_introl E)).
    destruct (Nat.eqb_spec 0 hi); [lia|]. cbn [Nat.eqb app skipn]. do 2 f_equal. destruct f; ffields. subst. reflexivity.
  - destruct (Nat.eqb_spec (length (@nil Z)) (head_width (io_varseq c))) as [X|X]; [destruct (io_varseq c) as [|[|[|]]]; discriminate|].
    cbn [length Nat.eqb negb]. rewrite andb_false_r. do 2 f_equal. destruct f; ffields. subst. reflexivity.
Qed.

Lemma seq_rewrite_ok : forall f A t B (n : nat), True -> f_org f = OrgSequential -> length (f_data f) = hi -> valid_rec t -> f_size f = length t ->
  f_stream f = Some (mkStream (A ++ enc_rec t ++ B) (length (A ++ enc_rec t)) false) ->
  org_rewrite f = Ok (0, set_stream (Some (mkStream (A ++ enc_rec (firstn (length t) (f_data f)) ++ B) (length (A ++ enc_rec t)) false)) f) /\
  length (enc_rec (firstn (length t) (f_data f))) = length (enc_rec t) /\ valid_rec (firstn (length t) (f_data f)).
Proof.
  intros f A t B n _ O DL VT SZ ST. unfold valid_rec in *.
  set (u := firstn (length t) (f_data f)). assert (LU : length u = length t) by (unfold u; rewrite firstn_length; lia).
  split; [|split; [unfold enc_rec; rewrite !app_length, LU; lia|lia]].
  unfold org_rewrite. rewrite O. unfold sequential_rewrite, with_stream. rewrite ST, SZ, DL. unfold fseek_cur, fseek_set. cbn [s_pos].
  unfold enc_rec. rewrite LU.
  destruct (Z.ltb_spec (Z.of_nat (length (A ++ head (length t) ++ t)) + - Z.of_nat (length t)) 0) as [X|X]; [rewrite !app_length in X; lia|].
  destruct (Nat.ltb_spec hi (length t)); [lia|]. destruct (Nat.eqb_spec (length t) 0); [lia|].
  unfold set_pos. cbn [s_bytes s_append]. fold u.
  replace (Z.to_nat (Z.of_nat (length (A ++ head (length t) ++ t)) + - Z.of_nat (length t))) with (length (A ++ head (length t))) by (rewrite !app_length; lia).
  replace (A ++ (head (length t) ++ t) ++ B) with ((A ++ head (length t)) ++ t ++ B) by (rewrite <- !app_assoc; reflexivity).
  rewrite (fwrite_mid (A ++ head (length t)) t B u) by auto.
  do 5 f_equal; rewrite ?app_length, <- ?app_assoc; auto. lia.
Qed.
End Seq.
