(** Further facts about MOVE used by P_Move (proof file). *)
From Coq Require Import QArith Qabs Qpower.
From Verif Require Import Base BaseFacts Field Sign Decimal SpecNum Numeric SpecStore NumFacts.
From Verif Require Import DispProofs DecProofs BinProofs PackedProofs StoreProofs.
From Verif Require Import Move Edited MoveAll MoveProofs MovePacked MoveBin MoveNum MoveText SpecMove IntAccess.
Local Open Scope Z_scope.

Lemma trunc_at_eq : forall q q' s w, (q == q')%Q -> trunc_at q s w -> trunc_at q' s w.
Proof.
  intros q q' s w E (A & B & C). unfold trunc_at. rewrite <- E. auto.
Qed.
Lemma received_eq : forall m f f' q q', (q == q')%Q -> received m f f' q -> received m f f' q'.
Proof.
  intros m f f' q q' E (A & B & C). split; [auto|]. split; [auto|]. intros w Hw. apply C.
  apply (trunc_at_eq q' q); auto. now symmetry.
Qed.
Lemma trunc_at_exact : forall v s1 s2 w, (rat v s1 == rat w s2)%Q -> trunc_at (rat v s1) s2 w.
Proof.
  intros v s1 s2 w E. apply (trunc_at_eq (rat w s2)); [now symmetry|].
  rewrite <- (aligns_same w s2) at 2. apply aligns_trunc.
Qed.

Lemma numeric_item_same : forall f g, fa f = fa g -> f_size f = f_size g -> numeric_item f -> numeric_item g.
Proof.
  intros f g A S N. inversion N as [? k W|? D W|? W]; subst.
  - apply (ni_display g k). destruct W as (W1 & W2 & W3 & W4). unfold wf_display. rewrite <- A.
    unfold f_size in S. rewrite <- S. auto.
  - apply (ni_packed g D). destruct W as (W1 & W2 & W3 & W4). unfold wf_packed. rewrite <- A, <- S. auto.
  - apply (ni_binary g). destruct W as (W1 & W2 & W3). unfold wf_binary. rewrite <- A, <- S. auto.
Qed.

(** What a DISPLAY or COMP-3 item holds fits an item with the same attributes. *)
Lemma denotes_fits : forall m f g v, denotes (c_ebcdic m) f v -> fa f = fa g -> f_size f = f_size g ->
  a_type (fa f) <> TBinary -> held g (kept_digits m g v) = v.
Proof.
  intros m f g v D A S NB. unfold held, kept_digits. rewrite <- (data_size_attr f g A S), <- A.
  destruct (denotes_type _ _ _ D) as [T|[T|T]]; [| |congruence]; rewrite T.
  - destruct (denotes_display_cases _ _ _ T D) as (neg & ds & E & Hne & Hd & Hu & Ha & Hv).
    assert (DS : data_size f = length ds).
    { unfold data_size, f_size. rewrite E. cbn [fd fa]. rewrite zoned_length by auto. lia. }
    pose proof (digits_value_bound ds Hd) as B. destruct (signed_neg_le neg ds Hd) as (S1 & S2 & S3).
    rewrite <- Hv in *. rewrite DS, low_part_fits by lia. destruct (a_sign (fa f)) eqn:SG; auto.
    rewrite Hu in S2 by auto. specialize (S2 eq_refl). lia.
  - destruct (denotes_packed_cases _ _ _ T D) as (neg & ds & E1 & Hne & Hd & HL & Hu & Hv).
    pose proof (digits_value_bound ds Hd) as B. destruct (signed_neg_le neg ds Hd) as (S1 & S2 & S3).
    rewrite <- Hv in *. rewrite <- HL, Nat2Z.id, low_part_fits by lia. destruct (a_sign (fa f)) eqn:SG; auto.
    rewrite Hu in S2 by auto. specialize (S2 eq_refl). lia.
Qed.

(** A value the intermediate item can hold survives a round trip. *)
Theorem move_roundtrip : forall m f1 f2 g v w,
  denotes (c_ebcdic m) f1 v -> numeric_item f2 -> numeric_item g ->
  fa g = fa f1 -> f_size g = f_size f1 -> a_type (fa f1) <> TBinary ->
  (a_type (fa f1) = TDisplay -> Z.of_nat (data_size f1) = a_digits (fa f1)) ->
  (a_type (fa f2) = TDisplay -> Z.of_nat (data_size f2) = a_digits (fa f2)) ->
  (a_type (fa f1) = TPacked -> a_digits (fa f1) <= 64) ->
  (a_type (fa f2) = TPacked -> a_digits (fa f2) <= 64) ->
  (a_type (fa f2) = TBinary -> binary_receivable m f1 f2 v) ->
  (rat v (a_scale (fa f1)) == rat w (a_scale (fa f2)))%Q ->
  held f2 (kept_digits m f2 w) = w ->
  exists f2' g', cob_move m f1 f2 = Ok (f1, f2') /\ denotes (c_ebcdic m) f2' w /\
    cob_move m f2' g = Ok (f2', g') /\ denotes (c_ebcdic m) g' v.
Proof.
  intros m f1 f2 g v w D N2 NG GA GS NB HD1 HD2 HP1 HP2 HB EQ HF.
  destruct (cob_move_numeric m f1 f2 v D N2) as (f2' & E1 & (RA & RS & R)); auto.
  assert (D2 : denotes (c_ebcdic m) f2' w).
  { rewrite <- HF. apply R. now apply trunc_at_exact. }
  destruct (cob_move_numeric m f2' g w D2 NG) as (g' & E2 & (SA & SS & SD)).
  - rewrite RA. intros T _. rewrite (data_size_attr f2' f2 RA RS). auto.
  - rewrite RA. auto.
  - rewrite GA. congruence.
  - exists f2', g'. split; auto. split; auto. split; auto.
    specialize (SD v).
    assert (F : held g (kept_digits m g v) = v) by (apply (denotes_fits m f1); auto).
    rewrite F in SD. apply SD. rewrite RA, GA. apply trunc_at_exact. now symmetry.
Qed.

(** ** Numeric DISPLAY to alphanumeric *)
Theorem display_to_alphanum_spec : forall m f1 f2 a neg ds,
  f1 = mkField a (zoned (c_ebcdic m) a neg ds) -> a_type a = TDisplay -> attr_ok a -> ds <> [] -> Forall is_dig ds ->
  (a_sign a = false -> neg = false) ->
  display_to_alphanum m f1 f2 =
  (f1, set_fd f2 (left_justified (f_size f2) (map digit_char ds ++ repeat 48 (Z.to_nat (- a_scale a))))).
Proof.
  intros m f1 f2 a neg ds E T Ha Hne Hd Hu.
  destruct (get_sign_digits m a neg ds T Hne Hd Ha Hu) as (s & g & G & HS & HA & HD & _ & HP).
  assert (DS : data_size f1 = length ds).
  { unfold data_size, f_size. rewrite E. cbn [fd fa]. rewrite zoned_length by auto. lia. }
  unfold display_to_alphanum. rewrite DS. rewrite E, G, HD, HP. cbn [fa]. f_equal. f_equal.
  unfold left_justified, padded. set (n := f_size f2). set (z := Z.to_nat (- a_scale a)).
  assert (L : length (map digit_char ds) = length ds) by apply map_length.
  destruct (Nat.leb_spec n (length ds)).
  - rewrite <- app_assoc, firstn_app, L. replace (n - length ds)%nat with 0%nat by lia.
    cbn [firstn]. now rewrite app_nil_r.
  - assert (EZ : (if a_scale a <? 0 then Nat.min z (n - length ds) else 0%nat) =
                 Nat.min z (n - length ds)).
    { subst z. destruct (Z.ltb_spec (a_scale a) 0); auto. replace (Z.to_nat (- a_scale a)) with 0%nat by lia. reflexivity. }
    rewrite EZ. rewrite app_length, L, repeat_length, <- app_assoc, firstn_app, L.
    rewrite firstn_all2 by lia. f_equal.
    destruct (Nat.leb_spec z (n - length ds)).
    + rewrite Nat.min_l by auto. rewrite firstn_all2; [unfold c_0, c_sp; do 2 f_equal; lia|].
      rewrite app_length, !repeat_length. lia.
    + rewrite Nat.min_r by lia. rewrite Nat.sub_diag. cbn [repeat]. rewrite app_nil_r.
      replace z with ((n - length ds) + (z - (n - length ds)))%nat by lia. rewrite repeat_app, <- app_assoc, firstn_app.
      rewrite firstn_all2 by (rewrite repeat_length; lia). rewrite repeat_length, Nat.sub_diag. cbn [firstn].
      now rewrite app_nil_r.
Qed.

(** ** Text to numeric items of any usage *)
Definition text_type (t : ftype) : Prop := t = TAlnum \/ t = TAlnumEdited.

Lemma number_text_ne : forall m t v F, number_text m t v F -> t = [] -> v = 0 /\ F = 0.
Proof.
  intros m t v F H E. destruct H as [ws sg ip neg A B C|ws sg ip fp neg A B C D].
  - apply app_eq_nil in E. destruct E as (_ & E). apply app_eq_nil in E. destruct E as (_ & ->).
    split; [|reflexivity]. destruct neg; reflexivity.
  - apply app_eq_nil in E. destruct E as (_ & E). apply app_eq_nil in E. destruct E as (_ & E).
    apply app_eq_nil in E. destruct E as (_ & E). discriminate.
Qed.

Definition elem_type (t : ftype) : Prop :=
  match t with TNational | TNatEdited | TNatAll | TAlnumAll | TGroup => False | _ => True end.
Lemma cob_move_elementary : forall m f1 f2, f_size f1 <> 0%nat -> f_size f2 <> 0%nat ->
  elem_type (a_type (fa f1)) -> elem_type (a_type (fa f2)) ->
  cob_move m f1 f2 = move_elementary m f1 f2.
Proof.
  intros m f1 f2 S1 S2 T1 T2. unfold cob_move.
  assert (E : move_not_all m f1 f2 = move_elementary m f1 f2).
  { unfold move_not_all. apply Nat.eqb_neq in S1, S2. rewrite S1, S2.
    generalize (move_elementary m f1 f2). intros x.
    assert (NN : is_national (a_type (fa f2)) || is_national (a_type (fa f1)) = false).
    { destruct (a_type (fa f1)), (a_type (fa f2)); try reflexivity; contradiction. }
    rewrite NN. destruct (a_type (fa f1)), (a_type (fa f2)); try contradiction;
    destruct x as [[a b]| |]; reflexivity. }
  rewrite E. destruct (a_type (fa f1)); try reflexivity; contradiction.
Qed.

Lemma text_move_shape : forall m f1 f2, text_type (a_type (fa f1)) -> numeric_item f2 -> fd f1 <> [] ->
  cob_move m f1 f2 =
  match a_type (fa f2) with
  | TDisplay => alphanum_to_display m f1 f2
  | _ => indirect_move m (alphanum_to_display m) f1 f2 36 18
  end.
Proof.
  intros m f1 f2 T1 N2 NE. pose proof (numeric_size _ N2) as SZ2.
  assert (SZ1 : (1 <= f_size f1)%nat) by (unfold f_size; destruct (fd f1); [congruence|cbn [length]; lia]).
  assert (T2 : a_type (fa f2) = TDisplay \/ a_type (fa f2) = TPacked \/ a_type (fa f2) = TBinary).
  { inversion N2 as [? k (A & _)|? D (A & _)|? (A & _)]; auto. }
  rewrite cob_move_elementary; [|lia|lia|..].
  - unfold move_elementary. destruct T1 as [-> | ->]; destruct T2 as [-> | [-> | ->]]; reflexivity.
  - destruct T1 as [-> | ->]; exact I.
  - destruct T2 as [-> | [-> | ->]]; exact I.
Qed.

Theorem text_to_display : forall m f1 f2 k v F,
  point_cfg m -> text_type (a_type (fa f1)) -> fd f1 <> [] -> number_text m (fd f1) v F ->
  wf_display f2 k -> a_scale (fa f2) - Z.of_nat k <= F ->
  exists f2', cob_move m f1 f2 = Ok (f1, f2') /\ received m f2 f2' (rat v F).
Proof.
  intros m f1 f2 k v F HM T1 NE HT W HF.
  rewrite text_move_shape; auto. 2:{ eapply ni_display; eauto. }
  destruct (alphanum_to_display_spec m f1 f2 k v F HM HT W HF) as (f2' & E & D & A & S).
  pose proof W as (T2 & _). rewrite T2. exists f2'. split; auto. eapply received_display; eauto.
Qed.

Theorem text_to_numeric : forall m f1 f2 v F,
  point_cfg m -> text_type (a_type (fa f1)) -> fd f1 <> [] -> number_text m (fd f1) v F ->
  numeric_item f2 -> a_type (fa f2) <> TDisplay -> F <= 18 -> Z.abs v < 10 ^ (18 + F) ->
  (a_type (fa f2) = TBinary -> (c_bintrunc m && negb (a_realbin (fa f2)) = true -> a_digits (fa f2) <= 18) /\
     -18 <= a_scale (fa f2) /\
     forall w, trunc_at (rat v F) (a_scale (fa f2)) w -> Z.abs w < 2 ^ 63 /\ bin_range f2 (kept_digits m f2 w)) ->
  exists f2', cob_move m f1 f2 = Ok (f1, f2') /\ received m f2 f2' (rat v F).
Proof.
  intros m f1 f2 v F HM T1 NE HT N2 ND HF HV HB.
  assert (F0 : 0 <= F) by (destruct HT; lia).
  rewrite text_move_shape; auto.
  assert (SH : match a_type (fa f2) with
    | TDisplay => alphanum_to_display m f1 f2
    | _ => indirect_move m (alphanum_to_display m) f1 f2 36 18
    end = indirect_move m (alphanum_to_display m) f1 f2 36 18) by (destruct (a_type (fa f2)); congruence).
  rewrite SH. unfold indirect_move. change (64 <? 36) with false. change (36 <=? 0) with false. cbv iota.
  set (t := temp_field 36 18). assert (W : wf_display t 36) by (apply (temp_wf 36 18); lia).
  destruct (alphanum_to_display_spec m f1 t 36 v F HM HT W) as (t' & E & D & A & S).
  { change (a_scale (fa t)) with 18. lia. }
  rewrite E. cbn [obind snd fst]. change (a_scale (fa t)) with 18 in D.
  set (w := aligns v F 18) in *.
  assert (EW : w = v * 10 ^ (18 - F)).
  { subst w. unfold aligns, alignz. destruct (Z.leb_spec F 18); [|lia]. rewrite Z.mul_assoc. f_equal. destruct v; lia. }
  assert (P1 : 0 < 10 ^ (18 - F)) by (apply Z.pow_pos_nonneg; lia).
  assert (BW : Z.abs w < 10 ^ Z.of_nat 36).
  { rewrite EW, Z.abs_mul, (Z.abs_eq (10 ^ (18 - F))) by lia.
    replace (10 ^ Z.of_nat 36) with (10 ^ (18 + F) * 10 ^ (18 - F)).
    - apply Z.mul_lt_mono_pos_r; auto.
    - rewrite <- Z.pow_add_r by lia. f_equal. lia. }
  rewrite low_part_fits in D by auto. change (held t w) with w in D.
  assert (QE : (rat w 18 == rat v F)%Q).
  { rewrite EW. unfold rat. rewrite inject_Z_mult. 
    replace (- F) with ((18 - F) + - (18)) by lia. rewrite Qpower_plus by discriminate.
    rewrite Qmult_assoc. apply Qmult_comp; [|reflexivity]. apply Qmult_comp; [reflexivity|].
    rewrite Zpower_Qpower by lia. reflexivity. }
  assert (T' : a_type (fa t') = TDisplay) by (rewrite A; reflexivity).
  assert (S' : a_scale (fa t') = 18) by (rewrite A; reflexivity).
  assert (DS : Z.of_nat (data_size t') = 36).
  { rewrite (data_size_attr t' t A S), (wf_display_data_size _ _ W). reflexivity. }
  destruct (move_from_display_spec m t' f2 w D T' N2) as (f2' & E2 & R2).
  - intros _. rewrite DS, A. reflexivity.
  - intros T2. destruct (HB T2) as (B1 & B2 & B3). split; [|split; auto].
    + unfold digit_positions. rewrite T', S', DS. lia.
    + rewrite S'. intros x Hx. apply B3. apply (trunc_at_eq (rat w 18)); auto.
  - exists f2'. rewrite E2. cbn [obind snd]. split; [reflexivity|]. rewrite S' in R2. eapply received_eq; eauto.
Qed.

(** ** ALL literals *)
Lemma fill_all_length : forall l n, length (fill_all l n) = n.
Proof. intros. unfold fill_all. rewrite map_length, seq_length. reflexivity. Qed.
Lemma fill_all_nth : forall l n i, (i < n)%nat -> nth i (fill_all l n) 0 = nth (i mod length l) l 0.
Proof.
  intros l n i H. unfold fill_all.
  rewrite (nth_indep _ 0 (nth (0 mod length l) l 0)) by (rewrite map_length, seq_length; auto).
  rewrite (map_nth (fun i => nth (i mod length l) l 0) (seq 0 n) 0%nat i), seq_nth by auto. reflexivity.
Qed.
Lemma fill_all_one : forall c n, fill_all [c] n = repeat c n.
Proof.
  intros. unfold fill_all. generalize 0%nat. induction n as [|n IH]; intros s; [reflexivity|].
  cbn [seq map repeat]. rewrite IH. f_equal.
Qed.

(** The 'SJIS' correction is inactive for single byte characters. *)
Definition no_lead (l : list Z) : Prop := Forall (fun c => sjis_lead c = false) l.

Lemma move_all_text : forall m f1 f2, a_type (fa f1) = TAlnumAll -> fd f1 <> [] -> no_lead (fd f1) ->
  (a_type (fa f2) = TAlnum \/ a_type (fa f2) = TGroup) -> f_size f2 <> 0%nat ->
  cob_move m f1 f2 = Ok (f1, set_fd f2 (fill_all (fd f1) (f_size f2))).
Proof.
  intros m f1 f2 T1 NE NL T2 S2. unfold cob_move. rewrite T1. unfold move_all.
  assert (IN : is_national (a_type (fa f2)) = false) by (destruct T2 as [-> | ->]; reflexivity).
  assert (NN : is_numeric_type (a_type (fa f2)) = false) by (destruct T2 as [-> | ->]; reflexivity).
  rewrite IN, NN. cbv iota zeta.
  set (n := f_size f2) in *.
  assert (DATA : (if (f_size f1 =? 1)%nat then Ok (repeat (nth 0 (fd f1) 0) n)
       else if (f_size f1 =? 0)%nat then UB
       else if (n =? 0)%nat then UB
       else Ok (if sjis_lead (nth (n - 1) (fill_all (fd f1) n) 0) then upd (n - 1) c_sp (fill_all (fd f1) n)
                else fill_all (fd f1) n)) = Ok (fill_all (fd f1) n)).
  { unfold f_size. destruct (Nat.eqb_spec (length (fd f1)) 1) as [L1|L1].
    - destruct (fd f1) as [|c [|d l]]; cbn [length] in L1; try lia. cbn [nth]. now rewrite fill_all_one.
    - destruct (Nat.eqb_spec (length (fd f1)) 0). { destruct (fd f1); [congruence|cbn [length] in *; lia]. }
      destruct (Nat.eqb_spec n 0); [lia|]. rewrite fill_all_nth by lia.
      assert (M : ((n - 1) mod length (fd f1) < length (fd f1))%nat) by (apply Nat.mod_upper_bound; auto).
      rewrite (proj1 (Forall_forall _ _) NL) by (apply nth_In; auto). reflexivity. }
  rewrite DATA. cbn [obind].
  assert (MN : move_not_all m (mkField alnum_attr (fill_all (fd f1) n)) f2 =
     Ok (mkField alnum_attr (fill_all (fd f1) n), set_fd f2 (fill_all (fd f1) n))).
  { assert (FSZ : f_size (mkField alnum_attr (fill_all (fd f1) n)) = n) by apply fill_all_length.
    assert (AA : alphanum_to_alphanum (mkField alnum_attr (fill_all (fd f1) n)) f2 =
       (mkField alnum_attr (fill_all (fd f1) n), set_fd f2 (fill_all (fd f1) n))).
    { unfold alphanum_to_alphanum. rewrite FSZ. fold n. rewrite Nat.leb_refl, Nat.sub_diag. cbn [skipn fd].
      assert (FF : firstn n (fill_all (fd f1) n) = fill_all (fd f1) n) by (apply firstn_all2; rewrite fill_all_length; lia).
      rewrite FF. destruct (a_just (fa f2)); reflexivity. }
    assert (ME : a_type (fa f2) = TAlnum -> move_elementary m (mkField alnum_attr (fill_all (fd f1) n)) f2 =
       Ok (mkField alnum_attr (fill_all (fd f1) n), set_fd f2 (fill_all (fd f1) n))).
    { intros E. unfold move_elementary. cbn [fa alnum_attr a_type]. rewrite E. rewrite AA. reflexivity. }
    unfold move_not_all. rewrite FSZ. fold n. apply Nat.eqb_neq in S2. rewrite S2, IN.
    cbn [fa alnum_attr a_type is_national orb].
    destruct T2 as [T2|T2]; rewrite T2.
    - rewrite (ME T2). reflexivity.
    - rewrite AA. reflexivity. }
  rewrite MN. reflexivity.
Qed.

(** ALL of a digit string to a numeric item: the literal repeated to 18 digits. *)
Lemma move_all_numeric : forall m f1 f2 ds, a_type (fa f1) = TAlnumAll -> fd f1 = map digit_char ds ->
  ds <> [] -> Forall is_dig ds -> numeric_item f2 ->
  (a_type (fa f2) = TBinary -> -18 <= a_scale (fa f2) /\
    (c_bintrunc m && negb (a_realbin (fa f2)) = true -> a_digits (fa f2) <= 18) /\
    forall w, trunc_at (rat (digits_value (fill_all ds 18)) 0) (a_scale (fa f2)) w ->
      Z.abs w < 2 ^ 63 /\ bin_range f2 (kept_digits m f2 w)) ->
  exists f2', cob_move m f1 f2 = Ok (f1, f2') /\ received m f2 f2' (rat (digits_value (fill_all ds 18)) 0).
Proof.
  intros m f1 f2 ds T1 E NE Hd N2 HB. unfold cob_move. rewrite T1. unfold move_all.
  assert (T2 : a_type (fa f2) = TDisplay \/ a_type (fa f2) = TPacked \/ a_type (fa f2) = TBinary).
  { inversion N2 as [? k (A & _)|? D (A & _)|? (A & _)]; auto. }
  assert (IN : is_national (a_type (fa f2)) = false) by (destruct T2 as [-> | [-> | ->]]; reflexivity).
  assert (NNN : is_numeric_type (a_type (fa f2)) = true) by (destruct T2 as [-> | [-> | ->]]; reflexivity).
  rewrite IN, NNN. cbv iota zeta.
  assert (LN : length (fd f1) = length ds) by (rewrite E; apply map_length).
  assert (FE : fill_all (fd f1) 18 = map digit_char (fill_all ds 18)).
  { unfold fill_all. rewrite map_map, LN, E. apply map_ext_in. intros i _.
    assert (M : (i mod length ds < length ds)%nat) by (apply Nat.mod_upper_bound; destruct ds; [congruence|cbn [length]; lia]).
    rewrite (nth_indep _ 0 (digit_char 0)) by (rewrite map_length; auto). apply map_nth. }
  assert (FD : Forall is_dig (fill_all ds 18)).
  { apply Forall_forall. intros x I. unfold fill_all in I. apply in_map_iff in I. destruct I as (i & <- & _).
    assert (M : (i mod length ds < length ds)%nat) by (apply Nat.mod_upper_bound; destruct ds; [congruence|cbn [length]; lia]).
    apply (proj1 (Forall_forall _ _) Hd). now apply nth_In. }
  pose proof (fill_all_length ds 18) as FL. revert FE FD FL HB. generalize (fill_all ds 18). intros l FE FD FL HB.
  assert (DATA : (if (f_size f1 =? 1)%nat then Ok (repeat (nth 0 (fd f1) 0) 18)
       else if (f_size f1 =? 0)%nat then UB
       else if (18 =? 0)%nat then UB
       else Ok (if sjis_lead (nth (18 - 1) (fill_all (fd f1) 18) 0) then upd (18 - 1) c_sp (fill_all (fd f1) 18)
                else fill_all (fd f1) 18)) = Ok (map digit_char l)).
  { unfold f_size. destruct (Nat.eqb_spec (length (fd f1)) 1) as [L1|L1].
    - destruct (fd f1) as [|c [|d l']]; cbn [length] in L1; try lia. rewrite fill_all_one in FE. cbn [nth]. now rewrite FE.
    - destruct (Nat.eqb_spec (length (fd f1)) 0) as [L0|L0]. { destruct ds; [congruence|cbn [length] in *; lia]. }
      change (18 =? 0)%nat with false. cbv iota. rewrite FE.
      assert (NL : sjis_lead (nth (18 - 1) (map digit_char l) 0) = false).
      { rewrite (nth_indep _ 0 (digit_char 0)) by (rewrite map_length, FL; lia).
        rewrite map_nth. assert (I : In (nth (18 - 1) l 0) l) by (apply nth_In; rewrite FL; lia).
        pose proof (proj1 (Forall_forall _ _) FD _ I) as Q. unfold is_dig in Q. unfold sjis_lead, digit_char. lia. }
      rewrite NL. reflexivity. }
  rewrite DATA. cbn [obind].
  set (a := mkAttr TDisplay 18 0 false false false false false false false []).
  set (t := mkField a (map digit_char l)).
  assert (DT : denotes (c_ebcdic m) t (digits_value l)).
  { change (digits_value l) with (signed_value false l).
    replace t with (mkField a (zoned (c_ebcdic m) a false l)) by reflexivity.
    apply den_display; auto. intros E0. rewrite E0 in FL. discriminate FL. }
  destruct (cob_move_numeric m t f2 (digits_value l) DT N2) as (f2' & EM & R).
  - intros _ _. unfold data_size, f_size, t. cbn [fa fd a_sep a]. rewrite map_length, FL. reflexivity.
  - discriminate.
  - intros TB. destruct (HB TB) as (B1 & B2 & B3). split; [|split; auto].
    unfold digit_positions, data_size, f_size. cbn [fa a a_type a_sep a_scale fd t].
    change (fa t) with a. cbn [a_type a_scale a_sep a]. change (fd t) with (map digit_char l).
    rewrite map_length, FL. lia.
  - exists f2'. unfold cob_move in EM. change (a_type (fa t)) with TDisplay in EM. cbv iota in EM. rewrite EM.
    split; [reflexivity|exact R].
Qed.
