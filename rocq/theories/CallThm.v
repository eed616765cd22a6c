(** Proofs about the names and the table of Call.v. *)
From Verif Require Import Base Call SpecCall.
Local Open Scope Z_scope.

Lemma beq_eq : forall a b, beq a b = true <-> a = b.
Proof.
  induction a as [|x a IH]; intros [|y b]; cbn [beq]; split; intros H; try discriminate; auto.
  - apply andb_true_iff in H; destruct H as [H1 H2].
    apply Z.eqb_eq in H1. apply IH in H2. subst; reflexivity.
  - inversion H; subst. rewrite Z.eqb_refl. cbn [andb]. apply IH; reflexivity.
Qed.
Lemma beq_refl : forall a, beq a a = true.
Proof. intros a; apply beq_eq; reflexivity. Qed.
Lemma beq_neq : forall a b, beq a b = false <-> a <> b.
Proof.
  intros a b; split; intros H.
  - intros ->. rewrite beq_refl in H; discriminate.
  - destruct (beq a b) eqn:E; auto. apply beq_eq in E; contradiction.
Qed.
Lemma in_names_In : forall n l, in_names n l = true <-> In n l.
Proof.
  intros n l; unfold in_names; rewrite existsb_exists; split.
  - intros (x & H & E). apply beq_eq in E; subst; auto.
  - intros H. exists n; split; auto using beq_refl.
Qed.

(** *** The encoding of names can be undone *)
Definition unhex (h : Z) : Z := if h <? 58 then h - 48 else h - 55.
Fixpoint decode (s : list Z) : list Z :=
  match s with
  | 95 :: 95 :: r => 45 :: decode r
  | 95 :: a :: b :: r => (16 * unhex a + unhex b) :: decode r
  | c :: r => c :: decode r
  | [] => []
  end.

Lemma hex1_range : forall d, 0 <= d < 16 -> 48 <= hex1 d <= 70 /\ unhex (hex1 d) = d.
Proof.
  intros d H. unfold hex1, unhex.
  destruct (d <? 10) eqn:E; [apply Z.ltb_lt in E|apply Z.ltb_ge in E].
  - replace (48 + d <? 58) with true by (symmetry; apply Z.ltb_lt; lia). lia.
  - replace (55 + d <? 58) with false by (symmetry; apply Z.ltb_ge; lia). lia.
Qed.

Lemma decode_esc : forall c r, 0 <= c <= 255 -> decode (hex_esc c ++ r) = c :: decode r.
Proof.
  intros c r H. unfold hex_esc. cbn [app].
  assert (H1 : 0 <= c / 16 < 16) by (split; [apply Z.div_pos; lia|apply Z.div_lt_upper_bound; lia]).
  assert (H2 : 0 <= c mod 16 < 16) by (apply Z.mod_pos_bound; lia).
  destruct (hex1_range _ H1) as [A1 A2]. destruct (hex1_range _ H2) as [B1 B2].
  assert (D : 16 * (c / 16) + c mod 16 = c) by (symmetry; apply Z.div_mod; lia).
  revert A1 A2 B2. generalize (hex1 (c / 16)) (hex1 (c mod 16)). intros a b A1 A2 B2.
  assert (E : decode (95 :: a :: b :: r) = (16 * unhex a + unhex b) :: decode r).
  { cbn [decode]. destruct (Z.eq_dec a 95); [lia|].
    destruct a as [|a|a]; try lia.
    do 7 (try destruct a as [a|a|]; try reflexivity; try lia). }
  rewrite E, A2, B2, D. reflexivity.
Qed.

Lemma decode_other : forall c r, c <> 95 -> decode (c :: r) = c :: decode r.
Proof.
  intros c r H. destruct c as [|c|c]; try reflexivity.
  do 7 (try destruct c as [c|c|]; try reflexivity; try lia).
Qed.

Definition plain_byte (c : Z) : Prop := 1 <= c <= 255 /\ c <> 95.

Lemma decode_tail : forall s, Forall plain_byte s -> decode (enc_tail s) = s.
Proof.
  induction s as [|c s IH]; intros F; [reflexivity|].
  inversion F as [|? ? [H1 H2] F']; subst. cbn [enc_tail].
  assert (E95 : (c =? 95) = false) by (apply Z.eqb_neq; auto). rewrite E95, orb_false_r.
  destruct (is_alnum c).
  - rewrite (decode_other c _ H2), IH by auto. reflexivity.
  - destruct (c =? 45) eqn:E; [apply Z.eqb_eq in E; subst|].
    + change (decode (95 :: 95 :: enc_tail s)) with (45 :: decode (enc_tail s)).
      rewrite IH by auto. reflexivity.
    + rewrite decode_esc by lia. rewrite IH by auto. reflexivity.
Qed.
Lemma decode_encode : forall s, Forall plain_byte s -> decode (encode s) = s.
Proof.
  intros [|c s] F; [reflexivity|]. unfold encode.
  destruct (is_digitb c).
  - inversion F as [|? ? [H1 H2] F']; subst. rewrite decode_esc by lia.
    rewrite decode_tail by auto. reflexivity.
  - apply decode_tail; auto.
Qed.
Lemma encode_inj : forall a b, Forall plain_byte a -> Forall plain_byte b ->
  encode a = encode b -> a = b.
Proof.
  intros a b A B E. rewrite <- (decode_encode a A), <- (decode_encode b B), E. reflexivity.
Qed.

Lemma enc_tail_len : forall s, (length (enc_tail s) <= 3 * length s)%nat.
Proof.
  induction s as [|c s IH]; cbn [enc_tail length]; [lia|].
  destruct (is_alnum c || (c =? 95)); [cbn [length]; lia|].
  destruct (c =? 45); [cbn [length]; lia|]. unfold hex_esc. cbn [app length]. lia.
Qed.
Lemma encode_len : forall s, (length (encode s) <= 3 * length s)%nat.
Proof.
  intros [|c s]; [cbn; lia|]. unfold encode.
  destruct (is_digitb c); [|apply enc_tail_len].
  unfold hex_esc. cbn [app length]. pose proof (enc_tail_len s). lia.
Qed.
Lemma encode_word : forall s, word s -> encode s = s.
Proof.
  intros s [F H].
  assert (E : forall s, Forall (fun c => 48 <= c <= 57 \/ 65 <= c <= 90 \/ 97 <= c <= 122) s ->
              enc_tail s = s).
  { clear. induction s as [|c s IH]; intros F; [reflexivity|].
    inversion F; subst. cbn [enc_tail]. rewrite IH by auto.
    replace (is_alnum c) with true; [reflexivity|]. unfold is_alnum. symmetry.
    destruct H1 as [H1 | [H1 | H1]].
    - replace (48 <=? c) with true by (symmetry; apply Z.leb_le; lia).
      replace (c <=? 57) with true by (symmetry; apply Z.leb_le; lia). reflexivity.
    - replace (65 <=? c) with true by (symmetry; apply Z.leb_le; lia).
      replace (c <=? 90) with true by (symmetry; apply Z.leb_le; lia).
      cbn [andb]. rewrite orb_true_r. reflexivity.
    - replace (97 <=? c) with true by (symmetry; apply Z.leb_le; lia).
      replace (c <=? 122) with true by (symmetry; apply Z.leb_le; lia).
      cbn [andb]. rewrite orb_true_r. reflexivity. }
  destruct s as [|c s]; [reflexivity|]. unfold encode.
  replace (is_digitb c) with false; [apply E; auto|].
  unfold is_digitb. symmetry. apply andb_false_iff.
  destruct (Z.leb_spec 48 c); [|auto]. destruct (Z.leb_spec c 57); [|auto]. lia.
Qed.

(** *** Names in fields *)
Lemma rtrim_pad : forall n pad, Forall (fun c => c = 32 \/ c = 0) pad ->
  (forall i c, n = i ++ [c] -> c <> 32 /\ c <> 0) -> rtrim (n ++ pad) = n.
Proof.
  intros n pad F. 
  assert (P : rtrim pad = []).
  { induction F as [|c pad H F IH]; [reflexivity|]. cbn [rtrim]. rewrite IH.
    destruct H as [-> | ->]; reflexivity. }
  induction n as [|c n IH]; intros L; [exact P|].
  cbn [app rtrim]. rewrite IH.
  - destruct n as [|d n]; [|reflexivity].
    destruct (L [] c eq_refl) as [A B].
    apply Z.eqb_neq in A, B. rewrite A, B. reflexivity.
  - intros i x E. apply (L (c :: i) x). cbn [app]. rewrite E. reflexivity.
Qed.
Lemma cstr_id : forall n, ~ In 0 n -> cstr n = n.
Proof.
  induction n as [|c n IH]; intros H; [reflexivity|]. cbn [cstr].
  destruct (Z.eqb_spec c 0); [subst; exfalso; apply H; left; reflexivity|].
  rewrite IH; [reflexivity|]. intros X; apply H; right; exact X.
Qed.
Lemma field_name_pad : forall n pad, ~ In 0 n -> Forall (fun c => c = 32 \/ c = 0) pad ->
  (forall i c, n = i ++ [c] -> c <> 32) -> field_name (n ++ pad) = n.
Proof.
  intros n pad N F L. unfold field_name. rewrite rtrim_pad; auto using cstr_id.
  intros i c E; split; [eapply L; eauto|]. intros ->. apply N. rewrite E.
  apply in_or_app; right; left; reflexivity.
Qed.

(** *** Lists *)
Lemma lupd_len : forall A i (v : A) l, length (lupd i v l) = length l.
Proof. induction i; intros v [|x l]; cbn [lupd length]; auto. Qed.
Lemma lupd_same : forall A i (v d : A) l, (i < length l)%nat -> nth i (lupd i v l) d = v.
Proof.
  induction i; intros v d [|x l] H; cbn [length] in H; try lia; cbn [lupd nth]; auto.
  apply IHi; lia.
Qed.
Lemma lupd_other : forall A i j (v d : A) l, i <> j -> nth j (lupd i v l) d = nth j l d.
Proof.
  induction i; intros [|j] v d [|x l] H; cbn [lupd nth]; auto; try contradiction.
Qed.

Lemma hash_lt : forall n, (hash n < 131)%nat.
Proof.
  intros n. unfold hash. pose proof (Z.mod_pos_bound (fold_right Z.add 0 n) HASH_SIZE eq_refl) as H.
  unfold HASH_SIZE in *. lia.
Qed.

(** *** The table is a finite map from names *)

Definition tab_ok (t : table) : Prop :=
  length t = 131%nat /\ forall i e, In e (nth i t []) -> hash (h_name e) = i.
Definition entries (n : list Z) (t : table) : list entry :=
  filter (fun e => beq n (h_name e)) (bucket t n).

Lemma bucket_insert_same : forall n f c t, tab_ok t ->
  bucket (insert n f c t) n = mkEntry n f c :: bucket t n.
Proof.
  intros n f c t [L _]. unfold bucket at 1, insert. apply lupd_same. rewrite L. apply hash_lt.
Qed.
Lemma bucket_insert_other : forall n m f c t, hash n <> hash m ->
  bucket (insert n f c t) m = bucket t m.
Proof. intros. unfold bucket at 1, insert. apply lupd_other; auto. Qed.

Lemma insert_ok : forall n f c t, tab_ok t -> tab_ok (insert n f c t).
Proof.
  intros n f c t [L H]. split; [unfold insert; rewrite lupd_len; auto|].
  intros i e. unfold insert. destruct (Nat.eq_dec (hash n) i) as [<-|N].
  - rewrite lupd_same by (rewrite L; apply hash_lt). intros [<-|I]; [reflexivity|].
    apply H; exact I.
  - rewrite lupd_other by auto. apply H.
Qed.
Lemma entries_insert : forall n m f c t, tab_ok t ->
  entries m (insert n f c t) = if beq m n then mkEntry n f c :: entries m t else entries m t.
Proof.
  intros n m f c t T. unfold entries. destruct (Nat.eq_dec (hash n) (hash m)) as [E|N].
  - unfold bucket. rewrite <- E. fold (bucket (insert n f c t) n). fold (bucket t n).
    rewrite bucket_insert_same by auto. cbn [filter h_name].
    destruct (beq m n); reflexivity.
  - rewrite bucket_insert_other by auto.
    replace (beq m n) with false; [reflexivity|].
    symmetry; apply beq_neq; intros ->; auto.
Qed.

Lemma find_name_filter : forall n l,
  find_name n l = match filter (fun e => beq n (h_name e)) l with
                  | e :: _ => Some (h_func e) | [] => None end.
Proof.
  induction l as [|e l IH]; [reflexivity|]. cbn [find_name filter].
  destruct (beq n (h_name e)); auto.
Qed.
Lemma lookup_entries : forall n t,
  lookup n t = match entries n t with e :: _ => Some (h_func e) | [] => None end.
Proof. intros; apply find_name_filter. Qed.

Lemma set_first_spec : forall n c l,
  match set_first n c l with
  | Some l' =>
    exists e r, filter (fun e => beq n (h_name e)) l = e :: r /\
      filter (fun e => beq n (h_name e)) l' = mkEntry n (h_func e) (Some c) :: r /\
      (forall m, m <> n -> filter (fun e => beq m (h_name e)) l' =
                           filter (fun e => beq m (h_name e)) l) /\
      (forall x, In x l' -> exists y, In y l /\ h_name x = h_name y)
  | None => filter (fun e => beq n (h_name e)) l = []
  end.
Proof.
  induction l as [|e l IH]; [reflexivity|]. cbn [set_first].
  destruct (beq n (h_name e)) eqn:E.
  - exists e, (filter (fun e => beq n (h_name e)) l).
    cbn [filter h_name]. rewrite E. apply beq_eq in E. subst n.
    split; [reflexivity|]. split; [reflexivity|]. split.
    + intros m M. apply beq_neq in M. rewrite M. reflexivity.
    + intros x [<-|I]; [exists e|exists x]; cbn [h_name]; split; auto; [left|right]; auto.
  - destruct (set_first n c l) as [l'|].
    + destruct IH as (e' & r & A & B & C & D). exists e', r. cbn [filter]. rewrite E.
      split; [auto|]. split; [auto|]. split.
      * intros m M. rewrite C by auto. reflexivity.
      * intros x [<-|I]; [exists e; split; auto; left; auto|].
        destruct (D x I) as (y & Y1 & Y2). exists y; split; auto; right; auto.
    + cbn [filter]. rewrite E. exact IH.
Qed.

Lemma set_cancel_ok : forall n f c t, tab_ok t -> tab_ok (set_cancel n f c t).
Proof.
  intros n f c t T. unfold set_cancel. pose proof (set_first_spec n c (bucket t n)) as S.
  destruct (set_first n c (bucket t n)) as [l'|]; [|apply insert_ok; auto].
  destruct S as (e & r & _ & _ & _ & D). destruct T as [L H].
  split; [rewrite lupd_len; auto|]. intros i x.
  destruct (Nat.eq_dec (hash n) i) as [<-|N].
  - rewrite lupd_same by (rewrite L; apply hash_lt). intros I.
    destruct (D x I) as (y & Y1 & Y2). rewrite Y2. apply H; exact Y1.
  - rewrite lupd_other by auto. apply H.
Qed.
Lemma entries_set_cancel : forall n f c t, tab_ok t ->
  (forall m, m <> n -> entries m (set_cancel n f c t) = entries m t) /\
  entries n (set_cancel n f c t) =
    match entries n t with
    | [] => [mkEntry n f (Some c)]
    | e :: r => mkEntry n (h_func e) (Some c) :: r
    end.
Proof.
  intros n f c t T. unfold set_cancel. pose proof (set_first_spec n c (bucket t n)) as S.
  destruct (set_first n c (bucket t n)) as [l'|].
  - destruct S as (e & r & A & B & C & D). destruct T as [L H].
    assert (Bk : bucket (lupd (hash n) l' t) n = l').
    { unfold bucket. apply lupd_same. rewrite L; apply hash_lt. }
    split.
    + intros m M. unfold entries. destruct (Nat.eq_dec (hash n) (hash m)) as [E|N].
      * unfold bucket at 1 2. rewrite <- E. fold (bucket (lupd (hash n) l' t) n).
        fold (bucket t n). rewrite Bk. apply C; auto.
      * unfold bucket at 1. rewrite lupd_other by auto. reflexivity.
    + unfold entries. rewrite Bk, A, B. reflexivity.
  - split.
    + intros m M. rewrite entries_insert by auto. apply beq_neq in M. rewrite M. reflexivity.
    + rewrite entries_insert by auto. rewrite beq_refl. unfold entries. rewrite S. reflexivity.
Qed.

Lemma cancel_entries_filter : forall n l s,
  cancel_entries n l s = cancel_entries n (filter (fun e => beq n (h_name e)) l) s.
Proof.
  induction l as [|e l IH]; intros s; [reflexivity|]. cbn [cancel_entries filter].
  destruct (beq n (h_name e)) eqn:E; [cbn [cancel_entries]; rewrite E|]; apply IH.
Qed.
