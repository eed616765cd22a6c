(** Facts about streams and about the encodings of record sizes. *)
From Verif Require Import Base BaseFacts Stdio.

Lemma firstn_app_exact {A} (a b : list A) : firstn (length a) (a ++ b) = a.
Proof. induction a; cbn; [destruct b; reflexivity|]. now f_equal. Qed.
Lemma skipn_app_exact {A} (a b : list A) : skipn (length a) (a ++ b) = b.
Proof. induction a; cbn; auto. Qed.
Lemma skipn_app_more {A} (a b : list A) n : skipn (length a + n) (a ++ b) = skipn n b.
Proof. induction a; cbn; auto. Qed.

Lemma fread_all : forall s a got b, s_bytes s = a ++ got ++ b -> s_pos s = length a ->
  fread s (length got) = (got, set_pos s (length (a ++ got))).
Proof.
  intros s a got b E P. unfold fread. rewrite P, E, skipn_app_exact, firstn_app_exact.
  now rewrite app_length.
Qed.
Lemma fread_eof : forall s n, (length (s_bytes s) <= s_pos s)%nat -> fread s n = ([], set_pos s (s_pos s)).
Proof.
  intros s n H. unfold fread. rewrite skipn_all2 by auto. rewrite firstn_nil. cbn [length].
  now rewrite Nat.add_0_r.
Qed.
Lemma fread_length : forall s n, (length (fst (fread s n)) <= n)%nat.
Proof. intros. unfold fread. cbn [fst]. apply firstn_le_length. Qed.

Lemma write_at_exact : forall a x b y, length x = length y -> write_at (a ++ x ++ b) (length a) y = a ++ y ++ b.
Proof.
  intros a x b y L. unfold write_at. rewrite firstn_app_exact.
  replace (length a - length (a ++ x ++ b))%nat with 0%nat by (rewrite app_length; lia). cbn [repeat app].
  rewrite skipn_app_more. rewrite <- L, skipn_app_exact. reflexivity.
Qed.
Lemma write_at_end : forall l y, write_at l (length l) y = l ++ y.
Proof.
  intros. unfold write_at. rewrite firstn_all, Nat.sub_diag. cbn [repeat app].
  rewrite skipn_all2 by lia. now rewrite app_nil_r.
Qed.
Lemma write_at_gap : forall l n y, write_at l (length l + n) y = l ++ repeat 0 n ++ y.
Proof.
  intros. unfold write_at. rewrite firstn_all2 by lia. replace (length l + n - length l)%nat with n by lia.
  rewrite skipn_all2 by lia. now rewrite app_nil_r.
Qed.

Lemma fwrite_mid : forall a x b y, length x = length y ->
  fwrite (mkStream (a ++ x ++ b) (length a) false) y = mkStream (a ++ y ++ b) (length (a ++ y)) false.
Proof.
  intros a x b y L. unfold fwrite. cbn [s_append s_pos s_bytes]. destruct y as [|y0 y].
  - destruct x; [|discriminate]. cbn [app]. now rewrite app_nil_r.
  - rewrite write_at_exact by auto. now rewrite app_length.
Qed.
(** Writing at the end, in either mode. *)
Lemma fwrite_end : forall l p ap y, p = length l ->
  fwrite (mkStream l p ap) y = mkStream (l ++ y) (length (l ++ y)) ap.
Proof.
  intros l p ap y ->. unfold fwrite. cbn [s_append s_pos s_bytes].
  replace (if ap then length l else length l) with (length l) by (destruct ap; auto).
  destruct y as [|y0 y]; [now rewrite app_nil_r|]. rewrite write_at_end. now rewrite app_length.
Qed.

(** ** Encodings *)
Lemma be_enc_length : forall w n, length (be_enc w n) = w.
Proof. induction w; intros; cbn [be_enc]; auto. rewrite app_length, IHw. cbn [length]. lia. Qed.
Lemma le_enc_length : forall w n, length (le_enc w n) = w.
Proof. induction w; intros; cbn [le_enc length]; auto. Qed.
Lemma le_dec_enc : forall w n, 0 <= n < 256 ^ Z.of_nat w -> le_dec (le_enc w n) = n.
Proof.
  induction w as [|w IH]; intros n H; cbn [le_enc le_dec].
  - cbn in H. lia.
  - rewrite Nat2Z.inj_succ, Z.pow_succ_r in H by lia. rewrite IH; [lia|].
    split; [apply Z.div_pos; lia|]. apply Z.div_lt_upper_bound; lia.
Qed.
Lemma be_dec_acc_app : forall l acc b, be_dec_acc acc (l ++ [b]) = be_dec_acc acc l * 256 + b.
Proof. induction l as [|x l IH]; intros; cbn [app be_dec_acc]; auto. Qed.
Lemma be_dec_enc : forall w n, 0 <= n < 256 ^ Z.of_nat w -> be_dec (be_enc w n) = n.
Proof.
  unfold be_dec. induction w as [|w IH]; intros n H; cbn [be_enc].
  - cbn in *. lia.
  - rewrite Nat2Z.inj_succ, Z.pow_succ_r in H by lia. rewrite be_dec_acc_app, IH; [lia|].
    split; [apply Z.div_pos; lia|]. apply Z.div_lt_upper_bound; lia.
Qed.
Lemma le_enc_zero : forall w, le_enc w 0 = repeat 0 w.
Proof. induction w; cbn [le_enc repeat]; auto. rewrite Zmod_0_l, Zdiv_0_l. now f_equal. Qed.
Lemma le_dec_zero : forall w, le_dec (repeat 0 w) = 0.
Proof. induction w; cbn [repeat le_dec]; auto. rewrite IHw. lia. Qed.
