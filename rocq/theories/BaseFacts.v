(** Lemmas about the vocabulary of Base.v (proof file, no model content). *)
From Verif Require Import Base.

Lemma upd_length : forall l i v, length (upd i v l) = length l.
Proof. induction l; destruct i; simpl; intros; auto. Qed.

Lemma upd_nth_same : forall l i v d, (i < length l)%nat -> nth i (upd i v l) d = v.
Proof. induction l; simpl; intros; [lia|]. destruct i; simpl; auto. apply IHl; lia. Qed.

Lemma upd_nth_other : forall l i j v d, i <> j -> nth j (upd i v l) d = nth j l d.
Proof. induction l; simpl; intros; auto. destruct i, j; simpl; auto; try lia.
  all: apply IHl; lia. Qed.

Lemma upd_upd : forall l i v w, upd i v (upd i w l) = upd i v l.
Proof. induction l; simpl; intros; auto. destruct i; simpl; auto. now rewrite IHl. Qed.

Lemma upd_id : forall l i d, upd i (nth i l d) l = l.
Proof. induction l; simpl; intros; auto. destruct i; simpl; auto. now rewrite IHl. Qed.

Lemma upd_app_r : forall l1 l2 i v,
  upd (length l1 + i) v (l1 ++ l2) = l1 ++ upd i v l2.
Proof. induction l1; simpl; intros; auto. now rewrite IHl1. Qed.

Lemma upd_app_l : forall l1 l2 i v, (i < length l1)%nat ->
  upd i v (l1 ++ l2) = upd i v l1 ++ l2.
Proof. induction l1; simpl; intros; [lia|]. destruct i; simpl; auto. rewrite IHl1; auto; lia. Qed.

Lemma Forall_upd : forall (P : Z -> Prop) l i v, P v -> Forall P l -> Forall P (upd i v l).
Proof.
  induction l; simpl; intros; auto. inversion H0; subst. destruct i; constructor; auto.
Qed.

Lemma nth_ext_Z : forall (l1 l2 : list Z),
  length l1 = length l2 -> (forall i, (i < length l1)%nat -> nth i l1 0 = nth i l2 0) -> l1 = l2.
Proof. intros. apply (nth_ext l1 l2 0 0); auto. Qed.

Lemma is_digitb_spec : forall c, is_digitb c = true <-> is_digit c.
Proof. unfold is_digitb, is_digit; lia. Qed.

Lemma digits_ok_bytes : forall l, digits_ok l -> bytes_ok l.
Proof. unfold digits_ok, bytes_ok, is_digit, is_byte. intros. eapply Forall_impl; eauto. simpl; lia. Qed.

Lemma Forall_nth_Z : forall (P : Z -> Prop) l i d, Forall P l -> (i < length l)%nat -> P (nth i l d).
Proof. intros. rewrite Forall_forall in H. apply H. now apply nth_In. Qed.

Lemma pow10_pos : forall n, 0 < 10 ^ n \/ n < 0.
Proof. intros. destruct (Z_lt_dec n 0); [right; lia|left; apply Z.pow_pos_nonneg; lia]. Qed.

Lemma pow10_S : forall n : nat, 10 ^ Z.of_nat (S n) = 10 * 10 ^ Z.of_nat n.
Proof. intros. rewrite Nat2Z.inj_succ, Z.pow_succ_r; lia. Qed.

Lemma pow10_pos_nat : forall n : nat, 0 < 10 ^ Z.of_nat n.
Proof. intros. apply Z.pow_pos_nonneg; lia. Qed.

Lemma mod_mod_mul : forall a b c, 0 < b -> 0 < c -> (a mod (b * c)) mod b = a mod b.
Proof.
  intros. rewrite Z.rem_mul_r by lia.
  replace (b * ((a / b) mod c)) with (((a / b) mod c) * b) by (apply Z.mul_comm).
  rewrite Z.mod_add by lia. apply Z.mod_mod. lia.
Qed.
