(** RELATIVE files: slots on disk, and each operation on them. *)
From Verif Require Import Base BaseFacts Stdio StdioProofs FileIO SpecFile.

Definition slot := (nat * list Z)%type.
Definition enc_slot (r : slot) : list Z := le_enc 8 (Z.of_nat (fst r)) ++ snd r.
Definition flat (l : list slot) : list Z := flat_map enc_slot l.
Definition slot_ok (mx : nat) (r : slot) : Prop := length (snd r) = mx /\ Z.of_nat (fst r) < 256 ^ 8.

Lemma enc_slot_length : forall mx r, slot_ok mx r -> length (enc_slot r) = (mx + 8)%nat.
Proof. intros mx r [L _]. unfold enc_slot. rewrite app_length, le_enc_length, L. lia. Qed.
Lemma flat_length : forall mx l, Forall (slot_ok mx) l -> length (flat l) = (length l * (mx + 8))%nat.
Proof.
  intros mx l H. induction H as [|r l O _ IH]; auto. unfold flat in *. cbn [flat_map length].
  rewrite app_length, (enc_slot_length mx) by auto. rewrite IH. lia.
Qed.
Lemma flat_app : forall a b, flat (a ++ b) = flat a ++ flat b.
Proof. intros. unfold flat. apply flat_map_app. Qed.
Definition zslot (mx : nat) : slot := (0%nat, repeat 0 mx).
Lemma zslot_ok : forall mx, slot_ok mx (zslot mx).
Proof. intros. unfold zslot, slot_ok. cbn [fst snd]. rewrite repeat_length. split; [auto|vm_compute; reflexivity]. Qed.
Lemma flat_zslots : forall mx j, flat (repeat (zslot mx) j) = repeat 0 (j * (mx + 8)).
Proof.
  intros mx. induction j as [|j IH]; auto. unfold flat in *. cbn [repeat flat_map]. rewrite IH.
  unfold enc_slot, zslot. cbn [fst snd]. change (Z.of_nat 0) with 0. rewrite le_enc_zero.
  rewrite <- !repeat_app. f_equal. lia.
Qed.

Definition map_of (l : list slot) : rmap := fun k =>
  if k <? 1 then None
  else match nth_error l (Z.to_nat (k - 1)) with
       | Some (n, d) => if (0 <? n)%nat then Some (n, d) else None
       | None => None
       end.

(** Slot [i] within the file. *)
Lemma split_at : forall (l : list slot) i r, nth_error l i = Some r -> exists a b, l = a ++ r :: b /\ length a = i.
Proof. intros l i r H. apply nth_error_split in H. destruct H as (a & b & E & L). exists a, b; auto. Qed.
Lemma flat_mid : forall a r b, flat (a ++ r :: b) = flat a ++ le_enc 8 (Z.of_nat (fst r)) ++ snd r ++ flat b.
Proof. intros. rewrite flat_app. unfold flat. cbn [flat_map]. unfold enc_slot. now rewrite <- app_assoc. Qed.

Lemma le8_len : forall n, length (le_enc 8 n) = 8%nat.
Proof. intros. apply le_enc_length. Qed.

Lemma read_size_in : forall mx l i r ap, Forall (slot_ok mx) l -> nth_error l i = Some r ->
  read_slot_size (mkStream (flat l) (i * (mx + 8)) ap) =
    (Some (Ok (fst r)), mkStream (flat l) (i * (mx + 8) + 8) ap).
Proof.
  intros mx l i r ap F N. destruct (split_at l i r N) as (a & b & -> & L).
  rewrite Forall_app, Forall_cons_iff in F. destruct F as (FA & OR & FB).
  unfold read_slot_size, SZ.
  pose proof (fread_all (mkStream (flat (a ++ r :: b)) (i * (mx + 8)) ap) (flat a) (le_enc 8 (Z.of_nat (fst r))) (snd r ++ flat b)) as R.
  cbn [s_bytes s_pos] in R. rewrite le8_len in R. rewrite R; [|apply flat_mid|rewrite (flat_length mx) by auto; now rewrite L].
  rewrite le8_len. cbn [Nat.eqb]. rewrite le_dec_enc by (destruct OR; split; [lia|exact H0]). rewrite Nat2Z.id.
  unfold set_pos. cbn [s_bytes s_append]. rewrite app_length, le8_len, (flat_length mx) by auto. now rewrite L.
Qed.
Lemma read_size_out : forall mx l i ap, Forall (slot_ok mx) l -> (length l <= i)%nat ->
  read_slot_size (mkStream (flat l) (i * (mx + 8)) ap) = (None, mkStream (flat l) (i * (mx + 8)) ap).
Proof.
  intros mx l i ap F L. unfold read_slot_size.
  rewrite fread_eof; [|cbn [s_bytes s_pos]; rewrite (flat_length mx) by auto; apply Nat.mul_le_mono_r; exact L].
  reflexivity.
Qed.
Lemma seek_slot : forall f s k, 0 <= k ->
  fseek_set s (slot_off f k) = Some (set_pos s (Z.to_nat k * (f_max f + 8))).
Proof.
  intros f s k H. unfold fseek_set, slot_off, relsize, SZ. destruct (Z.ltb_spec (k * Z.of_nat (f_max f + 8)) 0); [nia|].
  f_equal. f_equal. rewrite Z2Nat.inj_mul by lia. now rewrite Nat2Z.id.
Qed.
Lemma seek_slot_neg : forall f s k, k < 0 -> fseek_set s (slot_off f k) = None.
Proof.
  intros f s k H. unfold fseek_set, slot_off, relsize, SZ. destruct (Z.ltb_spec (k * Z.of_nat (f_max f + 8)) 0); [auto|nia].
Qed.

Lemma map_of_in : forall (l : list slot) k n d, 1 <= k -> nth_error l (Z.to_nat (k - 1)) = Some (n, d) ->
  map_of l k = if (0 <? n)%nat then Some (n, d) else None.
Proof. intros l k n d K N. unfold map_of. destruct (Z.ltb_spec k 1); [lia|]. now rewrite N. Qed.
Lemma map_of_out : forall (l : list slot) k, (length l <= Z.to_nat (k - 1))%nat -> map_of l k = None.
Proof. intros l k N. unfold map_of. destruct (k <? 1); auto. apply nth_error_None in N. now rewrite N. Qed.
Lemma map_of_neg : forall (l : list slot) k, k < 1 -> map_of l k = None.
Proof. intros l k K. unfold map_of. destruct (Z.ltb_spec k 1); [auto|lia]. Qed.

(** Replacing slot [i]. *)
Fixpoint set_slot (l : list slot) (i : nat) (r : slot) : list slot :=
  match l, i with
  | [], _ => []
  | _ :: t, O => r :: t
  | x :: t, S j => x :: set_slot t j r
  end.
Lemma set_slot_mid : forall a x b r, set_slot (a ++ x :: b) (length a) r = a ++ r :: b.
Proof. induction a; intros; cbn [app length set_slot]; auto. now rewrite IHa. Qed.
Lemma nth_set_slot : forall l i r j, (i < length l)%nat ->
  nth_error (set_slot l i r) j = if (j =? i)%nat then Some r else nth_error l j.
Proof.
  induction l as [|x l IH]; intros i r j H; cbn [length] in H; [lia|].
  destruct i, j; cbn [set_slot nth_error Nat.eqb]; auto. apply IH. lia.
Qed.
Lemma set_slot_Forall : forall (P : slot -> Prop) l i r, Forall P l -> P r -> Forall P (set_slot l i r).
Proof. intros P l i r F O. revert i. induction F; intros [|i]; cbn [set_slot]; constructor; auto. Qed.
Lemma set_slot_ok : forall mx l i r, Forall (slot_ok mx) l -> slot_ok mx r -> Forall (slot_ok mx) (set_slot l i r).
Proof. intros mx l i r F O. revert i. induction F; intros [|i]; cbn [set_slot]; constructor; auto. Qed.
Lemma set_slot_length : forall l i r, length (set_slot l i r) = length l.
Proof. induction l; intros [|i] r; cbn [set_slot length]; auto. Qed.
Lemma map_set_slot : forall l k r, 1 <= k -> (Z.to_nat (k - 1) < length l)%nat ->
  forall j, map_of (set_slot l (Z.to_nat (k - 1)) r) j =
    if j =? k then (if (0 <? fst r)%nat then Some r else None) else map_of l j.
Proof.
  intros l k [n d] K L j. unfold map_of. cbn [fst]. destruct (Z.eqb_spec j k) as [->|NE].
  - destruct (Z.ltb_spec k 1); [lia|]. rewrite nth_set_slot by auto. now rewrite Nat.eqb_refl.
  - destruct (Z.ltb_spec j 1); auto. rewrite nth_set_slot by auto.
    destruct (Nat.eqb_spec (Z.to_nat (j - 1)) (Z.to_nat (k - 1))); [lia|reflexivity].
Qed.
(** Writing beyond the end: the gap is filled with empty slots. *)
Lemma map_extend : forall mx l k r, 1 <= k -> (length l <= Z.to_nat (k - 1))%nat ->
  forall j, map_of (l ++ repeat (zslot mx) (Z.to_nat (k - 1) - length l) ++ [r]) j =
    if j =? k then (if (0 <? fst r)%nat then Some r else None) else map_of l j.
Proof.
  intros mx l k [n d] K L j. unfold map_of. cbn [fst]. set (i := Z.to_nat (k - 1)) in *.
  destruct (Z.ltb_spec j 1).
  - destruct (Z.eqb_spec j k); [lia|auto].
  - set (jj := Z.to_nat (j - 1)). destruct (Nat.lt_ge_cases jj (length l)).
    + rewrite nth_error_app1 by auto. destruct (Z.eqb_spec j k); [subst; unfold i, jj in *; lia|reflexivity].
    + rewrite nth_error_app2 by auto. destruct (Nat.lt_ge_cases jj i).
      * rewrite nth_error_app1 by (rewrite repeat_length; lia).
        destruct (Z.eqb_spec j k); [subst; unfold i, jj in *; lia|].
        rewrite (proj2 (nth_error_None l jj)) by auto.
        rewrite nth_error_repeat by lia. reflexivity.
      * rewrite nth_error_app2 by (rewrite repeat_length; lia). rewrite repeat_length.
        destruct (Z.eqb_spec j k) as [->|NE].
        -- replace (jj - length l - (i - length l))%nat with 0%nat by (unfold i, jj in *; lia). reflexivity.
        -- rewrite (proj2 (nth_error_None l jj)) by auto.
           destruct (jj - length l - (i - length l))%nat as [|q] eqn:Q; [unfold i, jj in *; lia|].
           destruct q; reflexivity.
Qed.

(** fwrite of the size and the data in slot [i]. *)
Lemma write_slot_in : forall f (l : list slot) i r, Forall (slot_ok (f_max f)) l -> nth_error l i = Some r ->
  length (f_data f) = f_max f -> (1 <= f_max f)%nat -> 
  write_slot f (mkStream (flat l) (i * (f_max f + 8)) false) =
    Ok (0, set_stream (Some (mkStream (flat (set_slot l i (f_size f, f_data f))) (S i * (f_max f + 8)) false)) f).
Proof.
  intros f l i r F N LD MX. destruct (split_at l i r N) as (a & b & -> & <-).
  rewrite Forall_app, Forall_cons_iff in F. destruct F as (FA & [RL RS] & FB).
  unfold write_slot. rewrite LD, Nat.ltb_irrefl. destruct (Nat.eqb_spec (f_max f) 0); [lia|].
  rewrite flat_mid. rewrite <- (flat_length (f_max f) a) by auto.
  rewrite (fwrite_mid (flat a) (le_enc 8 (Z.of_nat (fst r))) (snd r ++ flat b) (le_enc SZ (Z.of_nat (f_size f)))) by (rewrite !le_enc_length; reflexivity).
  rewrite (app_assoc (flat a)).
  rewrite (fwrite_mid (flat a ++ le_enc SZ (Z.of_nat (f_size f))) (snd r) (flat b)).
  2: rewrite firstn_all2 by lia; lia.
  rewrite firstn_all2 by lia. rewrite set_slot_mid, flat_mid. cbn [fst snd]. unfold SZ.
  rewrite !app_length, le_enc_length, LD, (flat_length (f_max f)) by auto. rewrite <- !app_assoc.
  do 5 f_equal. lia.
Qed.
Lemma write_slot_out : forall f l i, Forall (slot_ok (f_max f)) l -> (length l <= i)%nat ->
  length (f_data f) = f_max f -> (1 <= f_max f)%nat ->
  write_slot f (mkStream (flat l) (i * (f_max f + 8)) false) =
    Ok (0, set_stream (Some (mkStream (flat (l ++ repeat (zslot (f_max f)) (i - length l) ++ [(f_size f, f_data f)])) (S i * (f_max f + 8)) false)) f).
Proof.
  intros f l i F L LD MX. unfold write_slot. rewrite LD, Nat.ltb_irrefl. destruct (Nat.eqb_spec (f_max f) 0); [lia|].
  rewrite firstn_all2 by lia.
  set (W := le_enc SZ (Z.of_nat (f_size f))).
  assert (E1 : fwrite (mkStream (flat l) (i * (f_max f + 8)) false) W =
    mkStream (flat (l ++ repeat (zslot (f_max f)) (i - length l)) ++ W) (length (flat (l ++ repeat (zslot (f_max f)) (i - length l)) ++ W)) false).
  { unfold fwrite. cbn [s_append s_bytes s_pos]. destruct W as [|w0 W'] eqn:EW; [discriminate|].
    replace (i * (f_max f + 8))%nat with (length (flat l) + (i - length l) * (f_max f + 8))%nat
      by (rewrite (flat_length (f_max f)) by auto; rewrite <- Nat.mul_add_distr_r; f_equal; lia).
    rewrite write_at_gap. rewrite flat_app, flat_zslots. rewrite <- !app_assoc. f_equal.
    rewrite !app_length, repeat_length. lia. }
  rewrite E1. rewrite fwrite_end by reflexivity.
  replace (flat (l ++ repeat (zslot (f_max f)) (i - length l) ++ [(f_size f, f_data f)]))
    with ((flat (l ++ repeat (zslot (f_max f)) (i - length l)) ++ W) ++ f_data f).
  2:{ rewrite (app_assoc l), (flat_app (l ++ _)), <- app_assoc. f_equal. unfold flat. cbn [flat_map]. rewrite app_nil_r. reflexivity. }
  do 5 f_equal. rewrite !app_length, flat_app, app_length, flat_zslots, repeat_length, (flat_length (f_max f)) by auto.
  unfold W. rewrite le_enc_length, LD. unfold SZ. nia.
Qed.
