(** C49: comparison of national items, both builds. *)
From Verif Require Import Base Compare CmpMore National SpecNational NationalThm.
Local Open Scope Z_scope.

Lemma utf8_app : forall x y, utf8 (x ++ y) = utf8 x ++ utf8 y.
Proof. intros. unfold utf8. now rewrite flat_map_app. Qed.
Lemma utf8_nil : forall t, Forall scalar t -> length (utf8 t) = 0%nat -> t = [].
Proof.
  intros [|c t] H L; [reflexivity|]. inversion H as [|? ? Hc _]; subst. destruct (encode_len c Hc) as [_ P].
  change (utf8 (c :: t)) with (encode c ++ utf8 t) in L. rewrite app_length in L. lia.
Qed.
Lemma diff_prefix : forall p r, diff (p ++ r) p = 0 /\ diff p (p ++ r) = 0.
Proof.
  induction p as [|a p IH]; intros r; [split; [now destruct r|reflexivity]|]. cbn [app diff].
  rewrite Z.eqb_refl. apply IH.
Qed.
Lemma diff_here : forall p a b r1 r2, a <> b -> diff (p ++ a :: r1) (p ++ b :: r2) = a - b.
Proof.
  induction p as [|x p IH]; intros a b r1 r2 N; cbn [app diff].
  - replace (a =? b) with false by lia. reflexivity.
  - rewrite Z.eqb_refl. now apply IH.
Qed.
Lemma skip_text : forall x y, skipn (length (utf8 x)) (utf8 (x ++ y)) = utf8 y.
Proof. intros. rewrite utf8_app, skipn_app, skipn_all, Nat.sub_diag. reflexivity. Qed.

(** UTF-8 build, two texts: the first different character decides by its code
    point; if one text continues the other, the longer is greater unless it
    continues with blanks only.  The comparison always ends. *)
Theorem C49_utf8 : forall t1 t2 fuel, Forall scalar t1 -> Forall scalar t2 ->
  (Nat.min (length (utf8 t1)) (length (utf8 t2)) < fuel)%nat ->
  exists c, cmp_national UTF8 fuel (utf8 t1) (utf8 t2) = Some (Ok c) /\
  (forall p a b r1 r2, t1 = p ++ a :: r1 -> t2 = p ++ b :: r2 -> a <> b -> (a < b -> c < 0) /\ (b < a -> c > 0)) /\
  (forall r, t1 = t2 ++ r -> (Forall blank r -> c = 0) /\ (~ Forall blank r -> c > 0)) /\
  (forall r, t2 = t1 ++ r -> (Forall blank r -> c = 0) /\ (~ Forall blank r -> c < 0)).
Proof.
  intros t1 t2 fuel H1 H2 F. unfold cmp_national.
  set (m := Nat.min (length (utf8 t1)) (length (utf8 t2))) in *.
  destruct (loop_spec t1 t2 H1 H2 fuel m eq_refl F) as (r & -> & S). eexists. split; [reflexivity|]. split; [|split].
  - intros p a b r1 r2 -> -> N. rewrite (diff_here p a b r1 r2 N) in S.
    replace (r =? 0) with false by lia. lia.
  - intros x ->. rewrite (proj1 (diff_prefix t2 x)) in S. replace r with 0 by lia. rewrite Z.eqb_refl.
    apply Forall_app in H1. destruct H1 as [_ Hx].
    assert (m = length (utf8 t2)) as -> by (unfold m; rewrite utf8_app, app_length; lia).
    rewrite skip_text. rewrite utf8_app, app_length.
    replace (length (utf8 t2) + length (utf8 x) <? length (utf8 t2))%nat with false by lia.
    destruct (Nat.ltb_spec (length (utf8 t2)) (length (utf8 t2) + length (utf8 x))) as [L | L].
    + pose proof (padding_utf8 x Hx (length (utf8 t2) + length (utf8 x)) ltac:(lia)) as P.
      destruct (padding UTF8 (length (utf8 t2) + length (utf8 x)) (utf8 x)).
      * split; [reflexivity|]. intros B. elim B. now apply P.
      * split; [|lia]. intros B. apply P in B. discriminate.
    + rewrite (utf8_nil x Hx) by lia. split; [reflexivity|]. intros B. elim B. constructor.
  - intros x ->. rewrite (proj2 (diff_prefix t1 x)) in S. replace r with 0 by lia. rewrite Z.eqb_refl.
    apply Forall_app in H2. destruct H2 as [_ Hx].
    assert (m = length (utf8 t1)) as -> by (unfold m; rewrite utf8_app, app_length; lia).
    rewrite skip_text. rewrite utf8_app, app_length.
    replace (length (utf8 t1) + length (utf8 x) <? length (utf8 t1))%nat with false by lia.
    destruct (Nat.ltb_spec (length (utf8 t1)) (length (utf8 t1) + length (utf8 x))) as [L | L].
    + pose proof (padding_utf8 x Hx (length (utf8 t1) + length (utf8 x)) ltac:(lia)) as P.
      destruct (padding UTF8 (length (utf8 t1) + length (utf8 x)) (utf8 x)).
      * split; [reflexivity|]. intros B. elim B. now apply P.
      * split; [|lia]. intros B. apply P in B. discriminate.
    + rewrite (utf8_nil x Hx) by lia. split; [reflexivity|]. intros B. elim B. constructor.
Qed.
Print Assumptions C49_utf8.

Lemma before_diff : forall x y, before x y -> diff x y < 0 \/ exists b r, y = x ++ b :: r.
Proof.
  intros x y H. induction H as [b l | a b l m H | a l m H IH].
  - right. exists b, l. reflexivity.
  - left. cbn [diff]. replace (a =? b) with false by lia. lia.
  - cbn [diff]. rewrite Z.eqb_refl. destruct IH as [IH | (b & r & ->)]; [now left|]. right. exists b, r. reflexivity.
Qed.
Lemma diff_before : forall x y, diff x y < 0 -> before x y.
Proof.
  induction x as [|a x IH]; intros [|b y] H; cbn [diff] in H; try lia.
  destruct (Z.eqb_spec a b) as [-> | N]; [apply before_next; now apply IH|apply before_here; lia].
Qed.
Lemma diff_zero : forall x y, diff x y = 0 -> (exists r, y = x ++ r) \/ (exists r, x = y ++ r).
Proof.
  induction x as [|a x IH]; intros [|b y] H; cbn [diff] in H; try (left; eexists; reflexivity); try (right; eexists; reflexivity).
  destruct (Z.eqb_spec a b) as [-> | N]; [|lia].
  destruct (IH y H) as [(r & ->) | (r & ->)]; [left|right]; exists r; reflexivity.
Qed.
Lemma diff_swap : forall x y, diff x y = - diff y x.
Proof.
  induction x as [|a x IH]; intros [|b y]; cbn [diff]; try reflexivity.
  rewrite (Z.eqb_sym b a). destruct (Z.eqb_spec a b); [apply IH|lia].
Qed.

(** Items of the same size: the order by code points, which is a strict order
    of all texts. *)
Theorem C49_utf8_order : forall t1 t2 fuel, Forall scalar t1 -> Forall scalar t2 ->
  length (utf8 t1) = length (utf8 t2) -> (length (utf8 t1) < fuel)%nat ->
  exists c, cmp_national UTF8 fuel (utf8 t1) (utf8 t2) = Some (Ok c) /\
    (c < 0 <-> before t1 t2) /\ (c = 0 <-> t1 = t2) /\ (c > 0 <-> before t2 t1).
Proof.
  intros t1 t2 fuel H1 H2 L F. unfold cmp_national. rewrite <- L, Nat.min_id.
  destruct (loop_spec t1 t2 H1 H2 fuel (length (utf8 t1))) as (r & -> & S); [lia|exact F|].
  exists r. rewrite Nat.ltb_irrefl. split; [destruct (Z.eqb_spec r 0) as [->|]; reflexivity|].
  assert (forall x y, Forall scalar x -> Forall scalar y -> length (utf8 x) = length (utf8 y) -> before x y -> diff x y < 0) as B.
  { intros x y _ Hy Lx H. destruct (before_diff x y H) as [D | (b & q & ->)]; [exact D|].
    rewrite utf8_app, app_length in Lx. apply Forall_app in Hy. destruct Hy as [_ Hy].
    assert (b :: q = []) as E by (apply utf8_nil; [exact Hy|lia]). discriminate. }
  assert (diff t1 t2 = 0 -> t1 = t2) as Z0.
  { intros D. destruct (diff_zero t1 t2 D) as [(q & ->) | (q & ->)]; rewrite utf8_app, app_length in L.
    - apply Forall_app in H2. destruct H2 as [_ H2]. rewrite (utf8_nil q H2) by lia. now rewrite app_nil_r.
    - apply Forall_app in H1. destruct H1 as [_ H1]. rewrite (utf8_nil q H1) by lia. now rewrite app_nil_r. }
  split; [|split].
  - split; intros H; [apply diff_before; lia|]. pose proof (B t1 t2 H1 H2 L H). lia.
  - split; intros H; [apply Z0; lia|]. subst. pose proof (proj1 (diff_prefix t2 [])) as D. rewrite app_nil_r in D. lia.
  - pose proof (diff_swap t1 t2) as W. split; intros H; [apply diff_before; lia|].
    pose proof (B t2 t1 H2 H1 (eq_sym L) H). lia.
Qed.
Print Assumptions C49_utf8_order.
Theorem C49_order_strict :
  (forall t, ~ before t t) /\ (forall x y z, before x y -> before y z -> before x z) /\
  (forall x y, before x y \/ x = y \/ before y x).
Proof.
  split; [|split].
  - induction t as [|a t IH]; intros H; inversion H; subst; [lia|contradiction].
  - intros x y z H. revert z. induction H as [b l | a b l m H | a l m H IH]; intros z K; inversion K; subst.
    + constructor.
    + constructor.
    + constructor; lia.
    + constructor; lia.
    + constructor; lia.
    + apply before_next. now apply IH.
  - induction x as [|a x IH]; intros [|b y].
    + auto.
    + left. constructor.
    + right. right. constructor.
    + destruct (Z.lt_trichotomy a b) as [H | [-> | H]].
      * left. now constructor.
      * destruct (IH y) as [H | [-> | H]]; [left|auto|right; right]; now apply before_next.
      * right. right. now constructor.
Qed.
Print Assumptions C49_order_strict.

(** Refuted: the comparison ends.  Two items with X'FF' (HIGH-VALUE) in the
    same place where a character should start are compared forever. *)
Theorem C49_utf8_ends_refuted : exists s1 s2, length s1 = length s2 /\ s1 <> s2 /\
  forall fuel, cmp_national UTF8 fuel s1 s2 = None.
Proof.
  exists [255; 65], [255; 66]. split; [reflexivity|]. split; [discriminate|]. intros fuel.
  unfold cmp_national. cbn [length Nat.min firstn].
  assert (national_u8 fuel [255; 65] [255; 66] = None) as ->; [|reflexivity].
  induction fuel as [|k IH]; [reflexivity|]. exact IH.
Qed.
Print Assumptions C49_utf8_ends_refuted.

(** Refuted: an order of texts of all lengths.  "A" equals "A" with a U+3000,
    which is greater than "A" with U+00E9, which is greater than "A". *)
Theorem C49_utf8_lengths_refuted : exists x y z c1 c2 c3,
  Forall scalar x /\ Forall scalar y /\ Forall scalar z /\
  cmp_national UTF8 20 (utf8 x) (utf8 y) = Some (Ok c1) /\ c1 = 0 /\
  cmp_national UTF8 20 (utf8 y) (utf8 z) = Some (Ok c2) /\ c2 > 0 /\
  cmp_national UTF8 20 (utf8 z) (utf8 x) = Some (Ok c3) /\ c3 > 0.
Proof.
  exists [65], [65; 12288], [65; 233], 0, 1, 1.
  repeat split; try (repeat constructor; unfold scalar; lia); try (vm_compute; reflexivity).
Qed.
Print Assumptions C49_utf8_lengths_refuted.

(** *** Shift-JIS build *)
Lemma dbytes_bytes2 : forall t, Forall double t -> dbytes (bytes2 t) = t.
Proof.
  induction t as [|c t IH]; intros H; [reflexivity|]. inversion H as [|? ? Hc H']; subst.
  change (bytes2 (c :: t)) with (c / 256 :: c mod 256 :: bytes2 t). cbn [dbytes]. rewrite IH by assumption.
  f_equal. unfold double in Hc. lia.
Qed.
Lemma bytes2_len : forall t, length (bytes2 t) = (2 * length t)%nat.
Proof.
  induction t as [|c t IH]; [reflexivity|].
  change (bytes2 (c :: t)) with (c / 256 :: c mod 256 :: bytes2 t). cbn [length]. lia.
Qed.
Lemma bytes2_cut : forall t n, firstn (2 * n) (bytes2 t) = bytes2 (firstn n t) /\ skipn (2 * n) (bytes2 t) = bytes2 (skipn n t).
Proof.
  induction t as [|c t IH]; intros [|n]; try (split; reflexivity).
  change (bytes2 (c :: t)) with (c / 256 :: c mod 256 :: bytes2 t).
    replace (2 * S n)%nat with (S (S (2 * n))) by lia. destruct (IH n) as [A B]. split.
    + cbn [firstn]. rewrite A. reflexivity.
    + cbn [skipn]. exact B.
Qed.
Lemma padding_sjis : forall fuel s, (length s <= fuel)%nat -> (padding SJIS fuel s = true <-> blank_bytes s).
Proof.
  induction fuel as [|k IH]; intros s L.
  - destruct s; [|cbn in L; lia]. split; intros _; [constructor|reflexivity].
  - destruct s as [|a r]; [split; intros _; [constructor|reflexivity]|]. cbn [length] in L. cbn [padding].
    destruct (Z.eqb_spec a 32) as [-> | N].
    + rewrite IH by lia. split; intros H; [now constructor|]. inversion H; subst; assumption.
    + destruct r as [|b r].
      * cbn [zen length Nat.leb andb]. split; [discriminate|]. intros H. inversion H; subst; contradiction.
      * cbn [zen length Nat.leb firstn same_bytes skipn andb]. cbn [length] in L.
        destruct (Z.eqb_spec a 129) as [-> | N1]; cbn [andb]; [|split; [discriminate|]; intros H; inversion H; subst; contradiction].
        destruct (Z.eqb_spec b 64) as [-> | N2]; cbn [andb]; [|split; [discriminate|]; intros H; inversion H; subst; contradiction].
        rewrite IH by lia. split; intros H; [now constructor|]. inversion H; subst; assumption.
Qed.

(** What the Shift-JIS build computes, for items of any lengths: 1 if some
    character of the first operand exceeds the one at the same place of the
    second; otherwise the longer item is greater unless its rest is blank. *)
Theorem C49_sjis : forall t1 t2 fuel, Forall double t1 -> Forall double t2 ->
  exists c, cmp_national SJIS fuel (bytes2 t1) (bytes2 t2) = Some (Ok c) /\
  let exceeds := exists i, (i < length t1)%nat /\ (i < length t2)%nat /\ nth i t2 0 < nth i t1 0 in
  (exceeds -> c = 1) /\
  (~ exceeds ->
     ((length t2 <= length t1)%nat -> (c = 0 \/ c = 1) /\ (c = 0 <-> blank_bytes (bytes2 (skipn (length t2) t1)))) /\
     ((length t1 <= length t2)%nat -> (c = 0 \/ c = -1) /\ (c = 0 <-> blank_bytes (bytes2 (skipn (length t1) t2))))).
Proof.
  intros t1 t2 fuel H1 H2. unfold cmp_national. rewrite !bytes2_len.
  set (n := Nat.min (length t1) (length t2)).
  replace (Nat.min (2 * length t1) (2 * length t2)) with (2 * n)%nat by (unfold n; lia).
  rewrite !(proj1 (bytes2_cut _ n)), !(proj2 (bytes2_cut _ n)).
  assert (forall t, Forall double t -> Forall double (firstn n t)) as Fn.
  { intros t H. apply Forall_forall. intros x Hx. rewrite Forall_forall in H. apply H.
    rewrite <- (firstn_skipn n t). apply in_or_app. now left. }
  destruct (national_cmps_spec n (bytes2 (firstn n t1)) (bytes2 (firstn n t2))) as (r & -> & R & E).
  { rewrite bytes2_len, firstn_length. unfold n. lia. }
  { rewrite bytes2_len, firstn_length. unfold n. lia. }
  rewrite !dbytes_bytes2 in E by auto.
  assert (r = 1 <-> exists i, (i < length t1)%nat /\ (i < length t2)%nat /\ nth i t2 0 < nth i t1 0) as E'.
  { rewrite E. assert (forall t i, (i < n)%nat -> nth i (firstn n t) 0 = nth i t 0) as Nf.
    { intros t i Hi. clear -Hi. revert t i Hi. generalize n. clear n. induction n as [|n IH]; intros t i Hi; [lia|].
      destruct t as [|x t]; [reflexivity|]. destruct i as [|i]; [reflexivity|]. cbn [firstn nth]. apply IH. lia. }
    split.
    - intros (i & L & H). exists i. rewrite !Nf in H by assumption. unfold n in L. repeat split; [lia|lia|exact H].
    - intros (i & L1 & L2 & H). exists i. assert (i < n)%nat as L by (unfold n; lia). split; [exact L|]. now rewrite !Nf. }
  clear E. eexists. split; [reflexivity|]. cbv zeta. split.
  - intros X. apply E' in X. subst r. reflexivity.
  - intros X. assert (r = 0) as -> by (destruct R as [R | R]; [exact R|]; elim X; now apply E'). rewrite Z.eqb_refl.
    destruct (Nat.ltb_spec (2 * length t1) (2 * length t2)) as [L | L].
    + split; [lia|]. intros _. assert (n = length t1) as -> by (unfold n; lia).
      pose proof (padding_sjis (2 * length t2) (bytes2 (skipn (length t1) t2))) as P. rewrite bytes2_len, skipn_length in P.
      specialize (P ltac:(lia)). destruct (padding SJIS (2 * length t2) (bytes2 (skipn (length t1) t2))).
      * split; [now left|]. split; [intros _; now apply P|reflexivity].
      * split; [now right|]. split; [discriminate|]. intros H. apply P in H. discriminate.
    + destruct (Nat.ltb_spec (2 * length t2) (2 * length t1)) as [L' | L'].
      * split; [|lia]. intros _. assert (n = length t2) as -> by (unfold n; lia).
        pose proof (padding_sjis (2 * length t1) (bytes2 (skipn (length t2) t1))) as P. rewrite bytes2_len, skipn_length in P.
        specialize (P ltac:(lia)). destruct (padding SJIS (2 * length t1) (bytes2 (skipn (length t2) t1))).
        -- split; [now left|]. split; [intros _; now apply P|reflexivity].
        -- split; [now right|]. split; [discriminate|]. intros H. apply P in H. discriminate.
      * assert (length t1 = length t2) as El by lia. rewrite El at 2. rewrite <- El at 2.
        rewrite skipn_all2 by lia. rewrite (skipn_all2 t2) by lia.
        split; intros _; (split; [now left|]); split; intros _; try constructor; reflexivity.
Qed.
Print Assumptions C49_sjis.

Example C49_utf8_case : exists c, cmp_national UTF8 20 (utf8 [65; 12354; 32]) (utf8 [65; 12356]) = Some (Ok c) /\ c < 0.
Proof. exists (-1). split; [vm_compute; reflexivity|lia]. Qed.
Example C49_sjis_case : cmp_national SJIS 0 (bytes2 [33440; 33088]) (bytes2 [33440]) = Some (Ok 0).
Proof. vm_compute. reflexivity. Qed.
