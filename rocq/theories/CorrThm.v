From Verif Require Import Base Names SpecNames NamesThm NamesThm2 NamesThm3 NamesThm4 NamesThm5 NamesThm6 Corr SpecCorr.
Local Open Scope Z_scope.

Lemma children_part : forall es ns, inv es ns -> forall a i, (a < length es)%nat ->
  (In i (children ns a) <-> part es i a).
Proof. intros es ns I a i L. rewrite (inv_children es ns I a L). apply (kids_in es ns I). Qed.
Lemma part_lt : forall es i a, part es i a -> (a < i < length es)%nat.
Proof. intros es i a [H _]. now apply parent_lt. Qed.
Lemma has_children_group : forall es ns, inv es ns -> forall a, (a < length es)%nat ->
  (has_children ns a = true <-> group es a).
Proof.
  intros es ns I a L. unfold has_children, group.
  pose proof (iv_kids _ _ I a L) as C. pose proof (kids_in es ns I a) as K.
  destruct (n_child (get ns a)) as [x|]; inversion C as [E|? r Hc E1 E2]; subst.
  - split; [|reflexivity]. intros _. exists x. apply K. rewrite <- E2. now left.
  - split; [discriminate|]. intros (i & Hi). apply K in Hi. rewrite <- H in Hi. destruct Hi.
Qed.

Section Two.
Variables es1 es2 : list entry.
Variables ns1 ns2 : list node.
Variables skip1 skip2 : nat -> bool.
Hypothesis I1 : inv es1 ns1.
Hypothesis I2 : inv es2 ns2.
Let s1 : csec := (ns1, skip1).
Let s2 : csec := (ns2, skip2).

Lemma leads_lt : forall es sk a p i, leads es sk a p i -> (a < i < length es)%nat.
Proof. intros es sk a p i H. induction H as [a i H _ | a g p i H _ _ IH]; apply part_lt in H; lia. Qed.

Lemma emit_in : forall fuel a b i j, (a < length es1)%nat -> (b < length es2)%nat ->
  (length es1 <= fuel + a)%nat ->
  (In (i, j) (emit_corr fuel s1 s2 a b) <-> corresponds es1 es2 skip1 skip2 a b i j).
Proof.
  induction fuel as [|k IH]; intros a b i j La Lb F; [lia|].
  cbn [emit_corr]. rewrite in_flat_map. split.
  - intros (x & Hx & H). cbn [s1 fst] in Hx. apply (children_part es1 ns1 I1 a x La) in Hx.
    pose proof (part_lt _ _ _ Hx) as Lx. cbn [s1 snd] in H. destruct (skip1 x) eqn:S1; [destruct H|].
    apply in_flat_map in H. destruct H as (y & Hy & H). cbn [s2 fst] in Hy.
    apply (children_part es2 ns2 I2 b y Lb) in Hy. pose proof (part_lt _ _ _ Hy) as Ly.
    cbn [s2 snd] in H. destruct (skip2 y) eqn:S2; [destruct H|].
    cbn [s1 s2 fst] in H. rewrite (iv_name _ _ I1 x), (iv_name _ _ I2 y) in H by lia.
    destruct (Z.eqb_spec (named es1 x) (named es2 y)) as [En | En]; [|destruct H].
    destruct (has_children ns1 x && has_children ns2 y) eqn:Hc.
    + apply andb_prop in Hc. destruct Hc as [C1 C2].
      apply IH in H; [|lia|lia|lia]. destruct H as ((p & P1 & P2) & Ng). split; [|exact Ng].
      exists (named es1 x :: p). split; [now apply leads_in|]. rewrite En. now apply leads_in.
    + destruct H as [H | []]. injection H as <- <-. split.
      * exists [named es1 x]. split; [now apply leads_part|]. rewrite En. now apply leads_part.
      * intros [G1 G2]. apply (has_children_group es1 ns1 I1) in G1; [|lia].
        apply (has_children_group es2 ns2 I2) in G2; [|lia]. rewrite G1, G2 in Hc. discriminate.
  - intros ((p & P1 & P2) & Ng).
    assert (exists x y, part es1 x a /\ skip1 x = false /\ part es2 y b /\ skip2 y = false /\
              named es1 x = named es2 y /\
              ((x = i /\ y = j) \/ exists q, leads es1 skip1 x q i /\ leads es2 skip2 y q j)) as
      (x & y & Hx & Sx & Hy & Sy & En & R).
    { inversion P1 as [? ? A1 A2 | ? g ? ? A1 A2 A3]; inversion P2 as [? ? B1 B2 | ? h ? ? B1 B2 B3]; subst.
      - match goal with H : [_] = [_] |- _ => injection H as En end. exists i, j. auto 10.
      - match goal with H : _ :: _ = _ :: _ |- _ => injection H as En Ep end. subst. inversion B3.
      - match goal with H : _ :: _ = _ :: _ |- _ => injection H as En Ep end. subst. inversion A3.
      - match goal with H : _ :: _ = _ :: _ |- _ => injection H as En Ep end. subst.
        exists g, h. split; [auto|]. split; [auto|]. split; [auto|]. split; [auto|]. split; [auto|]. right. eauto. }
    pose proof (part_lt _ _ _ Hx) as Lx. pose proof (part_lt _ _ _ Hy) as Ly.
    exists x. split; [now apply (children_part es1 ns1 I1 a x La)|]. cbn [s1 snd]. rewrite Sx.
    apply in_flat_map. exists y. split; [now apply (children_part es2 ns2 I2 b y Lb)|]. cbn [s2 snd]. rewrite Sy.
    cbn [s1 s2 fst]. rewrite (iv_name _ _ I1 x), (iv_name _ _ I2 y) by lia. rewrite En, Z.eqb_refl.
    destruct R as [[-> ->] | (q & Q1 & Q2)].
    + destruct (has_children ns1 i && has_children ns2 j) eqn:Hc; [|now left].
      exfalso. apply andb_prop in Hc. destruct Hc as [C1 C2]. apply Ng.
      split; [apply (has_children_group es1 ns1 I1) in C1|apply (has_children_group es2 ns2 I2) in C2]; auto; lia.
    + assert (group es1 x) as G1 by (inversion Q1; subst; eexists; eassumption).
      assert (group es2 y) as G2 by (inversion Q2; subst; eexists; eassumption).
      apply (has_children_group es1 ns1 I1) in G1; [|lia]. apply (has_children_group es2 ns2 I2) in G2; [|lia].
      rewrite G1, G2. cbn [andb]. apply IH; [lia|lia|lia|]. split; [|exact Ng]. eauto.
Qed.
End Two.

(** No pair twice. *)
Lemma nodup_app : forall (A : Type) (a b : list A), NoDup a -> NoDup b -> (forall x, In x a -> ~ In x b) -> NoDup (a ++ b).
Proof.
  induction a as [|x a IHa]; intros b Na Nb D; [exact Nb|]. cbn [app]. inversion Na; subst. constructor.
  - rewrite in_app_iff. intros [H | H]; [contradiction|]. apply (D x); [now left|exact H].
  - apply IHa; auto. intros y Hy. apply D. now right.
Qed.
Lemma flat_nodup : forall (A B : Type) (f : A -> list B) l, NoDup l ->
  (forall x, In x l -> NoDup (f x)) ->
  (forall x y z, In x l -> In y l -> In z (f x) -> In z (f y) -> x = y) -> NoDup (flat_map f l).
Proof.
  induction l as [|a l IH]; intros N F D; [constructor|]. cbn [flat_map]. inversion N; subst.
  apply nodup_app.
  - apply F. now left.
  - apply IH; auto. { intros; apply F; now right. } intros x y z Hx Hy. apply D; now right.
  - intros z Hz Hz'. apply in_flat_map in Hz'. destruct Hz' as (y & Hy & Hz').
    assert (a = y) by (apply (D a y z); auto; [now left|now right]). now subst.
Qed.

(** An item above [i] that is a part of [a] is unique. *)
Inductive below (es : list entry) : nat -> nat -> Prop :=
  | below_refl : forall g, below es g g
  | below_part : forall g h i, part es i h -> below es g h -> below es g i.
Lemma below_le : forall es g i, below es g i -> (g <= i)%nat.
Proof. intros es g i H. induction H as [g | g h i P _ IH]; [lia|]. apply part_lt in P. lia. Qed.
Lemma below_trans : forall es g h i, below es g h -> below es h i -> below es g i.
Proof. intros es g h i H K. revert g H. induction K; intros g0 H0; [exact H0|]. eapply below_part; eauto. Qed.
Lemma below_unique : forall es i g, below es g i -> forall a h, part es g a -> part es h a -> below es h i -> g = h.
Proof.
  intros es i g H. induction H as [g | g x i P H IH]; intros a h Pg Ph K.
  - inversion K as [| ? y ? Py Ky]; subst; [reflexivity|]. destruct Pg as [Pg _]. destruct Py as [Py _].
    rewrite <- (parent_unique _ _ _ _ Pg Py) in Ky. apply below_le in Ky. apply part_lt in Ph. lia.
  - inversion K as [| ? y ? Py Ky]; subst.
    + destruct Ph as [Ph _]. destruct P as [P _]. rewrite <- (parent_unique _ _ _ _ Ph P) in H.
      apply below_le in H. apply part_lt in Pg. lia.
    + pose proof (parent_unique _ _ _ _ (proj1 P) (proj1 Py)) as E. subst y. exact (IH a h Pg Ph Ky).
Qed.
Lemma leads_below : forall es sk a p i, leads es sk a p i -> below es a i.
Proof.
  intros es sk a p i H. induction H as [a i H _ | a g p i H _ _ IH].
  - eapply below_part; [exact H|constructor].
  - eapply below_trans; [|exact IH]. eapply below_part; [exact H|constructor].
Qed.

Section Two2.
Variables es1 es2 : list entry.
Variables ns1 ns2 : list node.
Variables skip1 skip2 : nat -> bool.
Hypothesis I1 : inv es1 ns1.
Hypothesis I2 : inv es2 ns2.
Let s1 : csec := (ns1, skip1).
Let s2 : csec := (ns2, skip2).

Lemma inner_below : forall k x y i j, (x < length es1)%nat -> (y < length es2)%nat -> (length es1 <= k + x)%nat ->
  In (i, j) (if snd s2 y then [] else if n_name (get (fst s1) x) =? n_name (get (fst s2) y) then
          if has_children (fst s1) x && has_children (fst s2) y then emit_corr k s1 s2 x y else [(x, y)] else []) ->
  below es1 x i /\ below es2 y j.
Proof.
  intros k x y i j Lx Ly F H. destruct (snd s2 y); [destruct H|]. destruct (n_name (get (fst s1) x) =? n_name (get (fst s2) y)); [|destruct H].
  destruct (has_children (fst s1) x && has_children (fst s2) y).
  - apply (emit_in es1 es2 ns1 ns2 skip1 skip2 I1 I2) in H; auto.
    destruct H as ((p & P1 & P2) & _). split; eapply leads_below; eassumption.
  - destruct H as [H | []]. injection H as <- <-. split; constructor.
Qed.
Lemma emit_nodup : forall fuel a b, (a < length es1)%nat -> (b < length es2)%nat ->
  (length es1 <= fuel + a)%nat -> NoDup (emit_corr fuel s1 s2 a b).
Proof.
  induction fuel as [|k IH]; intros a b La Lb F; [constructor|]. cbn [emit_corr].
  assert (NoDup (children (fst s1) a)) as N1.
  { cbn [s1 fst]. rewrite (inv_children es1 ns1 I1 a La). apply filter_seq_nodup. }
  assert (NoDup (children (fst s2) b)) as N2.
  { cbn [s2 fst]. rewrite (inv_children es2 ns2 I2 b Lb). apply filter_seq_nodup. }
  assert (forall x, In x (children (fst s1) a) -> part es1 x a) as C1 by (intros x; apply (children_part es1 ns1 I1 a x La)).
  assert (forall x, In x (children (fst s2) b) -> part es2 x b) as C2 by (intros x; apply (children_part es2 ns2 I2 b x Lb)).
  apply flat_nodup; [exact N1| |].
  - intros x Hx. apply C1 in Hx. pose proof (part_lt _ _ _ Hx) as Lx. destruct (snd s1 x); [constructor|].
    apply flat_nodup; [exact N2| |].
    + intros y Hy. apply C2 in Hy. pose proof (part_lt _ _ _ Hy) as Ly.
      destruct (snd s2 y); [constructor|]. destruct (n_name (get (fst s1) x) =? n_name (get (fst s2) y)); [|constructor].
      destruct (has_children (fst s1) x && has_children (fst s2) y); [apply IH; lia|].
      constructor; [intros []|constructor].
    + intros y y' [i j] Hy Hy' H H'. apply C2 in Hy. apply C2 in Hy'.
      pose proof (part_lt _ _ _ Hy). pose proof (part_lt _ _ _ Hy').
      apply inner_below in H; [|lia|lia|lia]. apply inner_below in H'; [|lia|lia|lia].
      eapply below_unique; [apply H|exact Hy|exact Hy'|apply H'].
  - intros x x' [i j] Hx Hx' H H'. apply C1 in Hx. apply C1 in Hx'.
    pose proof (part_lt _ _ _ Hx). pose proof (part_lt _ _ _ Hx').
    destruct (snd s1 x); [destruct H|]. destruct (snd s1 x'); [destruct H'|].
    apply in_flat_map in H. apply in_flat_map in H'. destruct H as (y & Hy & H). destruct H' as (y' & Hy' & H').
    apply C2 in Hy. apply C2 in Hy'. pose proof (part_lt _ _ _ Hy). pose proof (part_lt _ _ _ Hy').
    apply inner_below in H; [|lia|lia|lia]. apply inner_below in H'; [|lia|lia|lia].
    eapply below_unique; [apply H|exact Hx|exact Hx'|apply H'].
Qed.
End Two2.
