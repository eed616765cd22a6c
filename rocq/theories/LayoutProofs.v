(** Proofs about the storage layout. *)
From Verif Require Import Base BaseFacts Layout SpecLayout.

Local Open Scope nat_scope.

Lemma item_ind' : forall P : item -> Prop,
  (forall d cs, Forall P cs -> P (Item d cs)) -> forall i, P i.
Proof.
  intros P H. fix IH 1. intros [d cs]. apply H. induction cs as [|c cs IHcs]; constructor; auto.
Qed.

(** Data descriptions for which the layout is right: occurs at least once; a
    SYNC clause on a group has no effect (the group has no binary USAGE). *)
Inductive ok_item : item -> Prop :=
| ok_it : forall d cs, 1 <= d_occ d -> Forall ok_item cs ->
    (cs <> [] -> d_sync d = true -> d_usage d = UDisplay \/ d_usage d = UPacked) -> ok_item (Item d cs).

Lemma layout_off : forall c so o i, p_off (layout c so o i) = o.
Proof. intros c so o [d [|i cs]]; reflexivity. Qed.
Lemma layout_decl : forall c so o i, p_decl (layout c so o i) = it_decl i.
Proof. intros c so o [d [|i cs]]; reflexivity. Qed.
Lemma shift_size : forall p k, p_size (shift p k) = p_size p.
Proof. intros [] k; reflexivity. Qed.
Lemma shift_decl : forall p k, p_decl (shift p k) = p_decl p.
Proof. intros [] k; reflexivity. Qed.
Lemma shift_off : forall p k, p_off (shift p k) = p_off p + k.
Proof. intros [] k; reflexivity. Qed.
Lemma shift_ext : forall p k, p_ext (shift p k) = p_ext p.
Proof. intros [] k; reflexivity. Qed.
Lemma shift_0 : forall p, shift p 0 = p.
Proof. intros []. unfold shift. now rewrite Nat.add_0_r. Qed.

Lemma same_base_tail : forall p ch i j, same_base (p :: ch) (S i) (S j) -> same_base ch i j.
Proof.
  intros p ch i j [A B]. split; [lia|]. intros k q Hk N. apply (B (S k) q); [lia|exact N].
Qed.

(** What the children loop establishes. *)
Definition kids_ok (lo hi boff : nat) (ps : list placed) : Prop :=
  (forall p, In p ps -> well_placed p) /\
  (forall i p, nth_error ps i = Some p -> p_off p + p_ext p <= hi) /\
  (* items before the first non-redefinition start at boff, others at lo or behind *)
  (forall i p, nth_error ps i = Some p -> d_redef (p_decl p) = false -> lo <= p_off p) /\
  (forall i p, nth_error ps i = Some p -> (forall k q, k <= i -> nth_error ps k = Some q -> d_redef (p_decl q) = true) ->
     p_off p = boff) /\
  (forall i p, nth_error ps i = Some p -> boff <= p_off p) /\
  (forall i j p q, i < j -> nth_error ps i = Some p -> nth_error ps j = Some q ->
     if d_redef (p_decl q) then same_base ps i j -> p_off q = p_off p
     else p_off p + p_ext p <= p_off q).

Lemma children_spec : forall c so off cs size boff bext,
  Forall (fun i => ok_item i -> forall o, well_placed (layout c so o i)) cs -> Forall ok_item cs ->
  off <= boff -> boff + bext <= off + size ->
  let x := children (fun o i => layout c so o i) so off cs size boff bext in
  size <= snd x /\ kids_ok (off + size) (off + snd x) boff (fst x).
Proof.
  intros c so off cs. induction cs as [|i cs IH]; intros size boff bext HW HO HB HE; cbn [children fst snd].
  - split; [lia|]. unfold kids_ok. repeat split; intros; try (destruct i; discriminate); try contradiction.
  - inversion HW as [|? ? W1 W2]; subst. inversion HO as [|? ? O1 O2]; subst.
    destruct (d_redef (it_decl i)) eqn:RD; cbv zeta; cbn [fst snd].
    + set (p := layout c so boff i).
      set (size' := if bext <? p_ext p then size + (p_ext p - bext) else size).
      assert (S1 : size <= size' /\ boff + p_ext p <= off + size' /\ boff + bext <= off + size').
      { unfold size'. destruct (Nat.ltb_spec bext (p_ext p)); lia. }
      destruct (IH size' boff bext W2 O2 HB ltac:(lia)) as [A (K1 & K2 & K3 & K4 & K5 & K6)].
      set (x := children _ so off cs size' boff bext) in *.
      assert (PO : p_off p = boff) by apply layout_off.
      assert (PD : d_redef (p_decl p) = true) by (unfold p; rewrite layout_decl; exact RD).
      split; [lia|]. unfold kids_ok. split; [|split; [|split; [|split; [|split]]]].
      * intros q [<-|Q]; [apply W1, O1|auto].
      * intros [|k] q N; cbn [nth_error] in N; [injection N as <-; lia|eauto].
      * intros [|k] q N R; cbn [nth_error] in N; [injection N as <-; congruence|].
        specialize (K3 k q N R). lia.
      * intros [|k] q N R; cbn [nth_error] in N; [injection N as <-; exact PO|].
        apply (K4 k q N). intros k' q' Hk N'. apply (R (S k') q'); [lia|exact N'].
      * intros [|k] q N; cbn [nth_error] in N; [injection N as <-; lia|eauto].
      * intros [|a] [|b] q r H Nq Nr; try lia; cbn [nth_error] in Nq, Nr.
        -- injection Nq as <-. destruct (d_redef (p_decl r)) eqn:R.
           ++ intros [_ SB]. rewrite PO. apply (K4 b r Nr). intros k q' Hk N'. apply (SB (S k) q'); [lia|exact N'].
           ++ specialize (K3 b r Nr R). lia.
        -- specialize (K6 a b q r ltac:(lia) Nq Nr). destruct (d_redef (p_decl r)); [|exact K6].
           intros SB. apply K6. eapply same_base_tail; eauto.
    + set (p := layout c so (off + size) i). set (pad := sync_pad so (it_decl i) (p_size p) (off + size)).
      assert (PO : p_off (shift p pad) = off + size + pad) by (rewrite shift_off; unfold p; rewrite layout_off; lia).
      assert (PD : d_redef (p_decl (shift p pad)) = false) by (rewrite shift_decl; unfold p; rewrite layout_decl; exact RD).
      assert (PE : p_ext (shift p pad) = p_ext p) by apply shift_ext.
      assert (WP : well_placed (shift p pad)).
      { inversion O1 as [d cs' OC OK SY]; subst. destruct cs' as [|i' cs'].
        - unfold p. cbn [layout shift]. constructor; [intros q []|]. intros a b q r _ N. destruct a; discriminate.
        - replace pad with 0; [rewrite shift_0; apply W1, O1|]. unfold pad, sync_pad. cbn [it_decl].
          destruct (d_sync d) eqn:SD; [|reflexivity]. destruct so; [|reflexivity]. cbn [andb].
          assert (AL : sync_align d (p_size p) = 1) by (unfold sync_align; destruct (SY ltac:(discriminate) eq_refl) as [-> | ->]; reflexivity).
          rewrite AL, Nat.mod_1_r. reflexivity. }
      destruct (IH (size + p_ext p + pad) (p_off (shift p pad)) (p_ext p) W2 O2 ltac:(lia) ltac:(lia)) as [A (K1 & K2 & K3 & K4 & K5 & K6)].
      set (x := children _ so off cs (size + p_ext p + pad) (p_off (shift p pad)) (p_ext p)) in *.
      split; [lia|]. unfold kids_ok. split; [|split; [|split; [|split; [|split]]]].
      * intros q [<-|Q]; auto.
      * intros [|k] q N; cbn [nth_error] in N; [injection N as <-; lia|eauto].
      * intros [|k] q N R; cbn [nth_error] in N; [injection N as <-; lia|]. specialize (K3 k q N R). lia.
      * intros [|k] q N R; cbn [nth_error] in N.
        -- injection N as <-. specialize (R 0 (shift p pad) ltac:(lia) eq_refl). congruence.
        -- specialize (R 0 (shift p pad) ltac:(lia) eq_refl). congruence.
      * intros [|k] q N; cbn [nth_error] in N; [injection N as <-; lia|]. specialize (K5 k q N). lia.
      * intros [|a] [|b] q r H Nq Nr; try lia; cbn [nth_error] in Nq, Nr.
        -- injection Nq as <-. destruct (d_redef (p_decl r)) eqn:R.
           ++ intros [_ SB]. apply (K4 b r Nr). intros k q' Hk N'. apply (SB (S k) q'); [lia|exact N'].
           ++ specialize (K3 b r Nr R). lia.
        -- specialize (K6 a b q r ltac:(lia) Nq Nr). destruct (d_redef (p_decl r)); [|exact K6].
           intros SB. apply K6. eapply same_base_tail; eauto.
Qed.

Lemma ext_all : forall p, p_ext p = all_occurrences p.
Proof. intros. unfold p_ext, all_occurrences. apply Nat.mul_comm. Qed.
Lemma layout_well_placed : forall c so i, ok_item i -> forall o, well_placed (layout c so o i).
Proof.
  intros c so. induction i as [d cs IH] using item_ind'. intros OK o. inversion OK as [? ? OC OKS SY]; subst.
  destruct cs as [|i cs].
  - cbn [layout]. constructor; [intros q []|]. intros a b q r _ N. destruct a; discriminate.
  - destruct (children_spec c so o (i :: cs) 0 o 0) as [A (K1 & K2 & K3 & K4 & K5 & K6)]; auto; try lia.
    change (layout c so o (Item d (i :: cs))) with
      (let x := children (fun o i => layout c so o i) so o (i :: cs) 0 o 0 in Placed d o (snd x) (fst x)).
    cbv zeta. constructor.
    + intros p I. split; auto. destruct (In_nth_error _ _ I) as (k & N). rewrite <- ext_all.
      split; [eauto|]. specialize (K2 k p N). lia.
    + intros a b p q H Na Nb. rewrite <- ext_all. exact (K6 a b p q H Na Nb).
Qed.
