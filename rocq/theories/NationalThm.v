From Verif Require Import Base Compare CmpMore National SpecNational.
Local Open Scope Z_scope.

Lemma encode_len : forall c, scalar c ->
  u8len (hd 0 (encode c)) = Z.of_nat (length (encode c)) /\ (1 <= length (encode c))%nat.
Proof.
  intros c H. unfold scalar in H. unfold encode, u8len.
  destruct (Z.ltb_spec c 128); [|destruct (Z.ltb_spec c 2048); [|destruct (Z.ltb_spec c 65536)]]; cbn [hd length].
  - replace (c / 128 =? 0) with true by lia. split; lia.
  - replace ((192 + c / 64) / 128 =? 0) with false by lia. replace ((192 + c / 64) / 32 =? 6) with true by lia. split; lia.
  - replace ((224 + c / 4096) / 128 =? 0) with false by lia. replace ((224 + c / 4096) / 32 =? 6) with false by lia.
    replace ((224 + c / 4096) / 16 =? 14) with true by lia. split; lia.
  - replace ((240 + c / 262144) / 128 =? 0) with false by lia. replace ((240 + c / 262144) / 32 =? 6) with false by lia.
    replace ((240 + c / 262144) / 16 =? 14) with false by lia. replace ((240 + c / 262144) / 8 =? 30) with true by lia. split; lia.
Qed.

Lemma memcmp_same : forall x, memcmp x x = 0.
Proof. induction x as [|a x IH]; [reflexivity|]. cbn [memcmp]. now rewrite Z.eqb_refl. Qed.

(** Longer encodings are those of greater code points. *)
Lemma encode_shorter : forall a b, scalar a -> scalar b -> (length (encode a) < length (encode b))%nat -> a < b.
Proof.
  intros a b Ha Hb. unfold scalar, encode in *.
  destruct (Z.ltb_spec a 128); [|destruct (Z.ltb_spec a 2048); [|destruct (Z.ltb_spec a 65536)]];
    (destruct (Z.ltb_spec b 128); [|destruct (Z.ltb_spec b 2048); [|destruct (Z.ltb_spec b 65536)]]); cbn [length]; lia.
Qed.
Lemma encode_order : forall a b, scalar a -> scalar b -> length (encode a) = length (encode b) -> a < b ->
  memcmp (encode a) (encode b) = -1 /\ memcmp (encode b) (encode a) = 1.
Proof.
  intros a b Ha Hb. unfold scalar, encode in *.
  destruct (Z.ltb_spec a 128); [|destruct (Z.ltb_spec a 2048); [|destruct (Z.ltb_spec a 65536)]];
    (destruct (Z.ltb_spec b 128); [|destruct (Z.ltb_spec b 2048); [|destruct (Z.ltb_spec b 65536)]]); cbn [length]; intros L O; try lia; cbn [memcmp].
  - replace (a =? b) with false by lia. replace (b =? a) with false by lia.
    replace (a <? b) with true by lia. replace (b <? a) with false by lia. auto.
  - destruct (Z.eqb_spec (192 + a / 64) (192 + b / 64)) as [E | E].
    + rewrite E, Z.eqb_refl. assert (a / 64 = b / 64) as E' by lia. clear E.
      replace (128 + a mod 64 =? 128 + b mod 64) with false by lia. replace (128 + b mod 64 =? 128 + a mod 64) with false by lia.
      replace (128 + a mod 64 <? 128 + b mod 64) with true by lia. replace (128 + b mod 64 <? 128 + a mod 64) with false by lia. auto.
    + replace (192 + b / 64 =? 192 + a / 64) with false by lia.
      replace (192 + a / 64 <? 192 + b / 64) with true by lia. replace (192 + b / 64 <? 192 + a / 64) with false by lia. auto.
  - destruct (Z.eqb_spec (224 + a / 4096) (224 + b / 4096)) as [E | E].
    + rewrite E, Z.eqb_refl. assert (a / 4096 = b / 4096) as E' by lia. clear E.
      destruct (Z.eqb_spec (128 + (a / 64) mod 64) (128 + (b / 64) mod 64)) as [F | F].
      * rewrite F, Z.eqb_refl. assert (a / 64 = b / 64) as F' by lia.
        replace (128 + a mod 64 =? 128 + b mod 64) with false by lia. replace (128 + b mod 64 =? 128 + a mod 64) with false by lia.
        replace (128 + a mod 64 <? 128 + b mod 64) with true by lia. replace (128 + b mod 64 <? 128 + a mod 64) with false by lia. auto.
      * replace (128 + (b / 64) mod 64 =? 128 + (a / 64) mod 64) with false by lia.
        replace (128 + (a / 64) mod 64 <? 128 + (b / 64) mod 64) with true by lia.
        replace (128 + (b / 64) mod 64 <? 128 + (a / 64) mod 64) with false by lia. auto.
    + replace (224 + b / 4096 =? 224 + a / 4096) with false by lia.
      replace (224 + a / 4096 <? 224 + b / 4096) with true by lia. replace (224 + b / 4096 <? 224 + a / 4096) with false by lia. auto.
  - destruct (Z.eqb_spec (240 + a / 262144) (240 + b / 262144)) as [E | E].
    + rewrite E, Z.eqb_refl. assert (a / 262144 = b / 262144) as E' by lia. clear E.
      destruct (Z.eqb_spec (128 + (a / 4096) mod 64) (128 + (b / 4096) mod 64)) as [F | F].
      * rewrite F, Z.eqb_refl. assert (a / 4096 = b / 4096) as F' by lia. clear F.
        destruct (Z.eqb_spec (128 + (a / 64) mod 64) (128 + (b / 64) mod 64)) as [G | G].
        -- rewrite G, Z.eqb_refl. assert (a / 64 = b / 64) as G' by lia. clear G.
           replace (128 + a mod 64 =? 128 + b mod 64) with false by lia. replace (128 + b mod 64 =? 128 + a mod 64) with false by lia.
           replace (128 + a mod 64 <? 128 + b mod 64) with true by lia. replace (128 + b mod 64 <? 128 + a mod 64) with false by lia. auto.
        -- replace (128 + (b / 64) mod 64 =? 128 + (a / 64) mod 64) with false by lia.
           replace (128 + (a / 64) mod 64 <? 128 + (b / 64) mod 64) with true by lia.
           replace (128 + (b / 64) mod 64 <? 128 + (a / 64) mod 64) with false by lia. auto.
      * replace (128 + (b / 4096) mod 64 =? 128 + (a / 4096) mod 64) with false by lia.
        replace (128 + (a / 4096) mod 64 <? 128 + (b / 4096) mod 64) with true by lia.
        replace (128 + (b / 4096) mod 64 <? 128 + (a / 4096) mod 64) with false by lia. auto.
    + replace (240 + b / 262144 =? 240 + a / 262144) with false by lia.
      replace (240 + a / 262144 <? 240 + b / 262144) with true by lia. replace (240 + b / 262144 <? 240 + a / 262144) with false by lia. auto.
Qed.
Lemma memcmp_encode : forall a b, scalar a -> scalar b -> length (encode a) = length (encode b) ->
  Z.sgn (memcmp (encode a) (encode b)) = Z.sgn (a - b).
Proof.
  intros a b Ha Hb L. destruct (Z.lt_trichotomy a b) as [H | [H | H]].
  - rewrite (proj1 (encode_order a b Ha Hb L H)). lia.
  - subst. rewrite memcmp_same, Z.sub_diag. reflexivity.
  - rewrite (proj2 (encode_order b a Hb Ha (eq_sym L) H)). lia.
Qed.

(** The first difference of two texts. *)
Fixpoint diff (x y : list Z) : Z :=
  match x, y with
  | a :: x', b :: y' => if a =? b then diff x' y' else a - b
  | _, _ => 0
  end.
Lemma hd_app : forall (x y : list Z), (1 <= length x)%nat -> exists r, x ++ y = hd 0 x :: r.
Proof. intros [|a x] y L; [cbn in L; lia|]. eexists. reflexivity. Qed.
Lemma firstn_hd : forall (x : list Z) m a r, x = a :: r -> (1 <= m)%nat -> firstn m x = a :: firstn (m - 1) r.
Proof. intros x [|m] a r -> L; [lia|]. replace (S m - 1)%nat with m by lia. reflexivity. Qed.

Lemma loop_spec : forall t1 t2, Forall scalar t1 -> Forall scalar t2 -> forall fuel m,
  m = Nat.min (length (utf8 t1)) (length (utf8 t2)) -> (m < fuel)%nat ->
  exists r, national_u8 fuel (firstn m (utf8 t1)) (firstn m (utf8 t2)) = Some r /\ Z.sgn r = Z.sgn (diff t1 t2).
Proof.
  induction t1 as [|a t1 IH]; intros t2 H1 H2 fuel m Em F.
  - cbn [utf8 flat_map length] in Em. rewrite Nat.min_0_l in Em. subst m. destruct fuel; [lia|].
    exists 0. split; reflexivity.
  - destruct t2 as [|b t2].
    + rewrite Nat.min_0_r in Em. subst m. destruct fuel; [lia|]. exists 0. split; reflexivity.
    + inversion H1 as [|? ? Ha H1']; subst. inversion H2 as [|? ? Hb H2']; subst.
      destruct (encode_len a Ha) as [La Pa]. destruct (encode_len b Hb) as [Lb Pb].
      set (m := Nat.min (length (utf8 (a :: t1))) (length (utf8 (b :: t2)))) in *.
      assert (m = Nat.min (length (encode a) + length (utf8 t1)) (length (encode b) + length (utf8 t2))) as Em.
      { unfold m, utf8. cbn [flat_map]. now rewrite !app_length. }
      change (utf8 (a :: t1)) with (encode a ++ utf8 t1). change (utf8 (b :: t2)) with (encode b ++ utf8 t2).
      destruct (hd_app (encode a) (utf8 t1) Pa) as [ra Ea]. destruct (hd_app (encode b) (utf8 t2) Pb) as [rb Eb].
      destruct fuel as [|k]; [lia|]. cbn [diff].
      destruct (Nat.eq_dec (length (encode a)) (length (encode b))) as [El | Nl].
      * set (n := length (encode a)) in *.
        assert (firstn m (encode a ++ utf8 t1) = encode a ++ firstn (m - n) (utf8 t1)) as Fa.
        { rewrite firstn_app. fold n. rewrite firstn_all2 by lia. reflexivity. }
        assert (firstn m (encode b ++ utf8 t2) = encode b ++ firstn (m - n) (utf8 t2)) as Fb.
        { rewrite firstn_app. rewrite <- El. rewrite firstn_all2 by lia. reflexivity. }
        assert (forall k, national_u8 (S k) (firstn m (encode a ++ utf8 t1)) (firstn m (encode b ++ utf8 t2)) =
                  let r := memcmp (encode a) (encode b) in
                  if r =? 0 then national_u8 k (firstn (m - n) (utf8 t1)) (firstn (m - n) (utf8 t2)) else Some r) as St.
        { intros k'. rewrite Fa, Fb.
          destruct (hd_app (encode a) (firstn (m - n) (utf8 t1)) Pa) as [ra' Ea'].
          destruct (hd_app (encode b) (firstn (m - n) (utf8 t2)) Pb) as [rb' Eb'].
          cbn [national_u8]. rewrite Ea', Eb'. rewrite <- Ea', <- Eb'. cbv zeta. rewrite La, Lb, <- El, Z.eqb_refl.
          replace (Z.of_nat (length (encode a ++ firstn (m - n) (utf8 t1))) <? Z.of_nat n) with false
            by (rewrite app_length; fold n; lia).
          rewrite Nat2Z.id. rewrite !firstn_app, !skipn_app, <- El. fold n. rewrite Nat.sub_diag.
          cbn [firstn skipn]. rewrite !app_nil_r.
          rewrite (firstn_all2 (encode a)), (firstn_all2 (encode b)) by lia.
          rewrite (skipn_all2 (encode a)), (skipn_all2 (encode b)) by lia. reflexivity. }
        rewrite St. cbv zeta. pose proof (memcmp_encode a b Ha Hb El) as M.
        destruct (Z.eqb_spec a b) as [-> | Nab].
        -- rewrite memcmp_same. rewrite Z.eqb_refl. apply IH; auto; [|lia].
           rewrite Em. fold n in El. unfold n in *. lia.
        -- replace (memcmp (encode a) (encode b) =? 0) with false by lia. eexists. split; [reflexivity|]. exact M.
      * assert (1 <= m)%nat as Lm by lia.
        rewrite (firstn_hd _ m _ _ Ea Lm), (firstn_hd _ m _ _ Eb Lm). cbn [national_u8]. cbv zeta. rewrite La, Lb.
        replace (Z.of_nat (length (encode a)) =? Z.of_nat (length (encode b))) with false by lia.
        eexists. split; [reflexivity|].
        destruct (Z.eqb_spec a b) as [-> | Nab]; [lia|].
        destruct (lt_dec (length (encode a)) (length (encode b))) as [H | H].
        -- pose proof (encode_shorter a b Ha Hb H). lia.
        -- pose proof (encode_shorter b a Hb Ha ltac:(lia)). lia.
Qed.

(** Blanks. *)
Lemma same_bytes_ok : forall x y, same_bytes x y = true <-> x = y.
Proof.
  induction x as [|a x IH]; intros [|b y]; cbn [same_bytes]; split; intros H; try discriminate; try reflexivity.
  - apply andb_prop in H. destruct H as [H1 H2]. apply Z.eqb_eq in H1. apply IH in H2. now subst.
  - injection H as -> ->. rewrite Z.eqb_refl. now apply IH.
Qed.
Lemma padding_utf8 : forall t, Forall scalar t -> forall fuel, (length (utf8 t) <= fuel)%nat ->
  (padding UTF8 fuel (utf8 t) = true <-> Forall blank t).
Proof.
  induction t as [|c t IH]; intros H fuel F.
  - destruct fuel; cbn; split; auto.
  - inversion H as [|? ? Hc H']; subst. change (utf8 (c :: t)) with (encode c ++ utf8 t) in *.
    rewrite app_length in F. destruct (encode_len c Hc) as [Lc Pc].
    destruct fuel as [|k]; [lia|].
    destruct (Z.eq_dec c 32) as [-> | N1].
    + change (encode 32) with [32] in *. cbn [app padding]. rewrite Z.eqb_refl. cbn [length] in F. rewrite (IH H') by lia.
      split; intros B; [constructor; [now left|exact B]|now inversion B].
    + destruct (Z.eq_dec c 12288) as [-> | N2].
      * change (encode 12288) with [227; 128; 128] in *. cbn [length] in F.
        cbn [app padding zen length]. replace (227 =? 32) with false by reflexivity.
        cbn [Nat.leb firstn same_bytes skipn]. rewrite !Z.eqb_refl. cbn [andb]. rewrite (IH H') by lia.
        split; intros B; [constructor; [now right|exact B]|now inversion B].
      * assert (padding UTF8 (S k) (encode c ++ utf8 t) = false) as ->.
        2:{ split; [discriminate|]. intros B. inversion B as [|? ? B1 _]; subst. destruct B1; contradiction. }
        unfold scalar in Hc. unfold encode.
        destruct (Z.ltb_spec c 128); [|destruct (Z.ltb_spec c 2048); [|destruct (Z.ltb_spec c 65536)]]; cbn [app padding].
        -- replace (c =? 32) with false by lia. cbn [zen firstn length same_bytes].
           replace (c =? 227) with false by lia. cbn [andb]. now rewrite andb_false_r.
        -- replace (192 + c / 64 =? 32) with false by lia. cbn [zen firstn length same_bytes].
           replace (192 + c / 64 =? 227) with false by lia. cbn [andb]. now rewrite andb_false_r.
        -- replace (224 + c / 4096 =? 32) with false by lia. cbn [zen firstn length same_bytes].
           destruct (Z.eqb_spec (224 + c / 4096) 227) as [E1 | E1]; cbn [andb]; [|now rewrite andb_false_r].
           destruct (Z.eqb_spec (128 + (c / 64) mod 64) 128) as [E2 | E2]; cbn [andb]; [|now rewrite andb_false_r].
           replace (128 + c mod 64 =? 128) with false by lia. cbn [andb]. now rewrite andb_false_r.
        -- replace (240 + c / 262144 =? 32) with false by lia. cbn [zen firstn length same_bytes].
           replace (240 + c / 262144 =? 227) with false by lia. cbn [andb]. now rewrite andb_false_r.
Qed.
