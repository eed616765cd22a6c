(** Theorems C68: DISPLAY shows the number an item holds. *)
From Coq Require Import QArith Qabs.
From Verif Require Import Base BaseFacts Field SpecNum SpecStore NumFacts DecProofs BinProofs MoveBin MoveNum SpecEdit.
From Verif Require Import Display SpecDisplay DisplayProofs.
Local Open Scope Z_scope.

(** With pretty printing (the default): sign, integer figures, decimal point, decimals. *)
Theorem C68_display : forall m stack f v,
  edit_cfg m -> denotes (c_ebcdic m) f v -> a_realbin (fa f) = false ->
  1 <= a_digits (fa f) <= 64 -> a_scale (fa f) <= a_digits (fa f) ->
  (* the number has no more digits than the picture *)
  (Qabs (rat v (a_scale (fa f))) < rat (10 ^ a_digits (fa f)) (Z.max 0 (a_scale (fa f))))%Q ->
  exists t, display m true stack f = Ok t /\ shown_as m f (rat v (a_scale (fa f))) t.
Proof.
  intros m stack f v CF D RB HD HS HV. set (S := Z.max 0 (a_scale (fa f))) in *.
  set (N := Z.abs v * 10 ^ (S - a_scale (fa f))).
  assert (P0 : 0 < 10 ^ (S - a_scale (fa f))) by (apply Z.pow_pos_nonneg; unfold S; lia).
  assert (QN : (Qabs (rat v (a_scale (fa f))) == rat N S)%Q).
  { rewrite rat_abs. apply rat_to. unfold S. lia. }
  assert (HN : 0 <= N < 10 ^ a_digits (fa f)).
  { split; [apply Z.mul_nonneg_nonneg; lia|]. apply (rat_lt _ _ S). rewrite <- QN. exact HV. }
  destruct (pretty_spec m f v N CF D) as (neg & SG & E); auto; try lia.
  exists (signed_text (a_sign (fa f)) neg (number_shown m (a_digits (fa f)) (a_scale (fa f)) N)).
  split; [|exists N, neg; split; [exact HN|split; [exact QN|split; [exact SG|reflexivity]]]].
  unfold display. rewrite RB. cbn [orb negb]. destruct (denotes_type _ _ _ D) as [T|[T|T]]; rewrite T; exact E.
Qed.
Print Assumptions C68_display.

(** Without pretty printing. *)
Theorem C68_plain : forall m stack f v,
  denotes (c_ebcdic m) f v -> a_type (fa f) = TDisplay \/ a_type (fa f) = TPacked ->
  a_realbin (fa f) = false -> 1 <= a_digits (fa f) <= 64 -> (128 <= length stack)%nat ->
  Z.abs v < 10 ^ a_digits (fa f) ->
  exists t, display m false stack f = Ok t /\ held_as f (Z.to_nat (a_digits (fa f))) v t.
Proof.
  intros m stack f v D T RB HD HL HV.
  destruct (plain_spec m stack f v D) as (t & E & H); auto; try lia.
  exists t. split; auto. unfold display. rewrite RB. cbn [orb]. destruct T as [T|T]; rewrite T; exact E.
Qed.
Print Assumptions C68_plain.

(** COMP-5 items, and all binary items without pretty printing: every number
    they can hold is shown in full, whatever the picture says. *)
Lemma figures_enough : forall n, (1 <= n <= 8)%nat -> 256 ^ Z.of_nat n < 10 ^ Z.of_nat (binary_figures n).
Proof.
  intros n H. assert (n = 1 \/ n = 2 \/ n = 3 \/ n = 4 \/ n = 5 \/ n = 6 \/ n = 7 \/ n = 8)%nat as C by lia.
  repeat (destruct C as [-> | C]; [reflexivity|]). subst. reflexivity.
Qed.
Theorem C68_binary : forall m pretty stack f v,
  denotes (c_ebcdic m) f v -> a_type (fa f) = TBinary ->
  a_realbin (fa f) = true \/ pretty = false -> (128 <= length stack)%nat ->
  exists t, display m pretty stack f = Ok t /\ held_as f (binary_figures (f_size f)) v t.
Proof.
  intros m pretty stack f v D T RB HL.
  destruct (denotes_binary_cases _ _ _ T D) as (SZ & BO & EV).
  assert (BD : bin_digits (f_size f) = Ok (Z.of_nat (binary_figures (f_size f)))).
  { revert SZ. generalize (f_size f). intros n H.
    assert (n = 1 \/ n = 2 \/ n = 3 \/ n = 4 \/ n = 5 \/ n = 6 \/ n = 7 \/ n = 8)%nat as C by lia.
    repeat (destruct C as [-> | C]; [reflexivity|]). subst. reflexivity. }
  assert (BF : (1 <= binary_figures (f_size f) <= 20)%nat).
  { revert SZ. generalize (f_size f). intros n H.
    assert (n = 1 \/ n = 2 \/ n = 3 \/ n = 4 \/ n = 5 \/ n = 6 \/ n = 7 \/ n = 8)%nat as C by lia.
    repeat (destruct C as [-> | C]; [cbn; lia|]). subst. cbn. lia. }
  set (d := Z.of_nat (binary_figures (f_size f))) in *.
  set (g := mkField (mkAttr (a_type (fa f)) d (a_scale (fa f)) (a_sign (fa f)) (a_sep (fa f)) (a_lead (fa f)) (a_bzero (fa f))
                    (a_just (fa f)) (a_swap (fa f)) (a_realbin (fa f)) (a_pic (fa f))) (fd f)).
  assert (DG : denotes (c_ebcdic m) g v).
  { rewrite EV. apply (den_binary (c_ebcdic m) (fa g) (fd f)); auto. }
  assert (VB : Z.abs v < 10 ^ d).
  { pose proof (figures_enough (f_size f) SZ) as FE. fold d in FE.
    pose proof (bin_unsigned_bound (a_swap (fa f)) (fd f) BO) as B.
    revert EV. unfold bin_value. change (length (fd f)) with (f_size f) in *. set (w := 256 ^ Z.of_nat (f_size f)) in *.
    set (u := bin_unsigned (a_swap (fa f)) (fd f)) in *. clearbody u w. intros ->.
    assert (0 <= w / 2) by (apply Z.div_pos; lia).
    destruct (a_sign (fa f) && (w / 2 <=? u)); lia. }
  destruct (plain_spec m stack g v DG) as (t & E & H).
  - unfold g. cbn [fa a_digits]. unfold d. lia.
  - auto.
  - intros X. unfold g in X. cbn [fa a_type] in X. congruence.
  - exact VB.
  - exists t. split.
    + unfold display. rewrite T. assert (RB' : a_realbin (fa f) || (true && negb pretty) = true).
      { destruct RB as [-> | ->]; [reflexivity|]. now rewrite orb_true_r. }
      rewrite RB', BD. cbn [obind]. unfold g in E. rewrite T in E. exact E.
    + unfold g in H. cbn [fa a_digits] in H. unfold d in H. rewrite Nat2Z.id in H. exact H.
Qed.
Print Assumptions C68_binary.

(** Everything that is not numeric is shown byte for byte. *)
Theorem C68_text : forall m pretty stack f,
  ~ In (a_type (fa f)) [TDisplay; TBinary; TPacked; TFloat; TDouble] -> a_realbin (fa f) = false ->
  display m pretty stack f = Ok (fd f).
Proof.
  intros m pretty stack f H RB. unfold display. rewrite RB. destruct (a_type (fa f)); cbn [orb andb is_numeric_type]; auto;
  exfalso; apply H; cbn; tauto.
Qed.
Print Assumptions C68_text.

(** A DISPLAY statement shows its operands from left to right, then a newline. *)
Theorem C68_statement : forall m pretty stack newline fs ts,
  Forall2 (fun f t => forall s, (128 <= length s)%nat -> display m pretty s f = Ok t) fs ts ->
  (forall i, (128 <= length (stack i))%nat) ->
  cob_display m pretty stack newline fs = Ok (concat ts ++ if newline then [10] else []).
Proof.
  intros m pretty stack newline fs ts H HS. unfold cob_display.
  assert (G : forall i, display_items m pretty stack i fs = Ok (concat ts)).
  { induction H as [|f t fs ts H1 H2 IH]; intros i; cbn [display_items concat]; auto.
    rewrite (H1 (stack i) (HS i)). cbn [obind]. rewrite IH. reflexivity. }
  now rewrite G.
Qed.
Print Assumptions C68_statement.

(** ** Examples *)
Definition junk : list Z := repeat 7 128.
(** PIC S9(3)V99 holding -1.23: [-001.23]. *)
Definition d1 : field := mkField (mkAttr TDisplay 5 2 true false false false false false false []) [48; 48; 49; 50; 115].
Example d1_denotes : denotes false d1 (-123).
Proof.
  apply (den_display false (fa d1) true [0; 0; 1; 2; 3]); auto; try discriminate.
  repeat constructor; cbn; lia.
Qed.
Example d1_shown : display default_cfg true junk d1 = Ok [45; 48; 48; 49; 46; 50; 51].
Proof. vm_compute. reflexivity. Qed.
Example d1_hyp : edit_cfg default_cfg /\ (Qabs (rat (-123) 2) < rat (10 ^ 5) 2)%Q.
Proof. split; [split; [left; reflexivity|cbn; intuition discriminate]|vm_compute; reflexivity]. Qed.
Example d1_plain : display default_cfg false junk d1 = Ok [48; 48; 49; 50; 51; 45].
Proof. vm_compute. reflexivity. Qed.
(** PIC V99 COMP-3 holding 0.07: [.07]. *)
Definition d2 : field := mkField (mkAttr TPacked 2 2 false false false false false false false []) [0; 127].
Example d2_denotes : denotes false d2 7.
Proof. apply (den_packed false (fa d2) false [0; 7]); auto; try discriminate. repeat constructor; cbn; lia. Qed.
Example d2_shown : display default_cfg true junk d2 = Ok [46; 48; 55].
Proof. vm_compute. reflexivity. Qed.
(** PIC 99PPP holding 12000: [12000]. *)
Definition d3 : field := mkField (mkAttr TDisplay 5 (-3) false false false false false false false []) [49; 50].
Example d3_shown : display default_cfg true junk d3 = Ok [49; 50; 48; 48; 48].
Proof. vm_compute. reflexivity. Qed.
(** COMP-5 PIC S9(4) holding -300: [-00300]. *)
Definition d4 : field := mkField (mkAttr TBinary 4 0 true false false false false false true []) [212; 254].
Example d4_denotes : denotes false d4 (-300).
Proof. apply (den_binary false (fa d4) [212; 254]); [reflexivity|cbn; lia|repeat constructor; cbn; lia]. Qed.
Example d4_shown : display default_cfg true junk d4 = Ok [45; 48; 48; 51; 48; 48].
Proof. vm_compute. reflexivity. Qed.
(** DISPLAY "A=" d1. *)
Example d5_shown : cob_display default_cfg true (fun _ => junk) true
   [mkField (mkAttr TAlnum 0 0 false false false false false false false []) [65; 61]; d1]
   = Ok [65; 61; 45; 48; 48; 49; 46; 50; 51; 10].
Proof. vm_compute. reflexivity. Qed.

(** ** What does not hold *)

(** A COMP-5 item with decimals is shown without its decimal point, also with
    pretty printing: PIC 9(2)V99 COMP-5 holding 12.34 is shown as [01234]. *)
Definition d6 : field := mkField (mkAttr TBinary 4 2 false false false false false false true []) [210; 4].
Theorem C68_comp5_scale_refuted :
  denotes false d6 1234 /\
  ~ (forall m stack f v, edit_cfg m -> denotes (c_ebcdic m) f v -> (128 <= length stack)%nat ->
       1 <= a_digits (fa f) <= 64 -> 0 < a_scale (fa f) <= a_digits (fa f) -> Z.abs v < 10 ^ a_digits (fa f) ->
       exists t, display m true stack f = Ok t /\ In (c_decpoint m) t).
Proof.
  assert (D : denotes false d6 1234).
  { apply (den_binary false (fa d6) [210; 4]); [reflexivity|cbn; lia|repeat constructor; cbn; lia]. }
  split; auto. intros H.
  destruct (H default_cfg junk d6 1234) as (t & E & I).
  - apply d1_hyp.
  - exact D.
  - cbn; lia.
  - cbn; lia.
  - cbn; lia.
  - reflexivity.
  - vm_compute in E. injection E as <-. cbn in I. intuition discriminate.
Qed.
Print Assumptions C68_comp5_scale_refuted.

(** A binary item that holds more than its picture (compiled without binary
    truncation) is not shown in full with pretty printing: PIC S9(4) COMP holding
    12345 and holding 2345 are shown alike, as [+2345]. *)
Definition d7 (b0 b1 : Z) : field := mkField (mkAttr TBinary 4 0 true false false false false true false []) [b0; b1].
Theorem C68_overflow_refuted :
  denotes false (d7 48 57) 12345 /\ denotes false (d7 9 41) 2345 /\
  display default_cfg true junk (d7 48 57) = display default_cfg true junk (d7 9 41).
Proof.
  split; [|split].
  - apply (den_binary false (fa (d7 48 57)) [48; 57]); [reflexivity|cbn; lia|repeat constructor; cbn; lia].
  - apply (den_binary false (fa (d7 9 41)) [9; 41]); [reflexivity|cbn; lia|repeat constructor; cbn; lia].
  - vm_compute. reflexivity.
Qed.
Print Assumptions C68_overflow_refuted.
