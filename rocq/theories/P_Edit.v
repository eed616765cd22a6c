(** Theorems C20: numeric editing and de-editing by MOVE. *)
From Coq Require Import QArith Qabs.
From Verif Require Import Base BaseFacts Field Sign Decimal SpecNum Numeric SpecStore NumFacts.
From Verif Require Import DispProofs DecProofs StoreProofs P_Num.
From Verif Require Import Move Edited MoveAll SpecMove MoveProofs MoveNum MoveText MoveMore.
From Verif Require Import SpecEdit EditProofs EditFinish EditMove EditBack EditRead.
Local Open Scope Z_scope.

(** ** C20: the text shown.  For every picture, every sender (DISPLAY, COMP-3,
    binary) and every number. *)
Theorem C20_edit : forall m f1 f2 p v N,
  edit_cfg m -> editable p -> denotes (c_ebcdic m) f1 v -> edited_item m p f2 ->
  (a_type (fa f1) = TPacked -> a_digits (fa f1) <= 64) ->
  editable_number p (rat v (a_scale (fa f1))) (a_bzero (fa f2)) N ->
  exists neg, sign_of (rat v (a_scale (fa f1))) neg /\
    cob_move m f1 f2 = Ok (f1, set_fd f2 (edited_text m p N neg (a_bzero (fa f2)))).
Proof. exact move_to_edited. Qed.
Print Assumptions C20_edit.

(** The same from a number written as text. *)
Theorem C20_edit_text : forall m f1 f2 p v F N,
  edit_cfg m -> editable p -> point_cfg m -> text_type (a_type (fa f1)) -> fd f1 <> [] ->
  number_text m (fd f1) v F -> F <= 18 -> Z.abs v < 10 ^ (18 + F) -> edited_item m p f2 ->
  editable_number p (rat v F) (a_bzero (fa f2)) N ->
  exists neg, sign_of (rat v F) neg /\
    cob_move m f1 f2 = Ok (f1, set_fd f2 (edited_text m p N neg (a_bzero (fa f2)))).
Proof. exact text_to_edited. Qed.
Print Assumptions C20_edit_text.

(** ** C20: the number read back from the text. *)
Theorem C20_deedit : forall m p f1 f2 N neg,
  edit_cfg m -> editable p -> readable p -> edited_item m p f1 -> numeric_item f2 ->
  0 <= N < 10 ^ places (p_body p) ->
  (has is_float (p_body p) = true -> N < 10 ^ (places (p_body p) - 1)) ->
  fd f1 = edited_text m p N neg (a_bzero (fa f1)) ->
  (a_type (fa f2) <> TDisplay -> decimals (p_body p) <= 18 /\ N < 10 ^ (18 + decimals (p_body p))) ->
  (a_type (fa f2) = TBinary -> (c_bintrunc m && negb (a_realbin (fa f2)) = true -> a_digits (fa f2) <= 18) /\
     -18 <= a_scale (fa f2) /\
     forall w, trunc_at (read_back p N neg) (a_scale (fa f2)) w -> Z.abs w < 2 ^ 63 /\ bin_range f2 (kept_digits m f2 w)) ->
  exists f2', cob_move m f1 f2 = Ok (f1, f2') /\ received m f2 f2' (read_back p N neg).
Proof. exact edited_to_numeric. Qed.
Print Assumptions C20_deedit.

(** One edited item to another: de-edited and edited again. *)
Theorem C20_reedit : forall m p1 p2 f1 f2 N neg N2,
  edit_cfg m -> editable p1 -> readable p1 -> edited_item m p1 f1 -> editable p2 -> edited_item m p2 f2 ->
  0 <= N < 10 ^ places (p_body p1) ->
  (has is_float (p_body p1) = true -> N < 10 ^ (places (p_body p1) - 1)) ->
  fd f1 = edited_text m p1 N neg (a_bzero (fa f1)) ->
  decimals (p_body p1) <= 18 -> N < 10 ^ (18 + decimals (p_body p1)) ->
  editable_number p2 (read_back p1 N neg) (a_bzero (fa f2)) N2 ->
  exists neg2, sign_of (read_back p1 N neg) neg2 /\
    cob_move m f1 f2 = Ok (f1, set_fd f2 (edited_text m p2 N2 neg2 (a_bzero (fa f2)))).
Proof. exact edited_to_edited. Qed.
Print Assumptions C20_reedit.

(** ** C20: there and back.  If the digits in front of the decimal point fit
    the picture (a floating sign or currency sign takes one place), and the
    picture shows the sign or the number is not negative, then the second MOVE
    receives the number, cut at the picture's decimal point. *)
Theorem C20_roundtrip : forall m p f1 f2 f3 v w,
  edit_cfg m -> editable p -> readable p ->
  denotes (c_ebcdic m) f1 v -> (a_type (fa f1) = TPacked -> a_digits (fa f1) <= 64) ->
  edited_item m p f2 -> numeric_item f3 ->
  trunc_at (rat v (a_scale (fa f1))) (decimals (p_body p)) w ->
  Z.abs w < 10 ^ (if has is_float (p_body p) then places (p_body p) - 1 else places (p_body p)) ->
  (carries_sign p = true \/ 0 <= v) ->
  (p_trail p = TPlus \/ p_trail p = TMinus -> next_zero p (rat v (a_scale (fa f1))) \/ blanked p (Z.abs w) (a_bzero (fa f2)) = false) ->
  (a_type (fa f3) <> TDisplay -> decimals (p_body p) <= 18 /\ Z.abs w < 10 ^ (18 + decimals (p_body p))) ->
  (a_type (fa f3) = TBinary -> (c_bintrunc m && negb (a_realbin (fa f3)) = true -> a_digits (fa f3) <= 18) /\
     -18 <= a_scale (fa f3) /\
     forall x, trunc_at (rat w (decimals (p_body p))) (a_scale (fa f3)) x -> Z.abs x < 2 ^ 63 /\ bin_range f3 (kept_digits m f3 x)) ->
  exists f2' f3', cob_move m f1 f2 = Ok (f1, f2') /\ cob_move m f2' f3 = Ok (f2', f3') /\
    received m f3 f3' (rat w (decimals (p_body p))).
Proof. exact there_and_back. Qed.
Print Assumptions C20_roundtrip.

(** ** What the text looks like, in general *)

(** One character for each position of the picture. *)
Theorem C20_size : forall m p N neg bz, length (edited_text m p N neg bz) = pic_size p.
Proof. exact text_length. Qed.
Print Assumptions C20_size.

(** The digits that are shown are those of the number, up to leading zeros. *)
Theorem C20_digits : forall m p N neg,
  edit_cfg m -> editable p -> readable p -> 0 <= N < 10 ^ places (p_body p) ->
  (has is_float (p_body p) = true -> N < 10 ^ (places (p_body p) - 1)) ->
  exists ds, filter (fun c => (48 <=? c) && (c <=? 57)) (cells m p N neg [] (p_body p)) = map (fun d => 48 + d) ds /\
    Forall (fun d => 0 <= d <= 9) ds /\ digits_value ds = N.
Proof.
  intros m p N neg CF ED RD HN FIT.
  destruct (zone_digits m p N neg CF ED RD HN FIT (p_body p) [] eq_refl) as (ds & Z1 & Z2 & Z3 & _).
  exists ds. rewrite cells_gcells. split; [exact Z1|]. split; [exact Z2|]. rewrite Z3. now apply Z.mod_small.
Qed.
Print Assumptions C20_digits.

(** ** Examples *)
Definition runs (l : list Z) : list (Z * Z) := map (fun c => (c, 1)) l.
Definition edited (m : cfg) (p : picture) (bz : bool) : field :=
  mkField (mkAttr TNumEdited (places (p_body p)) (decimals (p_body p)) false false false bz false false false
             (runs (pic_string m p))) (repeat 120 (pic_size p)).
Lemma edited_edited_item : forall m p bz, (1 <= pic_size p)%nat -> edited_item m p (edited m p bz).
Proof.
  intros m p bz H. unfold edited_item, edited, f_size. cbn [fa fd a_type a_pic]. rewrite repeat_length.
  split; [reflexivity|]. split; [reflexivity|]. split; [exact H|]. split.
  - unfold runs. induction (pic_string m p) as [|c l IH]; [reflexivity|]. cbn [map flat_map fst snd]. rewrite IH. reflexivity.
  - unfold runs. apply Forall_forall. intros x IN. apply in_map_iff in IN as (c & <- & _). cbn [snd]. lia.
Qed.

Ltac splits :=
  repeat match goal with
  | E : _ = ?a ++ _ :: _ |- _ => is_var a; destruct a; cbn [app] in E; [injection E; clear E; intros; subst|injection E; clear E; intros E ?; subst]
  | E : [] = ?a ++ _ :: _ |- _ => destruct a; discriminate E
  | E : ?a ++ _ = [] |- _ => destruct a; discriminate E
  end.

(** ZZ,ZZ9.99- *)
Definition pic1 : picture := mkPic false LPlus [Supp; Supp; Comma; Supp; Supp; Digit; Point; Digit; Digit] TMinus.
(** $$,$$9.99CR *)
Definition pic2 : picture := mkPic false LCurr [Float; Float; Comma; Float; Float; Digit; Point; Digit; Digit] TCR.
(** $***9.99 *)
Definition pic3 : picture := mkPic true LCurr [Float; Supp; Supp; Supp; Digit; Point; Digit; Digit] NoTrail.
(** +++9 *)
Definition pic4 : picture := mkPic false LPlus [Float; Float; Float; Digit] NoTrail.

Lemma no_insert : forall (l : list sym) (Q : Z -> Prop), (forall c, ~ In (Insert c) l) -> forall c, In (Insert c) l -> Q c.
Proof. intros l Q H c IN. destruct (H c IN). Qed.

Lemma pic1_editable : editable pic1.
Proof.
  constructor.
  - apply no_insert. intros c. cbn. intuition discriminate.
  - intros a s b E H. cbn in E. do 9 (destruct a as [|? a]; cbn [app] in E; [injection E as <- <-; try discriminate H; reflexivity|injection E as <- E]).
    destruct a; discriminate E.
  - discriminate.
  - intros _. split; [reflexivity|discriminate].
Qed.
Lemma pic1_readable : readable pic1.
Proof.
  constructor; [cbn; intuition discriminate|cbn; lia| |cbn; lia].
  intros a b E. cbn in E. do 9 (destruct a as [|? a]; cbn [app] in E; [discriminate E|injection E as <- E]). destruct a; discriminate E.
Qed.
Lemma pic2_editable : editable pic2.
Proof.
  constructor.
  - apply no_insert. intros c. cbn. intuition discriminate.
  - intros a s b E H. cbn in E. do 9 (destruct a as [|? a]; cbn [app] in E; [injection E as <- <-; try discriminate H; reflexivity|injection E as <- E]).
    destruct a; discriminate E.
  - intros _. eexists. split; [reflexivity|]. left. split; [reflexivity|]. split.
    + intros a b E. cbn in E. do 9 (destruct a as [|? a]; cbn [app] in E; [try discriminate E; reflexivity|injection E as <- E]). destruct a; discriminate E.
    + intros a c b E. cbn in E. do 9 (destruct a as [|? a]; cbn [app] in E; [discriminate E|injection E as <- E]). destruct a; discriminate E.
  - intros [H|H]; discriminate H.
Qed.
Lemma pic2_readable : readable pic2.
Proof.
  constructor; [cbn; intuition discriminate|cbn; lia| |cbn; lia].
  intros a b E. cbn in E. do 9 (destruct a as [|? a]; cbn [app] in E; [discriminate E|injection E as <- E]). destruct a; discriminate E.
Qed.
Lemma pic3_editable : editable pic3.
Proof.
  constructor.
  - apply no_insert. intros c. cbn. intuition discriminate.
  - intros a s b E H. cbn in E. do 8 (destruct a as [|? a]; cbn [app] in E; [injection E as <- <-; try discriminate H; reflexivity|injection E as <- E]).
    destruct a; discriminate E.
  - intros _. eexists. split; [reflexivity|]. right. split; [reflexivity|]. split; [reflexivity|]. eexists. reflexivity.
  - intros [H|H]; discriminate H.
Qed.

(** -1234.567 (S9(4)V999 DISPLAY, trailing overpunch 'w'). *)
Definition num1 : field := mkField (disp 7 3 true false false) [49;50;51;52;53;54;119].
Lemma num1_denotes : denotes false num1 (-1234567).
Proof.
  apply (den_display false (disp 7 3 true false false) true [1;2;3;4;5;6;7]); try reflexivity; try discriminate.
  repeat constructor; discriminate.
Qed.
Lemma num1_cut : trunc_at (rat (-1234567) 3) 2 (-123456).
Proof. apply (aligns_trunc (-1234567) 3 2). Qed.

Example edit_cfg_ex : edit_cfg default_cfg.
Proof. split; [left; reflexivity|]. cbn. intuition discriminate. Qed.

(** The hypotheses of C20_edit hold for it: "1,234.56-" preceded by a space. *)
Example C20_edit_hyp : edit_cfg default_cfg /\ editable pic1 /\ denotes false num1 (-1234567) /\
  edited_item default_cfg pic1 (edited default_cfg pic1 false) /\
  editable_number pic1 (rat (-1234567) 3) false 123456.
Proof.
  split; [apply edit_cfg_ex|]. split; [apply pic1_editable|]. split; [apply num1_denotes|].
  split; [apply edited_edited_item; cbn; lia|]. split; [|split].
  - exists (-123456). split; [apply num1_cut|reflexivity].
  - discriminate.
  - intros _. right. reflexivity.
Qed.
Example C20_edit_ex : cob_move default_cfg num1 (edited default_cfg pic1 false) =
  Ok (num1, set_fd (edited default_cfg pic1 false) [32;49;44;50;51;52;46;53;54;45]).
Proof. reflexivity. Qed.
(** $$,$$9.99CR: "$1,234.56CR"; 0.05: "     $0.05  ". *)
Example C20_edit_ex2 : cob_move default_cfg num1 (edited default_cfg pic2 false) =
  Ok (num1, set_fd (edited default_cfg pic2 false) [36;49;44;50;51;52;46;53;54;67;82]).
Proof. reflexivity. Qed.
Example C20_edit_ex2_hyp : editable pic2 /\ editable_number pic2 (rat (-1234567) 3) false 123456.
Proof.
  split; [apply pic2_editable|]. split; [|split].
  - exists (-123456). split; [apply num1_cut|reflexivity].
  - reflexivity.
  - intros [H|H]; discriminate H.
Qed.
(** $***9.99: 5.60 is shown as "$***5.60". *)
Example C20_edit_ex3 : cob_move default_cfg (mkField (disp 3 1 false false false) [48;53;54]) (edited default_cfg pic3 false) =
  Ok (mkField (disp 3 1 false false false) [48;53;54], set_fd (edited default_cfg pic3 false) [36;42;42;42;53;46;54;48]).
Proof. reflexivity. Qed.
Example C20_edit_ex3_hyp : editable pic3. Proof. apply pic3_editable. Qed.
(** ZZ,ZZ9.99- BLANK WHEN ZERO. *)
Example C20_edit_ex4 : cob_move default_cfg (mkField (disp 1 0 false false false) [48]) (edited default_cfg pic1 true) =
  Ok (mkField (disp 1 0 false false false) [48], set_fd (edited default_cfg pic1 true) (repeat 32 10)).
Proof. reflexivity. Qed.

(** Back: -1234.56 to S9(4)V9(3) and to COMP-3. *)
Example C20_roundtrip_hyp : editable pic1 /\ readable pic1 /\ carries_sign pic1 = true /\
  trunc_at (rat (-1234567) 3) (decimals (p_body pic1)) (-123456) /\
  Z.abs (-123456) < 10 ^ places (p_body pic1) /\ blanked pic1 (Z.abs (-123456)) false = false.
Proof.
  split; [apply pic1_editable|]. split; [apply pic1_readable|]. split; [reflexivity|]. split; [apply num1_cut|].
  split; reflexivity.
Qed.
Example C20_roundtrip_ex : exists e b, cob_move default_cfg num1 (edited default_cfg pic1 false) = Ok (num1, e) /\
  cob_move default_cfg e (mkField (disp 7 3 true false false) (repeat 48 7)) = Ok (e, b) /\
  fd b = [49;50;51;52;53;54;112].
Proof. do 2 eexists. split; [vm_compute; reflexivity|]. split; vm_compute; reflexivity. Qed.
Example C20_deedit_ex2 : editable pic2 /\ readable pic2 /\ read_back pic2 123456 true = rat (-123456) 2.
Proof. split; [apply pic2_editable|]. split; [apply pic2_readable|reflexivity]. Qed.

(** ** Where editing is not what COBOL prescribes *)

(** A single + in front of Z is a fixed sign; it is moved next to the digits:
    5 in +ZZ9 gives "  +5", not "+  5". *)
Theorem C20_fixed_sign_floats_refuted :
  let p := mkPic false LPlus [Float; Supp; Supp; Digit] NoTrail in
  let f1 := mkField (disp 1 0 false false false) [53] in
  edited_text default_cfg p 5 false false = [43;32;32;53] /\
  exists f2', cob_move default_cfg f1 (edited default_cfg p false) = Ok (f1, f2') /\ fd f2' = [32;32;43;53].
Proof. split; [reflexivity|]. eexists. split; [vm_compute; reflexivity|reflexivity]. Qed.
Print Assumptions C20_fixed_sign_floats_refuted.

(** Digits lost on the left disable zero suppression: 1005 in +++9 is "+005",
    while 5 is "  +5". *)
Theorem C20_overflow_suppression_refuted :
  let f1 := mkField (disp 4 0 false false false) [49;48;48;53] in
  picture_digits pic4 (rat 1005 0) 1005 /\
  exists f2', cob_move default_cfg f1 (edited default_cfg pic4 false) = Ok (f1, f2') /\ fd f2' = [43;48;48;53].
Proof.
  split.
  - exists 1005. split; [|reflexivity]. apply (aligns_trunc 1005 0 0).
  - eexists. split; [vm_compute; reflexivity|reflexivity].
Qed.
Print Assumptions C20_overflow_suppression_refuted.

(** DB is not recognised when the text is read back: -5 in 99DB comes back as 5. *)
Theorem C20_DB_sign_lost_refuted :
  let p := mkPic false LPlus [Digit; Digit] TDB in
  let f1 := mkField (disp 2 0 true false false) [48;117] in
  denotes false f1 (-5) /\
  exists e b, cob_move default_cfg f1 (edited default_cfg p false) = Ok (f1, e) /\ fd e = [48;53;68;66] /\
    cob_move default_cfg e (mkField (disp 2 0 true false false) [48;48]) = Ok (e, b) /\ denotes false b 5.
Proof.
  split.
  - apply (den_display false (disp 2 0 true false false) true [0;5]); try reflexivity; try discriminate.
    repeat constructor; discriminate.
  - do 2 eexists. split; [vm_compute; reflexivity|]. split; [reflexivity|]. split; [vm_compute; reflexivity|].
    apply (den_display false (disp 2 0 true false false) false [0;5]); try reflexivity; try discriminate.
    repeat constructor; discriminate.
Qed.
Print Assumptions C20_DB_sign_lost_refuted.

(** The digit just behind the last place decides whether a zero is blank when
    the picture ends in + or -: 0.4 in ZZ+ shows "  +" and 0.0 shows blanks. *)
Theorem C20_dropped_digit_matters_refuted :
  let p := mkPic false LPlus [Supp; Supp] TPlus in
  let f1 := mkField (disp 2 1 false false false) [48;52] in
  let f0 := mkField (disp 2 1 false false false) [48;48] in
  (exists f2', cob_move default_cfg f1 (edited default_cfg p false) = Ok (f1, f2') /\ fd f2' = [32;32;43]) /\
  (exists f2', cob_move default_cfg f0 (edited default_cfg p false) = Ok (f0, f2') /\ fd f2' = [32;32;32]).
Proof. split; eexists; (split; [vm_compute; reflexivity|reflexivity]). Qed.
Print Assumptions C20_dropped_digit_matters_refuted.

(** A trailing sign after a floating picture without 9 shows a digit: -1.23 in
    $$$.$$- shows no sign. *)
Theorem C20_trailing_sign_lost_refuted :
  let p := mkPic false LCurr [Float; Float; Float; Point; Float; Float] TMinus in
  let f1 := mkField (disp 3 2 true false false) [49;50;115] in
  exists f2', cob_move default_cfg f1 (edited default_cfg p false) = Ok (f1, f2') /\ ~ In 45 (fd f2').
Proof. eexists. split; [vm_compute; reflexivity|]. cbn. intuition discriminate. Qed.
Print Assumptions C20_trailing_sign_lost_refuted.
