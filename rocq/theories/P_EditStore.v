(** Theorems C60: results of arithmetic in numeric-edited items. *)
From Coq Require Import QArith Qabs.
From Verif Require Import Base BaseFacts Field Sign Decimal SpecNum Numeric SpecStore NumFacts.
From Verif Require Import DispProofs DecProofs StoreProofs P_Num.
From Verif Require Import Move Edited MoveAll SpecMove MoveProofs SpecEdit EditStore EditStoreProofs.
From Verif Require Import Picture SpecPic P_Edit P_Pic.
Local Open Scope Z_scope.

(** ** C60: the result, rounded (or cut) at the picture's decimal point, is
    shown if it fits the picture; otherwise SIZE ERROR leaves the item as it
    was, or, without it, the low-order digits are shown. *)
Theorem C60_store : forall m p f o pending d w,
  edit_cfg m -> editable p -> edited_item m p f ->
  a_scale (fa f) = decimals (p_body p) -> a_digits (fa f) = edit_digits p -> 1 <= edit_digits p <= 64 ->
  dsc d <> -128 -> rounded o (rat (dv d) (dsc d)) (decimals (p_body p)) w -> Z.abs w < NUM_LIMIT ->
  (Z.abs w < 10 ^ edit_digits p -> exists neg, sign_of (rat w (decimals (p_body p))) neg /\
     get_field_edited m pending d f o =
       Ok (mkStored pending false (set_fd f (edited_text m p (Z.abs w) neg (a_bzero (fa f)))))) /\
  (10 ^ edit_digits p <= Z.abs w -> o_keep o = true -> get_field_edited m pending d f o = Ok (mkStored true true f)) /\
  (10 ^ edit_digits p <= Z.abs w -> o_keep o = false ->
     let v := low_part (Z.to_nat (edit_digits p)) w in
     exists neg, sign_of (rat v (decimals (p_body p))) neg /\
     get_field_edited m pending d f o =
       Ok (mkStored true true (set_fd f (edited_text m p (Z.abs v) neg (a_bzero (fa f)))))).
Proof.
  intros m p f o pending d w CF ED IT SC DG D1 NN R B.
  exact (edited_store m p f o CF ED IT SC DG D1 pending d _ w NN (Qeq_refl _) R B).
Qed.
Print Assumptions C60_store.

(** The item never changes after an undefined result (division by zero). *)
Theorem C60_undefined : forall m f o pending d, dsc d = -128 ->
  get_field_edited m pending d f o = Ok (mkStored true true f).
Proof. intros m f o pending d H. unfold get_field_edited. rewrite H. reflexivity. Qed.
Print Assumptions C60_undefined.

(** ** C60: ADD, SUBTRACT and MULTIPLY ... GIVING an edited item, for operands
    of any usages. *)
Inductive op3 := OpAdd | OpSub | OpMul.
Definition op_dec (k : op3) := match k with OpAdd => dec_add | OpSub => dec_sub | OpMul => dec_mul end.
Definition op_rat (k : op3) (x y : Q) : Q := match k with OpAdd => x + y | OpSub => x - y | OpMul => x * y end.

Theorem C60_giving : forall k m p f1 f2 f3 o pending v1 v2 w,
  edit_cfg m -> editable p -> edited_item m p f3 ->
  a_scale (fa f3) = decimals (p_body p) -> a_digits (fa f3) = edit_digits p -> 1 <= edit_digits p <= 64 ->
  denotes (c_ebcdic m) f1 v1 -> denotes (c_ebcdic m) f2 v2 -> scale_ok f1 -> scale_ok f2 ->
  rounded o (op_rat k (rat v1 (a_scale (fa f1))) (rat v2 (a_scale (fa f2)))) (decimals (p_body p)) w -> Z.abs w < NUM_LIMIT ->
  (Z.abs w < 10 ^ edit_digits p -> exists neg, sign_of (rat w (decimals (p_body p))) neg /\
     giving_edited m pending (op_dec k) f1 f2 f3 o =
       Ok (mkStored pending false (set_fd f3 (edited_text m p (Z.abs w) neg (a_bzero (fa f3)))))) /\
  (10 ^ edit_digits p <= Z.abs w -> o_keep o = true ->
     giving_edited m pending (op_dec k) f1 f2 f3 o = Ok (mkStored true true f3)).
Proof.
  intros k m p f1 f2 f3 o pending v1 v2 w CF ED IT SC DG D1 E1 E2 S1 S2 R B.
  assert (G : giving_edited m pending (op_dec k) f1 f2 f3 o =
     get_field_edited m pending (op_dec k (mkDec v1 (a_scale (fa f1))) (mkDec v2 (a_scale (fa f2)))) f3 o).
  { unfold giving_edited. rewrite (fetch_denotes m f1 v1 E1), (fetch_denotes m f2 v2 E2). reflexivity. }
  rewrite G. set (d1 := mkDec v1 (a_scale (fa f1))). set (d2 := mkDec v2 (a_scale (fa f2))).
  unfold scale_ok in S1, S2.
  assert (N1 : not_nan d1) by (unfold not_nan, d1, DECIMAL_NAN; cbn [dsc]; lia).
  assert (N2 : not_nan d2) by (unfold not_nan, d2, DECIMAL_NAN; cbn [dsc]; lia).
  assert (X : not_nan (op_dec k d1 d2) /\ (decQ (op_dec k d1 d2) == op_rat k (decQ d1) (decQ d2))%Q).
  { destruct k; cbn [op_dec op_rat].
    - destruct (dec_add_exact d1 d2 N1 N2) as [E S]. split; [|exact E]. unfold not_nan. rewrite S. unfold d1, d2, DECIMAL_NAN. cbn [dsc]. lia.
    - destruct (dec_sub_exact d1 d2 N1 N2) as [E S]. split; [|exact E]. unfold not_nan. rewrite S. unfold d1, d2, DECIMAL_NAN. cbn [dsc]. lia.
    - destruct (dec_mul_exact d1 d2 N1 N2) as [E S]. split; [|exact E]. unfold not_nan. rewrite S. unfold d1, d2, DECIMAL_NAN. cbn [dsc]. lia. }
  destruct X as [NN QE].
  destruct (edited_store m p f3 o CF ED IT SC DG D1 pending _ _ w NN QE R B) as (A & C & _). split; [exact A|exact C].
Qed.
Print Assumptions C60_giving.

(** ** C60 for items declared by a PICTURE clause (with C59): the item that
    cobc makes of the picture has the digits and the scale assumed above. *)
Theorem C60_declared : forall m p am nm s f, pic_cfg m -> editable p ->
  spelled_out s (pic_source m p) -> (length s <= 50)%nat -> Z.of_nat (length (pic_source m p)) + 2 <= INT_MAX ->
  has place (p_body p) = true -> edits p = true -> no_float_behind p ->
  edit_digits p + inserts p <= 160 -> decimals (p_body p) <= 127 ->
  exists q, build_picture m am nm s = Ok (Some q) /\
    (a_type (fa f) = TNumEdited -> a_pic (fa f) = pc_runs q -> Z.of_nat (Field.f_size f) = pc_size q ->
     a_digits (fa f) = pc_digits q -> a_scale (fa f) = pc_scale q ->
     edited_item m p f /\ a_scale (fa f) = decimals (p_body p) /\ a_digits (fa f) = edit_digits p).
Proof.
  intros m p am nm s f CF ED HS L50 L HP HE NF D160 D127.
  destruct (C59_edited m p am nm s CF ED HS L50 L HP HE D160 D127) as (q & A1 & _ & _ & A4 & A5 & _ & A7).
  exists q. split; [exact A1|]. intros T P S DG SC. split; [now apply A7|]. split; [rewrite SC; now apply A5|]. now rewrite DG.
Qed.
Print Assumptions C60_declared.

(** ** Examples *)
(** ZZ,ZZ9.99-: 7 digits, 2 decimals.  100.005 - 1334.567 ROUNDED is -1234.56. *)
Definition ed1 : field := edited default_cfg P_Edit.pic1 false.
Definition n1 : field := mkField (disp 6 3 false false false) [49;48;48;48;48;53].
Definition n2 : field := mkField (disp 7 3 false false false) [49;51;51;52;53;54;55].
Lemma n1_den : denotes false n1 100005.
Proof. apply (den_display false (disp 6 3 false false false) false [1;0;0;0;0;5]); try reflexivity; try discriminate. repeat constructor; discriminate. Qed.
Lemma n2_den : denotes false n2 1334567.
Proof. apply (den_display false (disp 7 3 false false false) false [1;3;3;4;5;6;7]); try reflexivity; try discriminate. repeat constructor; discriminate. Qed.
Example C60_hyp : edit_cfg default_cfg /\ editable P_Edit.pic1 /\ edited_item default_cfg P_Edit.pic1 ed1 /\
  a_scale (fa ed1) = decimals (p_body P_Edit.pic1) /\ a_digits (fa ed1) = edit_digits P_Edit.pic1 /\ edit_digits P_Edit.pic1 = 7 /\
  rounded round_keep (op_rat OpSub (rat 100005 3) (rat 1334567 3)) 2 (-123456).
Proof.
  split; [apply edit_cfg_ex|]. split; [apply pic1_editable|]. split; [apply edited_edited_item; cbn; lia|].
  split; [reflexivity|]. split; [reflexivity|]. split; [reflexivity|].
  pose proof (proj2 (proj2 (round_align_spec (dec_sub (mkDec 100005 3) (mkDec 1334567 3)) 2 round_keep)) eq_refl) as R.
  apply (rounded_Qeq round_keep (decQ (dec_sub (mkDec 100005 3) (mkDec 1334567 3)))).
  - apply (dec_sub_exact (mkDec 100005 3) (mkDec 1334567 3)); discriminate.
  - exact R.
Qed.
Example C60_ex : giving_edited default_cfg false dec_sub n1 n2 ed1 round_keep =
  Ok (mkStored false false (set_fd ed1 [32;49;44;50;51;52;46;53;54;45])).
Proof. reflexivity. Qed.
(** SIZE ERROR: 100.005 * 1334.567 = 133463.37... does not fit. *)
Example C60_ex2 : giving_edited default_cfg false dec_mul n1 n2 ed1 round_keep = Ok (mkStored true true ed1) /\
  giving_edited default_cfg false dec_mul n1 n2 ed1 no_opts = Ok (mkStored true true (set_fd ed1 [51;51;44;52;54;51;46;51;55;32])).
Proof. split; reflexivity. Qed.

(** ** What does not hold *)

(** The return value reports an exception that was raised before. *)
Theorem C60_pending_refuted : exists d f o f', get_field_edited default_cfg true d f o = Ok (mkStored true false f').
Proof. exists (mkDec 5 0), ed1, no_opts. eexists. vm_compute. reflexivity. Qed.

(** $$$.$$ gets scale 0 from cobc (C59_float_scale_refuted): 12.34 is shown as
    $12.00, although a MOVE shows $12.34. *)
Definition ed5 : field := mkField (mkAttr TNumEdited 4 0 false false false false false false false [(36, 3); (46, 1); (36, 2)]) (repeat 32 6).
Definition n3 : field := mkField (disp 4 2 false false false) [49;50;51;52].
Theorem C60_float_decimals_refuted :
  build_picture default_cfg 1000 1000 [36; 36; 36; 46; 36; 36] = Ok (Some (mkPicd 6 4 0 0 CNumEdited (a_pic (fa ed5)))) /\
  get_field_edited default_cfg false (mkDec 1234 2) ed5 keep_opts = Ok (mkStored false false (set_fd ed5 [36;49;50;46;48;48])) /\
  cob_move default_cfg n3 ed5 = Ok (n3, set_fd ed5 [36;49;50;46;51;52]).
Proof. split; [|split]; vm_compute; reflexivity. Qed.

(** Z(70) is accepted, but storing a result in it runs over a buffer of 64 bytes. *)
Definition ed6 : field := mkField (mkAttr TNumEdited 70 0 false false false false false false false [(90, 70)]) (repeat 32 70).
Theorem C60_buffer_overrun_refuted :
  (exists q, build_picture default_cfg 1000 1000 [90; 40; 55; 48; 41] = Ok (Some q) /\ pc_digits q = 70 /\ pc_cat q = CNumEdited) /\
  get_field_edited default_cfg false (mkDec 5 0) ed6 keep_opts = UB.
Proof. split; [eexists; split; [vm_compute; reflexivity|split; reflexivity]|vm_compute; reflexivity]. Qed.
