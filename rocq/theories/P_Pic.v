(** Theorems C59: PICTURE strings. *)
From Verif Require Import Base BaseFacts Field SpecEdit Picture SpecPic PicProofs PicAttr PicStep PicEnd PicOk PicMain PicAccept PicFinal PicEdit.
Local Open Scope Z_scope.

(** ** C59: counts in parentheses are only an abbreviation.  Two PICTURE strings
    that are spelled out alike give the same item (or are both rejected). *)
Theorem C59_spelling : forall m am nm s1 s2 t, pic_cfg m -> spelled_out s1 t -> spelled_out s2 t ->
  (length s1 <= 50)%nat -> (length s2 <= 50)%nat -> Z.of_nat (length t) <= INT_MAX ->
  build_picture m am nm s1 = build_picture m am nm s2.
Proof. exact same_picture. Qed.
Print Assumptions C59_spelling.

(** ** C59: the size, digits, scale and sign of an accepted picture (one without
    N) are those read off the spelled-out picture. *)
Theorem C59_attributes : forall m am nm s T p, pic_cfg m -> spelled_out s T -> ~ In 78 T ->
  (length s <= 50)%nat -> Z.of_nat (length T) <= INT_MAX ->
  build_picture m am nm s = Ok (Some p) ->
  pc_size p = positions T /\
  (pc_cat p = CNumeric \/ pc_cat p = CNumEdited ->
     pc_digits p = digit_places m T /\ digit_places m T <= 160 /\
     (-128 <= scale_of m T <= 127 -> pc_scale p = scale_of m T) /\
     (pc_sign p <> 0 <-> has_sign T = true)) /\
  (pc_cat p = CNumeric -> digit_places m T <= 36 /\ -128 <= scale_of m T <= 127).
Proof. exact accepted_full. Qed.
Print Assumptions C59_attributes.

(** ** C59: the category. *)
Theorem C59_category : forall m am nm s T p, pic_cfg m -> spelled_out s T -> ~ In 78 T ->
  (length s <= 50)%nat -> Z.of_nat (length T) <= INT_MAX ->
  build_picture m am nm s = Ok (Some p) ->
  T <> [] /\
  (pc_cat p = CNumeric <-> Forall (fun c => numeric_sym c = true) T) /\
  (pc_cat p = CAlphabetic <-> Forall (fun c => c = 65) T) /\
  (pc_cat p = CAlnum <-> occurs text_sym T = true /\ occurs (edit_sym m) T = false /\ ~ Forall (fun c => c = 65) T) /\
  (pc_cat p = CNumEdited <-> occurs text_sym T = false /\ occurs (edit_sym m) T = true /\ ~ Forall (fun c => insert_sym c = true) T) /\
  (pc_cat p = CAlnumEdited <-> occurs text_sym T = true /\ occurs (edit_sym m) T = true \/ Forall (fun c => insert_sym c = true) T).
Proof. exact category_full. Qed.
Print Assumptions C59_category.

(** ** C59: numeric pictures are accepted: [S]9(a)[V9(b)], *)
Theorem C59_numeric : forall m am nm sg a v b s, pic_cfg m ->
  (v = [86] \/ v = [] /\ b = 0%nat) -> (1 <= a + b <= 36)%nat ->
  spelled_out s (signed sg ++ repeat 57 a ++ v ++ repeat 57 b) -> (length s <= 50)%nat ->
  exists p, build_picture m am nm s = Ok (Some p) /\ pc_cat p = CNumeric /\ pc_size p = Z.of_nat (a + b) /\
    pc_digits p = Z.of_nat (a + b) /\ pc_scale p = Z.of_nat b /\ (pc_sign p <> 0 <-> sg = true).
Proof. intros m am nm sg a v b s CF. exact (plain_numeric m CF am nm sg a v b s). Qed.
Print Assumptions C59_numeric.

(** [S]9(a)P(b)[V]: the b digits in front of the decimal point are not stored; *)
Theorem C59_scaled_up : forall m am nm sg a b v s, pic_cfg m ->
  v = [86] \/ v = [] -> (1 <= a)%nat -> (1 <= b)%nat -> (a + b <= 36)%nat ->
  spelled_out s (signed sg ++ repeat 57 a ++ repeat 80 b ++ v) -> (length s <= 50)%nat ->
  exists p, build_picture m am nm s = Ok (Some p) /\ pc_cat p = CNumeric /\ pc_size p = Z.of_nat a /\
    pc_digits p = Z.of_nat (a + b) /\ pc_scale p = - Z.of_nat b /\ (pc_sign p <> 0 <-> sg = true).
Proof. intros m am nm sg a b v s CF. exact (scaled_up m CF am nm sg a b v s). Qed.
Print Assumptions C59_scaled_up.

(** [S][V]P(b)9(a): the b digits behind the decimal point are not stored. *)
Theorem C59_scaled_down : forall m am nm sg a b v s, pic_cfg m ->
  v = [86] \/ v = [] -> (1 <= a)%nat -> (1 <= b)%nat -> (a + b <= 36)%nat ->
  spelled_out s (signed sg ++ v ++ repeat 80 b ++ repeat 57 a) -> (length s <= 50)%nat ->
  exists p, build_picture m am nm s = Ok (Some p) /\ pc_cat p = CNumeric /\ pc_size p = Z.of_nat a /\
    pc_digits p = Z.of_nat (a + b) /\ pc_scale p = Z.of_nat (a + b) /\ (pc_sign p <> 0 <-> sg = true).
Proof. intros m am nm sg a b v s CF. exact (scaled_down m CF am nm sg a b v s). Qed.
Print Assumptions C59_scaled_down.

(** ** C59: every numeric-edited picture for which C20 says what editing shows
    is accepted, and the item it declares is the one C20 speaks of. *)
Theorem C59_edited : forall m p am nm s, pic_cfg m -> editable p ->
  spelled_out s (pic_source m p) -> (length s <= 50)%nat -> Z.of_nat (length (pic_source m p)) + 2 <= INT_MAX ->
  has place (p_body p) = true -> edits p = true ->
  places (p_body p) - (if has is_float (p_body p) then 1 else 0) + inserts p <= 160 -> decimals (p_body p) <= 127 ->
  exists q, build_picture m am nm s = Ok (Some q) /\ pc_cat q = CNumEdited /\
    pc_size q = Z.of_nat (pic_size p) /\
    pc_digits q = places (p_body p) - (if has is_float (p_body p) then 1 else 0) /\
    (no_float_behind p -> pc_scale q = decimals (p_body p)) /\
    (pc_sign q <> 0 <-> shows_sign p = true) /\
    forall f, a_type (fa f) = TNumEdited -> a_pic (fa f) = pc_runs q -> Z.of_nat (Field.f_size f) = pc_size q -> edited_item m p f.
Proof.
  intros m p am nm s CF ED HS L50 L HP HE D160 D127.
  destruct (edited_picture m p CF ED am nm s HS L50 L HP HE D160 D127) as (q & A1 & A2 & A3 & A4 & A5 & A6 & A7 & A8 & A9 & A10).
  exists q. split; [exact A1|]. split; [exact A2|]. split; [exact A3|]. split; [exact A5|]. split; [exact A7|]. split; [exact A8|].
  intros f T P S. unfold edited_item. rewrite P. assert (SZ : Field.f_size f = pic_size p) by lia.
  split; [exact T|]. split; [exact SZ|]. split; [lia|]. split; [exact A9|exact A10].
Qed.
Print Assumptions C59_edited.

(** ** Examples *)
Example pic_cfg_ex : pic_cfg default_cfg.
Proof. split; [left; reflexivity|]. cbn. lia. Qed.

(** S9(5)V9(02) is S99999V99. *)
Definition s1 : list Z := [83; 57; 40; 53; 41; 86; 57; 40; 48; 50; 41].
Definition t1 : list Z := [83; 57; 57; 57; 57; 57; 86; 57; 57].
Lemma s1_spells : spelled_out s1 t1.
Proof.
  exists s1, t1, []. split; [reflexivity|]. split; [reflexivity|]. split; [|left; reflexivity].
  unfold s1, t1. apply sp_char; [apply body_83|].
  apply (sp_count 57 [53] [86; 57; 40; 48; 50; 41] [86; 57; 57]); [apply body_57|lia|repeat constructor; lia|cbn; lia|].
  apply sp_char; [apply body_86|].
  apply (sp_count 57 [48; 50] [] []); [apply body_57|lia|repeat constructor; lia|cbn; lia|]. constructor.
Qed.
Lemma t1_spells : spelled_out t1 t1.
Proof.
  exists t1, t1, []. split; [reflexivity|]. split; [reflexivity|]. split; [|left; reflexivity].
  unfold t1. repeat (apply sp_char; [first [apply body_83|apply body_57|apply body_86]|]). constructor.
Qed.
Example C59_spelling_ex : build_picture default_cfg 1000 1000 s1 = Ok (Some (mkPicd 7 7 2 1 CNumeric [])) /\
  build_picture default_cfg 1000 1000 t1 = Ok (Some (mkPicd 7 7 2 1 CNumeric [])).
Proof. split; vm_compute; reflexivity. Qed.
Example C59_attributes_hyp : ~ In 78 t1 /\ positions t1 = 7 /\ digit_places default_cfg t1 = 7 /\ scale_of default_cfg t1 = 2 /\ has_sign t1 = true.
Proof. split; [cbn; lia|]. repeat split. Qed.
Example C59_numeric_hyp : signed true ++ repeat 57 5 ++ [86] ++ repeat 57 2 = t1. Proof. reflexivity. Qed.
(** 99P(3) and VPP9 *)
Example C59_scaled_ex : build_picture default_cfg 1000 1000 [57; 57; 80; 40; 51; 41] = Ok (Some (mkPicd 2 5 (-3) 0 CNumeric [])) /\
  build_picture default_cfg 1000 1000 [86; 80; 80; 57] = Ok (Some (mkPicd 1 3 3 0 CNumeric [])).
Proof. split; vm_compute; reflexivity. Qed.

(** $$,$$9.99CR *)
Definition pic2 : picture := mkPic false LCurr [Float; Float; Comma; Float; Float; Digit; Point; Digit; Digit] TCR.
Example pic2_editable : editable pic2.
Proof.
  constructor.
  - intros c IN. cbn in IN. repeat destruct IN as [IN|IN]; try discriminate IN; contradiction.
  - intros a s b E H. cbn in E. do 9 (destruct a as [|? a]; cbn [app] in E; [injection E as <- <-; try discriminate H; reflexivity|injection E as <- E]).
    destruct a; discriminate E.
  - intros _. exists [Float; Comma; Float; Float; Digit; Point; Digit; Digit]. split; [reflexivity|]. left. split; [reflexivity|]. split.
    + intros a b E. cbn in E. do 5 (destruct a as [|? a]; cbn [app] in E; [reflexivity|injection E as <- E]).
      do 4 (destruct a as [|? a]; cbn [app] in E; [discriminate E|injection E as <- E]). destruct a; discriminate E.
    + intros a c b E. cbn in E. do 9 (destruct a as [|? a]; cbn [app] in E; [discriminate E|injection E as <- E]). destruct a; discriminate E.
  - intros [H|H]; discriminate H.
Qed.
Definition s2 : list Z := [36; 36; 44; 36; 40; 50; 41; 57; 46; 57; 40; 50; 41; 67; 82].
Example s2_spells : spelled_out s2 (pic_source default_cfg pic2).
Proof.
  assert (B36 : body_char 36) by (unfold body_char; cbn; lia). assert (B44 : body_char 44) by (unfold body_char; cbn; lia).
  assert (B46 : body_char 46) by (unfold body_char; cbn; lia).
  exists [36; 36; 44; 36; 40; 50; 41; 57; 46; 57; 40; 50; 41], [36; 36; 44; 36; 36; 57; 46; 57; 57], [67; 82].
  split; [reflexivity|]. split; [reflexivity|]. split; [|right; left; reflexivity].
  do 3 (apply sp_char; [auto|]).
  apply (sp_count 36 [50] [57; 46; 57; 40; 50; 41] [57; 46; 57; 57]); [auto|lia|repeat constructor; lia|cbn; lia|].
  do 2 (apply sp_char; [auto using body_57|]).
  apply (sp_count 57 [50] [] []); [apply body_57|lia|repeat constructor; lia|cbn; lia|]. constructor.
Qed.
Example C59_edited_hyp : (length s2 <= 50)%nat /\ has place (p_body pic2) = true /\ edits pic2 = true /\
  places (p_body pic2) - (if has is_float (p_body pic2) then 1 else 0) + inserts pic2 = 6 /\ decimals (p_body pic2) = 2 /\ shows_sign pic2 = true.
Proof. repeat split; cbn; lia. Qed.
Example C59_edited_ex : build_picture default_cfg 1000 1000 s2 =
  Ok (Some (mkPicd 11 6 2 1 CNumEdited [(36, 2); (44, 1); (36, 2); (57, 1); (46, 1); (57, 2); (67, 1)])).
Proof. vm_compute. reflexivity. Qed.
(** X(3)9, A(2), Z9X, BB/ *)
Example C59_category_ex :
  build_picture default_cfg 1000 1000 [88; 40; 51; 41; 57] = Ok (Some (mkPicd 4 1 0 0 CAlnum [])) /\
  build_picture default_cfg 1000 1000 [65; 40; 50; 41] = Ok (Some (mkPicd 2 0 0 0 CAlphabetic [])) /\
  build_picture default_cfg 1000 1000 [66; 66; 47] = Ok (Some (mkPicd 3 0 0 0 CAlnumEdited [(66, 2); (47, 1)])) /\
  build_picture default_cfg 1000 1000 [88; 66; 88] = Ok (Some (mkPicd 3 0 0 0 CAlnumEdited [(88, 1); (66, 1); (88, 1)])).
Proof. repeat split; vm_compute; reflexivity. Qed.

(** ** What does not hold *)

(** A count of more than 2147483647 is not rejected in a numeric picture:
    9(9999999999) declares an item of size -1 with 255 digits. *)
Theorem C59_count_overflow_refuted :
  build_picture default_cfg 1000 1000 ([57; 40] ++ repeat 57 10 ++ [41]) = Ok (Some (mkPicd (-1) 255 0 0 CNumeric [])).
Proof. vm_compute. reflexivity. Qed.
(** With one more digit the compiler's own arithmetic overflows. *)
Theorem C59_count_undefined_refuted :
  build_picture default_cfg 1000 1000 ([57; 40] ++ repeat 57 11 ++ [41]) = UB.
Proof. vm_compute. reflexivity. Qed.
(** Places behind the point that are written as floating signs are not counted
    as decimals: $$$.$$ has two, but gets scale 0. *)
Definition pic5 : picture := mkPic false LCurr [Float; Float; Float; Point; Float; Float] NoTrail.
Theorem C59_float_scale_refuted : pic_source default_cfg pic5 = [36; 36; 36; 46; 36; 36] /\ decimals (p_body pic5) = 2 /\
  build_picture default_cfg 1000 1000 (pic_source default_cfg pic5) =
    Ok (Some (mkPicd 6 4 0 0 CNumEdited [(36, 3); (46, 1); (36, 2)])).
Proof. repeat split. Qed.
(** 140 decimals are accepted, but the scale is stored in eight bits: Z.9(140)
    gets scale -116. *)
Theorem C59_scale_wraps_refuted : exists q,
  build_picture default_cfg 1000 1000 [90; 46; 57; 40; 49; 52; 48; 41] = Ok (Some q) /\ pc_cat q = CNumEdited /\ pc_scale q = -116.
Proof. eexists. split; [vm_compute; reflexivity|]. split; reflexivity. Qed.
(** 9CCR is accepted as an item of 5 characters. *)
Theorem C59_CCR_refuted : exists q,
  build_picture default_cfg 1000 1000 [57; 67; 67; 82] = Ok (Some q) /\ pc_size q = 5.
Proof. eexists. split; [vm_compute; reflexivity|reflexivity]. Qed.
(** S alone is accepted as a numeric item without any digit. *)
Theorem C59_S_alone_refuted :
  build_picture default_cfg 1000 1000 [83] = Ok (Some (mkPicd 0 0 0 1 CNumeric [])).
Proof. vm_compute. reflexivity. Qed.
