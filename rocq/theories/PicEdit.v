(** PICTURE strings: numeric-edited pictures (proof file). *)
From Verif Require Import Base BaseFacts Field SpecEdit Picture SpecPic PicProofs PicAttr PicStep PicEnd PicOk PicMain PicAccept PicFinal.
Local Open Scope Z_scope.

Section PE.
Variables (m : cfg) (p : picture).
Hypothesis CF : pic_cfg m.
Hypothesis ED : editable p.

Definition allowed (s : sym) : Prop := forall c, s = Insert c -> c = 48 \/ c = 47.
Lemma all_allowed : forall s, In s (p_body p) -> allowed s.
Proof. intros s IN c ->. now apply (ed_insert p ED). Qed.

Definition lead_sign : bool := match p_lead p with LCurr => false | _ => true end.
Definition sep_ne : separator m = 44 \/ separator m = 46.
Proof. unfold separator. destruct (c_decpoint m =? 46); auto. Qed.

Lemma code_all : forall s, allowed s ->
  let c := sym_code m p s in
  point_sym m c = is_point s /\ digit_sym c = is_nine s || is_supp s /\
  sign_sym c = is_float s && lead_sign /\ (c_currency m =? c) = is_float s && negb lead_sign /\
  other_sym c = match s with Blank | Insert _ => true | _ => false end /\
  negb ((c =? 86) || (c =? 80) || (c =? 83)) = shown s /\
  (c =? 83) = false /\ (80 =? c) = false /\ edit_char m c /\ body_char c /\
  edit_sym m c = match s with Digit | Virtual => false | _ => true end /\
  (place s = true -> isN c = true).
Proof.
  intros s AL.
  assert (PM : c_decpoint m = 46 /\ separator m = 44 \/ c_decpoint m = 44 /\ separator m = 46).
  { unfold separator. destruct (proj1 CF) as [-> | ->]; auto. }
  assert (CL : forall k, In k [32; 40; 41; 42; 43; 44; 45; 46; 47; 48; 49; 50; 51; 52; 53; 54; 55; 56; 57;
                       65; 66; 67; 68; 78; 80; 82; 83; 86; 88; 90] -> c_currency m <> k).
  { intros k IN. apply Z.eqb_neq. apply (cur_ne m CF k IN). }
  assert (CN : forall k, In k [40; 41; 65; 67; 68; 80; 82; 83; 88] -> c_currency m <> k).
  { intros k IN. apply CL. cbn in IN |- *. tauto. }
  pose proof (cur_ne m CF) as C1. pose proof (cur_ne' m CF) as C2.
  unfold edit_char, body_char, legal, isN, edit_sym, insert_sym, other_sym, sign_sym, digit_sym, point_sym.
  assert (TR : forall c, In c [57; 42; 90; 66; 48; 47; 86; 44; 46; 43; 45; c_currency m] ->
     (In c [65; 88; 57; 83; 44; 46; 86; 80; 48; 66; 47; 42; 90; 43; 45; c_currency m] /\ c <> 65 /\ c <> 88 /\ c <> 83 /\ c <> 80)
     /\ ~ In c [67; 68; 82; 40; 41]).
  { intros c H. pose proof (CN 40 ltac:(cbn; tauto)). pose proof (CN 41 ltac:(cbn; tauto)). pose proof (CN 65 ltac:(cbn; tauto)).
    pose proof (CN 67 ltac:(cbn; tauto)). pose proof (CN 68 ltac:(cbn; tauto)). pose proof (CN 80 ltac:(cbn; tauto)).
    pose proof (CN 82 ltac:(cbn; tauto)). pose proof (CN 83 ltac:(cbn; tauto)). pose proof (CN 88 ltac:(cbn; tauto)).
    cbn [In] in *. clear - H H0 H1 H2 H3 H4 H5 H6 H7 H8. split; [split; [tauto|lia]|lia]. }
  destruct s as [| | | | |i| |]; cbn [sym_code is_point is_nine is_supp is_float shown place andb orb]; cbv zeta.
  - specialize (TR 57 ltac:(cbn; tauto)). rewrite !C1, !C2 by (cbn; tauto). destruct PM as [(-> & _)|(-> & _)]; cbn [Z.eqb Pos.eqb orb negb]; tauto.
  - destruct (p_star p).
    + specialize (TR 42 ltac:(cbn; tauto)). rewrite !C1, !C2 by (cbn; tauto). destruct PM as [(-> & _)|(-> & _)]; cbn [Z.eqb Pos.eqb orb negb]; tauto.
    + specialize (TR 90 ltac:(cbn; tauto)). rewrite !C1, !C2 by (cbn; tauto). destruct PM as [(-> & _)|(-> & _)]; cbn [Z.eqb Pos.eqb orb negb]; tauto.
  - unfold lead_sign, lead_code. destruct (p_lead p).
    + specialize (TR 43 ltac:(cbn; tauto)). rewrite !C1, !C2 by (cbn; tauto). destruct PM as [(-> & _)|(-> & _)]; cbn [Z.eqb Pos.eqb orb negb]; tauto.
    + specialize (TR 45 ltac:(cbn; tauto)). rewrite !C1, !C2 by (cbn; tauto). destruct PM as [(-> & _)|(-> & _)]; cbn [Z.eqb Pos.eqb orb negb]; tauto.
    + specialize (TR (c_currency m) ltac:(cbn; tauto)). rewrite Z.eqb_refl. rewrite (C2 80) by (cbn; tauto).
      destruct PM as [(-> & _)|(-> & _)]; rewrite !C1 by (cbn; tauto); cbn [orb negb]; tauto.
  - destruct PM as [(-> & ->)|(-> & ->)].
    + specialize (TR 44 ltac:(cbn; tauto)). rewrite !C1, !C2 by (cbn; tauto). cbn [Z.eqb Pos.eqb orb negb]; intuition discriminate.
    + specialize (TR 46 ltac:(cbn; tauto)). rewrite !C1, !C2 by (cbn; tauto). cbn [Z.eqb Pos.eqb orb negb]; intuition discriminate.
  - specialize (TR 66 ltac:(cbn; tauto)). rewrite !C1, !C2 by (cbn; tauto). destruct PM as [(-> & _)|(-> & _)]; cbn [Z.eqb Pos.eqb orb negb]; intuition discriminate.
  - destruct (AL i eq_refl) as [-> | ->].
    + specialize (TR 48 ltac:(cbn; tauto)). rewrite !C1, !C2 by (cbn; tauto). destruct PM as [(-> & _)|(-> & _)]; cbn [Z.eqb Pos.eqb orb negb]; intuition discriminate.
    + specialize (TR 47 ltac:(cbn; tauto)). rewrite !C1, !C2 by (cbn; tauto). destruct PM as [(-> & _)|(-> & _)]; cbn [Z.eqb Pos.eqb orb negb]; intuition discriminate.
  - destruct PM as [(-> & _)|(-> & _)].
    + specialize (TR 46 ltac:(cbn; tauto)). rewrite !C1, !C2 by (cbn; tauto). cbn [Z.eqb Pos.eqb orb negb]; intuition discriminate.
    + specialize (TR 44 ltac:(cbn; tauto)). rewrite !C1, !C2 by (cbn; tauto). cbn [Z.eqb Pos.eqb orb negb]; intuition discriminate.
  - specialize (TR 86 ltac:(cbn; tauto)). rewrite !C1, !C2 by (cbn; tauto). destruct PM as [(-> & _)|(-> & _)]; cbn [Z.eqb Pos.eqb orb negb]; intuition discriminate.
Qed.

Definition sign_end : list Z := match p_trail p with TPlus => [43] | TMinus => [45] | _ => [] end.
Definition letters : list Z := match p_trail p with TCR => [67; 82] | TDB => [68; 66] | _ => [] end.
Definition main : list Z := map (sym_code m p) (p_body p) ++ sign_end.
Lemma source_split : pic_source m p = main ++ letters.
Proof. unfold pic_source, main, sign_end, letters. rewrite <- app_assoc. destruct (p_trail p); cbn [trail_source app]; rewrite ?app_nil_r; reflexivity. Qed.
Lemma letters_ending : ending letters.
Proof. unfold ending, letters. destruct (p_trail p); auto. Qed.

Lemma count_map : forall q r l, (forall s, In s l -> q (sym_code m p s) = r s) ->
  count q (map (sym_code m p) l) = Z.of_nat (length (filter r l)).
Proof.
  intros q r l H. unfold count. f_equal. induction l as [|s l IH]; [reflexivity|]. cbn [map filter].
  rewrite H by (left; reflexivity). destruct (r s); cbn [length]; rewrite IH by (intros; apply H; right; auto); reflexivity.
Qed.
Lemma occurs_map : forall q r l, (forall s, In s l -> q (sym_code m p s) = r s) ->
  occurs q (map (sym_code m p) l) = has r l.
Proof.
  intros q r l H. unfold occurs, has. induction l as [|s l IH]; [reflexivity|]. cbn [map existsb].
  rewrite H by (left; reflexivity). rewrite IH by (intros; apply H; right; auto). reflexivity.
Qed.

Lemma main_chars : Forall (edit_char m) main /\ Forall body_char main.
Proof.
  unfold main. rewrite !Forall_app. split; split.
  - apply Forall_forall. intros c IN. apply in_map_iff in IN as (s & <- & IN). apply (code_all s (all_allowed s IN)).
  - unfold sign_end, edit_char, legal. destruct (p_trail p); repeat constructor; cbn; try tauto; lia.
  - apply Forall_forall. intros c IN. apply in_map_iff in IN as (s & <- & IN). apply (code_all s (all_allowed s IN)).
  - unfold sign_end, body_char. destruct (p_trail p); repeat constructor; cbn; lia.
Qed.

Lemma no_place_point : forall l, forallb place l = true -> filter is_point l = [].
Proof.
  clear. induction l as [|s l IH]; intros H; [reflexivity|]. cbn [forallb] in H. apply andb_true_iff in H as [H1 H2].
  cbn [filter]. destruct s; try discriminate H1; cbn [is_point]; auto.
Qed.
Lemma one_point : forall l a, p_body p = a ++ l -> (length (filter is_point l) <= 1)%nat.
Proof.
  induction l as [|s l IH]; intros a E; [cbn; lia|]. cbn [filter]. destruct (is_point s) eqn:P.
  - rewrite no_place_point by (apply (ed_point p ED a s l E P)). cbn. lia.
  - apply (IH (a ++ [s])). now rewrite <- app_assoc.
Qed.

Lemma point_main : count (point_sym m) main <= 1.
Proof.
  unfold main. rewrite count_app, (count_map _ is_point) by (intros s IN; apply (code_all s (all_allowed s IN))).
  pose proof (one_point (p_body p) [] eq_refl) as O.
  assert (X : count (point_sym m) sign_end = 0).
  { unfold sign_end. destruct (p_trail p); try reflexivity; unfold count; cbn [filter]; rewrite (point_no m CF) by lia; reflexivity. }
  lia.
Qed.

Lemma has_filter : forall q l, has q l = negb (length (filter q l) =? 0)%nat.
Proof. clear. intros q l. unfold has. induction l as [|s l IH]; [reflexivity|]. cbn [existsb filter]. destruct (q s); [reflexivity|exact IH]. Qed.
Lemma filter_and : forall (q : sym -> bool) b l, filter (fun s => q s && b) l = if b then filter q l else [].
Proof.
  clear. intros q b l. induction l as [|s l IH]; [destruct b; reflexivity|]. cbn [filter]. rewrite IH.
  destruct b; [rewrite andb_true_r; reflexivity|rewrite andb_false_r; reflexivity].
Qed.
Lemma place_count : forall l, length (filter place l) = (length (filter (fun s => is_nine s || is_supp s) l) + length (filter is_float l))%nat.
Proof. clear. induction l as [|s l IH]; [reflexivity|]. destruct s; cbn [filter place is_nine is_supp is_float orb length]; lia. Qed.

Definition float_less : Z := if has is_float (p_body p) then 1 else 0.
Lemma places_main : digit_places m main = places (p_body p) - float_less.
Proof.
  unfold digit_places, main. rewrite !count_app.
  rewrite (count_map _ (fun s => is_nine s || is_supp s)) by (intros s IN; apply (code_all s (all_allowed s IN))).
  rewrite (count_map _ (fun s => is_float s && lead_sign)) by (intros s IN; apply (code_all s (all_allowed s IN))).
  rewrite (count_map _ (fun s => is_float s && negb lead_sign)) by (intros s IN; apply (code_all s (all_allowed s IN))).
  rewrite !filter_and. unfold places, float_less. rewrite place_count, has_filter.
  assert (C0 : count (Z.eqb (c_currency m)) sign_end = 0).
  { unfold sign_end. destruct (p_trail p); try reflexivity; unfold count; cbn [filter]; rewrite (cur_ne m CF) by (cbn; tauto); reflexivity. }
  assert (D0 : count digit_sym sign_end = 0) by (unfold sign_end; destruct (p_trail p); reflexivity).
  assert (S0 : 0 <= count sign_sym sign_end <= 1 /\ (count sign_sym sign_end = 1 -> (0 < length (filter is_float (p_body p)))%nat -> lead_sign = false)).
  { unfold sign_end. pose proof (ed_trail p ED) as ET. rewrite (has_filter is_float) in ET. unfold lead_sign.
    destruct (p_trail p); try (change (count sign_sym []) with 0; split; [lia|intros; lia]);
      (change (count sign_sym _) with 1; split; [lia|]; intros _ HF; destruct ET as (_ & ET); [auto|]; rewrite ET; [reflexivity|];
       destruct (length (filter is_float (p_body p))); [lia|reflexivity]). }
  destruct S0 as (S0 & S1). rewrite C0, D0.
  destruct (length (filter is_float (p_body p))) as [|k] eqn:EF.
  - destruct lead_sign; cbn [negb Nat.eqb length]; rewrite ?EF; lia.
  - destruct lead_sign; cbn [negb Nat.eqb length]; rewrite ?EF.
    + assert (count sign_sym sign_end = 0) by (destruct (Z.eq_dec (count sign_sym sign_end) 1) as [E|E]; [specialize (S1 E ltac:(lia)); discriminate S1|lia]). lia.
    + lia.
Qed.

Lemma letters_counts : digit_places m (main ++ letters) = digit_places m main /\
  positions (main ++ letters) = positions main + Z.of_nat (length letters) /\
  scale_of m (main ++ letters) = scale_of m main.
Proof.
  assert (X : letters = [] \/ exists c d, letters = repeat c 1 ++ repeat d 1 /\ In c [67; 68] /\ In d [82; 66]).
  { unfold letters. destruct (p_trail p); auto; right; [exists 67, 82|exists 68, 66]; cbn; tauto. }
  destruct X as [-> | (c & d & -> & HC & HD)]; [rewrite app_nil_r; cbn [length]; split; [auto|split; [lia|auto]]|].
  assert (C1 : (c_currency m =? c) = false /\ (c_currency m =? d) = false) by (split; apply cur_ne; auto; cbn in HC, HD |- *; tauto).
  destruct C1 as (X1 & X2).
  assert (PC : point_sym m c = false) by (apply point_no; auto; intros ->; cbn in HC; lia).
  assert (PD : point_sym m d = false) by (apply point_no; auto; intros ->; cbn in HD; lia).
  assert (DC : digit_sym c = false) by (cbn in HC; destruct HC as [<-|[<-|[]]]; reflexivity).
  assert (DD : digit_sym d = false) by (cbn in HD; destruct HD as [<-|[<-|[]]]; reflexivity).
  assert (SC : sign_sym c = false) by (cbn in HC; destruct HC as [<-|[<-|[]]]; reflexivity).
  assert (SD : sign_sym d = false) by (cbn in HD; destruct HD as [<-|[<-|[]]]; reflexivity).
  rewrite !app_assoc. split; [|split].
  - rewrite !places_app by (auto; rewrite Z.eqb_sym; auto). rewrite DC, DD. lia.
  - rewrite !positions_app. cbn in HC, HD. destruct HC as [<-|[<-|[]]], HD as [<-|[<-|[]]]; cbn; lia.
  - rewrite !scale_other by auto. reflexivity.
Qed.

Lemma size_main : positions (main ++ letters) = Z.of_nat (pic_size p).
Proof.
  destruct letters_counts as (_ & -> & _). unfold positions, main. rewrite count_app.
  rewrite (count_map _ shown) by (intros s IN; apply (code_all s (all_allowed s IN))).
  unfold pic_size, sign_end, letters. destruct (p_trail p); cbn [trail_size length]; unfold count; cbn; lia.
Qed.

Lemma runs_main : nonS main ++ firstn 1 letters = pic_string m p.
Proof.
  unfold main, pic_string. rewrite nonS_app.
  assert (E : nonS (map (sym_code m p) (p_body p)) = map (sym_code m p) (p_body p)).
  { pose proof all_allowed as AA. induction (p_body p) as [|s l IH]; [reflexivity|]. cbn [map].
    unfold nonS. cbn [filter]. destruct (code_all s (AA s ltac:(left; reflexivity))) as (_ & _ & _ & _ & _ & _ & E & _).
    rewrite E. cbn [negb]. f_equal. apply IH. intros x IN. apply AA. now right. }
  rewrite E, <- app_assoc. f_equal. unfold sign_end, letters. destruct (p_trail p); reflexivity.
Qed.

Lemma other_main : count other_sym main = inserts p.
Proof.
  unfold main. rewrite count_app. rewrite (count_map _ (fun s => match s with Blank | Insert _ => true | _ => false end)) by (intros s IN; apply (code_all s (all_allowed s IN))).
  unfold inserts.
  assert (X : count other_sym sign_end = 0) by (unfold sign_end; destruct (p_trail p); reflexivity). lia.
Qed.

(** Digits behind the point. *)
Lemma scale_main : scale_of m main = (fix go l := match l with [] => 0 | s :: r => if is_point s then
    Z.of_nat (length (filter (fun s => is_nine s || is_supp s) r)) else go r end) (p_body p).
Proof.
  unfold scale_of.
  assert (LD : leads_P main = false) by (apply (edit_none m main), main_chars).
  rewrite LD.
  assert (P0 : count (Z.eqb 80) (before m main) = 0).
  { pose proof (count_before_le m (Z.eqb 80) main). pose proof (count_nonneg (Z.eqb 80) (before m main)).
    destruct (edit_none m main (proj1 main_chars)) as (_ & N & _). rewrite <- count_occurs in N. apply Z.ltb_ge in N. lia. }
  rewrite P0, Z.sub_0_r. unfold main.
  assert (DS : count digit_sym sign_end = 0) by (unfold sign_end; destruct (p_trail p); reflexivity).
  assert (AE : after m sign_end = []).
  { unfold sign_end. destruct (p_trail p); try reflexivity; cbn [after]; rewrite (point_no m CF) by lia; reflexivity. }
  pose proof all_allowed as AA. induction (p_body p) as [|s l IH]; [cbn [map app]; rewrite AE; reflexivity|].
  cbn [map app after]. destruct (code_all s (AA s ltac:(left; reflexivity))) as (-> & _).
  destruct (is_point s).
  - rewrite count_app, DS, Z.add_0_r. apply count_map. intros x IN. apply (code_all x). apply AA. now right.
  - apply IH. intros x IN. apply AA. now right.
Qed.

Lemma scale_decimals : no_float_behind p -> scale_of m main = decimals (p_body p).
Proof.
  intros NF. rewrite scale_main. unfold no_float_behind in NF. clear - NF.
  induction (p_body p) as [|s l IH]; [reflexivity|]. cbn [decimals]. destruct (is_point s) eqn:P.
  - specialize (NF [] s l eq_refl P). unfold places. rewrite place_count. rewrite has_filter in NF. apply negb_false_iff, Nat.eqb_eq in NF. lia.
  - apply IH. intros a x b E PX. apply (NF (s :: a) x b); [now rewrite E|exact PX].
Qed.
Lemma scale_le : 0 <= scale_of m main <= decimals (p_body p).
Proof.
  rewrite scale_main. clear. induction (p_body p) as [|s l IH]; [cbn; lia|]. cbn [decimals]. destruct (is_point s); [|exact IH].
  unfold places. rewrite place_count. lia.
Qed.

Lemma sign_main : has_sign (main ++ letters) = shows_sign p.
Proof.
  unfold has_sign, main, shows_sign. rewrite !occurs_app.
  rewrite (occurs_map _ (fun s => is_float s && lead_sign)).
  - assert (E : has (fun s => is_float s && lead_sign) (p_body p) = has is_float (p_body p) && lead_sign).
    { clear. unfold has. induction (p_body p) as [|s l IH]; [reflexivity|]. cbn [existsb]. rewrite IH.
      destruct (is_float s), (existsb is_float l), lead_sign; reflexivity. }
    rewrite E. unfold lead_sign, sign_end, letters. rewrite <- orb_assoc. f_equal. destruct (p_trail p); reflexivity.
  - intros s IN. destruct (code_all s (all_allowed s IN)) as (_ & _ & -> & _ & _ & _ & -> & _ & _ & B & _).
    rewrite (body_ne _ 67 B), (body_ne _ 68 B) by (cbn; tauto). cbn [orb]. now rewrite !orb_false_r.
Qed.

Theorem edited_picture : forall am nm s,
  spelled_out s (pic_source m p) -> (length s <= 50)%nat -> Z.of_nat (length (pic_source m p)) + 2 <= INT_MAX ->
  has place (p_body p) = true -> edits p = true ->
  places (p_body p) - float_less + inserts p <= 160 -> decimals (p_body p) <= 127 ->
  exists q, build_picture m am nm s = Ok (Some q) /\ pc_cat q = CNumEdited /\
    pc_size q = Z.of_nat (pic_size p) /\ (1 <= pic_size p)%nat /\
    pc_digits q = places (p_body p) - float_less /\
    0 <= pc_scale q <= decimals (p_body p) /\
    (no_float_behind p -> pc_scale q = decimals (p_body p)) /\
    (pc_sign q <> 0 <-> shows_sign p = true) /\
    expand (pc_runs q) = pic_string m p /\ Forall (fun cn => 1 <= snd cn) (pc_runs q).
Proof.
  intros am nm s HS L50 L HP HE D160 D127.
  pose proof HS as HS0. rewrite source_split in HS, L.
  destruct HS as (s0 & t & e & ES & ET & SP & EN).
  destruct main_chars as (ME & MB).
  destruct (end_unique t e main letters (spells_body s0 t SP) MB EN letters_ending) as (-> & ->); [auto|].
  subst s. rewrite app_length in L.
  assert (S1 : 1 <= positions main).
  { unfold positions, main. rewrite count_app. rewrite (count_map _ shown) by (intros s IN; apply (code_all s (all_allowed s IN))).
    pose proof (count_nonneg (fun c => negb ((c =? 86) || (c =? 80) || (c =? 83))) sign_end) as C0.
    assert (X : (1 <= length (filter shown (p_body p)))%nat).
    { clear - HP. unfold has in HP. induction (p_body p) as [|s l IH]; [discriminate HP|]. cbn [existsb] in HP. cbn [filter].
      destruct s; cbn [place orb shown] in *; cbn [length]; try lia; auto. }
    lia. }
  assert (ON : occurs isN (main ++ letters) = true).
  { unfold main. rewrite !occurs_app. apply orb_true_iff. left. apply orb_true_iff. left.
    apply existsb_exists in HP as (x & IN & PX). apply existsb_exists. exists (sym_code m p x).
    split; [now apply in_map|]. now apply (code_all x (all_allowed x IN)). }
  assert (OE : occurs (edit_sym m) (main ++ letters) = true).
  { unfold main. rewrite !occurs_app. unfold edits in HE. apply orb_true_iff in HE as [HE|HE].
    - rewrite (occurs_map _ (fun s => match s with Digit | Virtual => false | _ => true end)) by (intros s IN; apply (code_all s (all_allowed s IN))).
      rewrite HE. reflexivity.
    - unfold sign_end, letters. destruct (p_trail p); try discriminate HE; cbn [occurs existsb]; rewrite ?orb_true_r; try reflexivity. }
  destruct (edited_accepted m CF am nm s0 main letters) as (q & B & C); auto.
  - apply point_main.
  - lia.
  - rewrite places_main, other_main. exact D160.
  - exists q. split; [exact B|]. split; [exact C|].
    destruct (accepted_full m am nm (s0 ++ letters) (main ++ letters) q CF) as (A1 & A2 & _); auto.
    + rewrite <- source_split. exact HS0.
    + intros IN. apply in_app_iff in IN as [IN|IN].
      * rewrite Forall_forall in ME. destruct (legal_ne m CF 78 (proj1 (ME 78 IN))) as (_ & _ & X). congruence.
      * unfold letters in IN. destruct (p_trail p); cbn in IN; lia.
    + rewrite app_length. lia.
    + destruct (A2 (or_intror C)) as (A3 & A4 & A5 & A6). rewrite size_main in A1.
      destruct letters_counts as (LC1 & LC2 & LC3). rewrite LC1, places_main in A3. rewrite LC3 in A5. rewrite sign_main in A6.
      pose proof scale_le as SL. specialize (A5 ltac:(lia)).
      assert (NN : ~ In 78 main).
      { intros IN. rewrite Forall_forall in ME. destruct (legal_ne m CF 78 (proj1 (ME 78 IN))) as (_ & _ & X). congruence. }
      assert (LI : Z.of_nat (length (main ++ letters)) <= INT_MAX) by (rewrite app_length; lia).
      destruct (accepted m CF am nm s0 main letters q SP EN NN L50 LI B) as (_ & _ & _ & _ & A7 & _).
      destruct (A7 C) as (_ & A8 & A9). unfold shown_runs in A8. rewrite runs_main in A8.
      split; [exact A1|]. split; [|split; [exact A3|split; [rewrite A5; exact SL|split; [|split; [exact A6|auto]]]]].
      * pose proof size_main as SM. rewrite LC2 in SM. lia.
      * intros NF. rewrite A5. now apply scale_decimals.
Qed.
End PE.
