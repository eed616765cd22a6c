(** Numeric editing (proof file). *)
From Coq Require Import QArith Qabs.
From Verif Require Import Base BaseFacts Field Sign Decimal SpecNum Numeric SpecStore NumFacts.
From Verif Require Import DispProofs DecProofs MoveProofs Move Edited SpecEdit.
Local Open Scope Z_scope.

(** ** Lists *)

Fixpoint gcells (g : list sym -> sym -> list sym -> list Z) (a l t : list sym) : list Z :=
  match l with
  | [] => []
  | s :: b => g a s (b ++ t) ++ gcells g (a ++ [s]) b t
  end.

Lemma gcells_app : forall g l1 l2 a t,
  gcells g a (l1 ++ l2) t = gcells g a l1 (l2 ++ t) ++ gcells g (a ++ l1) l2 t.
Proof.
  induction l1 as [|s b IH]; intros l2 a t; cbn [gcells app].
  - now rewrite app_nil_r.
  - rewrite IH, <- !app_assoc. reflexivity.
Qed.

Lemma gcells_snoc : forall g a s t c,
  gcells g c (a ++ [s]) t = gcells g c a (s :: t) ++ g (c ++ a) s t.
Proof. intros. rewrite gcells_app. cbn [gcells app]. now rewrite app_nil_r. Qed.

Lemma cells_gcells : forall m p N neg l a, cells m p N neg a l = gcells (cell m p N neg) a l [].
Proof. induction l as [|s b IH]; intros a; cbn [cells gcells]; auto. now rewrite IH, app_nil_r. Qed.

Definition width (s : sym) : nat := if shown s then 1%nat else 0%nat.
Definition widthl (l : list sym) : nat := length (filter shown l).
Lemma widthl_cons : forall s l, widthl (s :: l) = (width s + widthl l)%nat.
Proof. intros. unfold widthl, width. cbn [filter]. destruct (shown s); reflexivity. Qed.
Lemma widthl_app : forall a b, widthl (a ++ b) = (widthl a + widthl b)%nat.
Proof. intros. unfold widthl. now rewrite filter_app, app_length. Qed.

Lemma gcells_length : forall g l a t, (forall x s y, length (g x s y) = width s) ->
  length (gcells g a l t) = widthl l.
Proof.
  intros g l. induction l as [|s b IH]; intros a t H; cbn [gcells]; auto.
  rewrite app_length, H, IH, widthl_cons by auto. reflexivity.
Qed.

(** Pointwise comparison of two cell functions along the splits of a list. *)
Lemma gcells_map : forall (h : Z -> Z) g1 g2 l a t,
  (forall x s y, l = x ++ s :: y -> map h (g1 (a ++ x) s (y ++ t)) = g2 (a ++ x) s (y ++ t)) ->
  map h (gcells g1 a l t) = gcells g2 a l t.
Proof.
  intros h g1 g2 l. induction l as [|s b IH]; intros a t H; cbn [gcells]; auto.
  rewrite map_app. f_equal.
  - specialize (H [] s b eq_refl). now rewrite app_nil_r in H.
  - apply IH. intros x u y E. specialize (H (s :: x) u y). rewrite E in H.
    specialize (H eq_refl). rewrite <- !app_assoc. exact H.
Qed.
Lemma gcells_ext : forall g1 g2 l a t,
  (forall x s y, l = x ++ s :: y -> g1 (a ++ x) s (y ++ t) = g2 (a ++ x) s (y ++ t)) ->
  gcells g1 a l t = gcells g2 a l t.
Proof.
  intros. rewrite <- (map_id (gcells g1 a l t)). apply gcells_map.
  intros. rewrite map_id. auto.
Qed.
Lemma gcells_Forall : forall (Q : Z -> Prop) g l a t,
  (forall x s y, l = x ++ s :: y -> Forall Q (g (a ++ x) s (y ++ t))) -> Forall Q (gcells g a l t).
Proof.
  intros Q g l. induction l as [|s b IH]; intros a t H; cbn [gcells]; auto.
  apply Forall_app. split.
  - specialize (H [] s b eq_refl). now rewrite app_nil_r in H.
  - apply IH. intros x u y E. specialize (H (s :: x) u y). rewrite E in H.
    specialize (H eq_refl). rewrite <- !app_assoc. exact H.
Qed.

(** ** Primitive updates *)

Lemma upd_app : forall (x : list Z) v c y, upd (length x) v (x ++ c :: y) = x ++ v :: y.
Proof. induction x; intros; cbn [upd app length]; auto. now rewrite IHx. Qed.

Lemma put_at_app : forall x c y v, put_at (x ++ c :: y) (Z.of_nat (length x)) v = Ok (x ++ v :: y).
Proof.
  intros. unfold put_at. rewrite app_length. cbn [length].
  rewrite (proj2 (Z.leb_le 0 (Z.of_nat (length x)))) by lia.
  rewrite (proj2 (Z.ltb_lt (Z.of_nat (length x)) (Z.of_nat (length x + S (length y))))) by lia.
  cbn [andb]. rewrite Nat2Z.id. now rewrite upd_app.
Qed.


Definition zf (c : Z) : Z := if zero_fill_char c then 48 else c.

Lemma zero_fill_out : forall l k from to,
  (Z.of_nat (k + length l) <= from \/ to <= Z.of_nat k) ->
  map (fun ic => let '(i, c) := ic in if (from <=? i) && (i <? to) && zero_fill_char c then 48 else c)
    (combine (map Z.of_nat (seq k (length l))) l) = l.
Proof.
  induction l as [|c l IH]; intros k from to H; cbn [length seq map combine]; auto.
  cbn [length] in H. rewrite IH by lia.
  destruct ((from <=? Z.of_nat k) && (Z.of_nat k <? to)) eqn:E; cbn [andb]; auto.
  apply andb_true_iff in E as [E1 E2]. apply Z.leb_le in E1. apply Z.ltb_lt in E2. lia.
Qed.
Lemma zero_fill_in : forall l k from to,
  from <= Z.of_nat k -> Z.of_nat (k + length l) <= to ->
  map (fun ic => let '(i, c) := ic in if (from <=? i) && (i <? to) && zero_fill_char c then 48 else c)
    (combine (map Z.of_nat (seq k (length l))) l) = map zf l.
Proof.
  induction l as [|c l IH]; intros k from to H1 H2; cbn [length seq map combine]; auto.
  cbn [length] in H2. rewrite IH by lia. f_equal. unfold zf.
  rewrite (proj2 (Z.leb_le from (Z.of_nat k))) by lia.
  rewrite (proj2 (Z.ltb_lt (Z.of_nat k) to)) by lia. reflexivity.
Qed.

Lemma combine_app : forall (A B : Type) (a1 a2 : list A) (b1 b2 : list B), length a1 = length b1 ->
  combine (a1 ++ a2) (b1 ++ b2) = combine a1 b1 ++ combine a2 b2.
Proof.
  induction a1; destruct b1; intros; cbn [length] in *; try discriminate; cbn [app combine]; auto.
  now rewrite IHa1 by lia.
Qed.

Lemma zero_fill_app : forall x y z,
  zero_fill (x ++ y ++ z) (Z.of_nat (length x)) (Z.of_nat (length x + length y)) = x ++ map zf y ++ z.
Proof.
  intros. unfold zero_fill. rewrite !app_length.
  rewrite !seq_app, !map_app, !combine_app by (rewrite map_length, seq_length; reflexivity).
  rewrite !map_app. f_equal; [|f_equal].
  - apply zero_fill_out. lia.
  - apply zero_fill_in; lia.
  - apply zero_fill_out. lia.
Qed.

Lemma last_space_app : forall y x z, ~ In 32 y ->
  last_space (x ++ 32 :: y ++ z) (length x + length y) = length x.
Proof.
  intros y. induction y as [|c y IH] using rev_ind; intros x z H.
  - rewrite Nat.add_0_r. cbn [app length]. destruct (length x) eqn:L; [reflexivity|].
    cbn [last_space]. rewrite <- L. rewrite nth_middle. reflexivity.
  - rewrite app_length. cbn [length]. replace (length x + (length y + 1))%nat with (S (length x + length y)) by lia.
    cbn [last_space].
    replace (nth (S (length x + length y)) (x ++ 32 :: (y ++ [c]) ++ z) 0) with c.
    + destruct (Z.eqb_spec c 32) as [->|]; [exfalso; apply H; apply in_or_app; right; left; reflexivity|].
      rewrite <- app_assoc. cbn [app]. apply (IH x (c :: z)). intro; apply H; apply in_or_app; auto.
    + rewrite app_nth2 by lia. replace (S (length x + length y) - length x)%nat with (S (length y)) by lia.
      cbn [nth]. rewrite <- app_assoc. cbn [app]. now rewrite nth_middle.
Qed.

Definition unb (c : Z) : Z := if c =? 66 then 32 else c.
Lemma replace_B_pos : forall y z pad k, 0 < k -> replace_B (y ++ z) pad k (length y) = map unb y ++ z.
Proof.
  induction y as [|c y IH]; intros z pad k H; cbn [length app map].
  - destruct z; reflexivity.
  - cbn [replace_B]. unfold unb at 1. destruct (Z.eqb_spec c 66).
    + rewrite (proj2 (Z.eqb_neq k 0)) by lia. now rewrite IH.
    + rewrite IH by lia. reflexivity.
Qed.
Lemma replace_B_app : forall y z pad, hd 0 y <> 66 -> replace_B (y ++ z) pad 0 (length y) = map unb y ++ z.
Proof.
  intros [|c y] z pad H; [destruct z; reflexivity|]. cbn [hd] in H. cbn [length app map replace_B].
  unfold unb at 1. rewrite (proj2 (Z.eqb_neq c 66)) by auto. now rewrite replace_B_pos by lia.
Qed.

(** ** Symbols *)

Lemma has_app : forall q a b, has q (a ++ b) = has q a || has q b.
Proof. intros. unfold has. apply existsb_app. Qed.
Lemma has_one : forall q s, has q [s] = q s.
Proof. intros. unfold has. cbn [existsb]. now rewrite orb_false_r. Qed.
Lemma places_nonneg : forall l, 0 <= places l.
Proof. intros. unfold places. lia. Qed.
Lemma places_app : forall a b, places (a ++ b) = places a + places b.
Proof. intros. unfold places. rewrite filter_app, app_length. lia. Qed.
Lemma places_cons : forall s b, places (s :: b) = (if place s then 1 else 0) + places b.
Proof. intros. unfold places. cbn [filter]. destruct (place s); cbn [length]; lia. Qed.

(** One more digit. *)
Lemma small_step : forall N k, 0 <= N -> 0 <= k ->
  (N <? 10 ^ k) = (N <? 10 ^ (1 + k)) && ((48 + (N / 10 ^ k) mod 10) =? 48).
Proof.
  intros N k HN Hk. assert (0 < 10 ^ k) by (apply Z.pow_pos_nonneg; lia).
  rewrite Z.pow_add_r by lia. change (10 ^ 1) with 10.
  destruct (Z.ltb_spec N (10 ^ k)).
  - rewrite (proj2 (Z.ltb_lt N (10 * 10 ^ k))) by lia. rewrite Z.div_small by lia. reflexivity.
  - destruct (Z.ltb_spec N (10 * 10 ^ k)); cbn [andb]; auto. symmetry. apply Z.eqb_neq.
    assert (1 <= N / 10 ^ k) by (apply Z.div_le_lower_bound; lia).
    assert (N / 10 ^ k < 10) by (apply Z.div_lt_upper_bound; lia).
    rewrite Z.mod_small by lia. lia.
Qed.

Lemma cur_ne : forall m, edit_cfg m -> forall x, In x [0; 32; 42; 43; 44; 45; 46; 47; 48; 49; 50; 51; 52; 53; 54; 55; 56; 57; 66; 67; 68; 80; 86; 90] -> (c_currency m =? x) = false.
Proof. intros m CF x I. apply Z.eqb_neq. intros E. apply (proj2 CF). now rewrite E. Qed.

Lemma dp_cases : forall m, edit_cfg m -> (c_decpoint m = 46 /\ separator m = 44) \/ (c_decpoint m = 44 /\ separator m = 46).
Proof. intros m CF. unfold separator. destruct CF as [[-> | ->] _]; auto. Qed.

Section Loop.
Variables (m : cfg) (p : picture) (N : Z) (neg : bool) (src old : list Z) (base : Z).
Hypothesis CF : edit_cfg m.
Hypothesis ED : editable p.
Hypothesis HN : 0 <= N < 10 ^ places (p_body p).
Hypothesis FIT : has is_float (p_body p) = true -> N < 10 ^ (places (p_body p) - 1).
Hypothesis SRC : forall k, 0 <= k < places (p_body p) ->
  fetch_src src (base + k) = 48 + (N / 10 ^ (places (p_body p) - 1 - k)) mod 10.
Hypothesis OLD : length old = pic_size p.

Let body := p_body p.
Let dg := digit_at N.

Definition padc (a : list sym) : Z := if has is_supp a then fill p else 32.
Definition lz (a b : list sym) : bool := negb (has is_nine a) && (N <? 10 ^ places b).

Definition raw (a : list sym) (s : sym) (b : list sym) : list Z :=
  match s with
  | Digit => [dg b]
  | Supp => [if lz a b then fill p else dg b]
  | Float => [if lz a b then 32 else dg b]
  | Comma => [if lz a b then padc a else separator m]
  | Blank => [if lz a b then padc a else 66]
  | Insert c => [c]
  | Point => [c_decpoint m]
  | Virtual => []
  end.

Lemma raw_width : forall a s b, length (raw a s b) = width s.
Proof. intros a s b; destruct s; reflexivity. Qed.

Definition signsym (a : list sym) : Z :=
  if has is_float a then
    match p_lead p with LPlus => if neg then 45 else 43 | LMinus => if neg then 45 else 32 | LCurr => 0 end
  else 0.
Definition currsym (a : list sym) : Z :=
  if has is_float a then match p_lead p with LCurr => c_currency m | _ => 0 end else 0.
Definition sigs (a : list sym) : bool := has is_nine a || has is_supp a.

(** Where the decimal point was put. *)
Fixpoint dpos (k : Z) (a : list sym) : option Z :=
  match a with
  | [] => None
  | s :: r => match s with
              | Point => Some k
              | Virtual => Some (k - 1)
              | _ => dpos (k + 1) r
              end
  end.

Lemma dpos_snoc : forall a k s, has is_point a = false ->
  dpos k (a ++ [s]) = if is_point s then Some (k + Z.of_nat (widthl a) - (if shown s then 0 else 1)) else None.
Proof using.
  clear.
  induction a as [|x r IH]; intros k s H.
  - destruct s; cbn [app dpos is_point shown]; auto; f_equal; unfold widthl; cbn [filter length]; lia.
  - unfold has in H. cbn [existsb] in H. apply orb_false_iff in H as [H1 H2].
    rewrite widthl_cons. cbn [app]. destruct x; try discriminate H1; cbn [dpos]; rewrite IH by exact H2;
      destruct (is_point s); auto; f_equal; unfold width; cbn [shown]; lia.
Qed.
Lemma dpos_app : forall a k b, has is_point a = true -> dpos k (a ++ b) = dpos k a.
Proof.
  induction a as [|x r IH]; intros k b H; [discriminate|]. unfold has in H. cbn [existsb] in H.
  cbn [app dpos]. destruct x; cbn [is_point orb] in H; auto.
Qed.

Record St (a l : list sym) (s : est) : Prop := mkSt {
  st_dst : e_dst s = Z.of_nat (widthl a);
  st_data : e_data s = gcells raw [] a l ++ skipn (widthl a) old;
  st_src : e_src s = base + places a;
  st_zero : e_zero s = (N <? 10 ^ places l);
  st_supp : e_supp s = lz a l;
  st_ts : e_tsign s = sigs a;
  st_tc : e_tcurr s = sigs a;
  st_pad : e_pad s = padc a;
  st_dp : e_dp s = dpos 0 a;
  st_end : e_end s = Z.of_nat (length old);
  st_ss : e_ssym s = signsym a;
  st_cs : e_csym s = currsym a }.

Lemma float_before : forall a b, body = a ++ Float :: b -> sigs a = false.
Proof.
  intros a b E. assert (HF : has is_float (p_body p) = true).
  { change (p_body p) with body. rewrite E, has_app. unfold has at 2. cbn [existsb is_float]. now rewrite orb_true_r. }
  destruct (ed_first p ED HF) as (r & ER & [(S1 & S2 & S3)|(S1 & S2 & S3)]).
  - unfold sigs. rewrite (S2 a b E). change (p_body p) with body in S1. rewrite E, has_app in S1.
    apply orb_false_iff in S1 as [S1 _]. now rewrite S1.
  - destruct a as [|x a]; [reflexivity|]. change (p_body p) with body in ER. rewrite E in ER. cbn [app] in ER.
    injection ER as -> <-. rewrite has_app in S2. apply orb_false_iff in S2 as [_ S2]. discriminate S2.
Qed.

Lemma float_head : forall a b, body = a ++ Float :: b -> a <> [] -> has is_float a = true.
Proof.
  intros a b E NE. assert (HF : has is_float (p_body p) = true).
  { change (p_body p) with body. rewrite E, has_app. unfold has at 2. cbn [existsb is_float]. now rewrite orb_true_r. }
  destruct (ed_first p ED HF) as (r & ER & _). change (p_body p) with body in ER. rewrite E in ER.
  destruct a; [congruence|]. cbn [app] in ER. injection ER as -> _. reflexivity.
Qed.

Lemma fetch_here : forall a s b, body = a ++ s :: b -> place s = true ->
  fetch_src src (base + places a) = dg b.
Proof.
  intros a s b E P. pose proof (places_nonneg a). pose proof (places_nonneg b).
  assert (PE : places (p_body p) = places a + 1 + places b).
  { change (p_body p) with body. rewrite E, places_app, places_cons, P. lia. }
  rewrite SRC by lia. unfold dg, digit_at. do 4 f_equal. lia.
Qed.

Lemma skipn_room : forall a s b, body = a ++ s :: b -> shown s = true ->
  exists c, skipn (widthl a) old = c :: skipn (S (widthl a)) old.
Proof.
  intros a s b E S. assert (L : (widthl a < length old)%nat).
  { rewrite OLD. unfold pic_size. fold (widthl (p_body p)). change (p_body p) with body.
    rewrite E, widthl_app, widthl_cons. unfold width. rewrite S. lia. }
  clear - L. revert L. generalize (widthl a). revert old.
  induction old as [|x o IH]; intros n L; cbn [length] in L; [lia|].
  destruct n; cbn [skipn]; [eauto|]. apply IH. lia.
Qed.

Lemma raws_len : forall a l, length (gcells raw [] a l) = widthl a.
Proof. intros. apply gcells_length. apply raw_width. Qed.

(** Writing one character. *)
Lemma put_here : forall a s b c, body = a ++ s :: b -> shown s = true -> raw a s b = [c] ->
  put_at (gcells raw [] a (s :: b) ++ skipn (widthl a) old) (Z.of_nat (widthl a)) c
  = Ok (gcells raw [] (a ++ [s]) b ++ skipn (widthl (a ++ [s])) old).
Proof.
  intros a s b c E S R. destruct (skipn_room a s b E S) as (x & EX). rewrite EX.
  rewrite <- (raws_len a (s :: b)) at 2. rewrite put_at_app.
  rewrite gcells_snoc. cbn [app]. rewrite R, <- app_assoc. cbn [app].
  rewrite widthl_app. unfold widthl at 3. cbn [filter]. rewrite S. cbn [length].
  now rewrite Nat.add_1_r.
Qed.

Lemma widthl_snoc : forall a s, shown s = true -> Z.of_nat (widthl (a ++ [s])) = Z.of_nat (widthl a) + 1.
Proof using. clear. intros. rewrite widthl_app. unfold widthl at 2. cbn [filter]. rewrite H. cbn [length]. lia. Qed.

Lemma places_snoc : forall a s, places (a ++ [s]) = places a + (if place s then 1 else 0).
Proof using. clear. intros. rewrite places_app, places_cons. change (places []) with 0. lia. Qed.

Lemma dpos_other : forall a s b, body = a ++ s :: b -> is_point s = false ->
  dpos 0 (a ++ [s]) = dpos 0 a.
Proof.
  intros a s b E P. destruct (has is_point a) eqn:H.
  - now apply dpos_app.
  - rewrite dpos_snoc, P by auto. clear E. revert H. generalize 0. induction a as [|x r IH]; intros k H; auto.
    unfold has in H. cbn [existsb] in H. apply orb_false_iff in H as [H1 H2].
    destruct x; try discriminate H1; cbn [dpos]; apply IH; exact H2.
Qed.

Lemma at_point : forall a s b, body = a ++ s :: b -> is_point s = true -> has is_point a = false.
Proof.
  intros a s b E P. destruct (has is_point a) eqn:H; auto. exfalso.
  unfold has in H. apply existsb_exists in H as (x & IN & PX).
  apply in_split in IN as (a1 & a2 & ->). rewrite <- app_assoc in E. cbn [app] in E.
  pose proof (ed_point p ED a1 x (a2 ++ s :: b) E PX) as F. rewrite forallb_app in F.
  apply andb_true_iff in F as [_ F]. cbn [forallb] in F. apply andb_true_iff in F as [F _].
  destruct s; discriminate.
Qed.

Ltac fin E := cbn [fst snd e_dst e_data e_src e_zero e_supp e_tsign e_tcurr e_pad e_dp e_end e_ssym e_csym];
  try reflexivity.

(** The state components that a symbol without a digit does not change. *)
Lemma keep_has : forall q a s, q s = false -> has q (a ++ [s]) = has q a.
Proof. intros. rewrite has_app, has_one, H. apply orb_false_r. Qed.

Lemma step_spec : forall a s b st, body = a ++ s :: b -> St a (s :: b) st ->
  exists st', edit_step m src neg false st (sym_code m p s) = Ok st' /\ St (a ++ [s]) b st'.
Proof.
  intros a s b st E [D1 D2 D3 D4 D5 D6 D7 D8 D9 D10 D11 D12].
  assert (PC : place s = false -> places (s :: b) = places b) by (intros H; rewrite places_cons, H; lia).
  assert (PP : place s = true -> places (s :: b) = 1 + places b) by (intros H; rewrite places_cons, H; lia).
  assert (SM : place s = true -> (N <? 10 ^ places b) = (N <? 10 ^ places (s :: b)) && (dg b =? 48)).
  { intros H. rewrite PP by auto. apply small_step; [lia|apply places_nonneg]. }
  assert (LZ0 : place s = false -> lz (a ++ [s]) b = lz a (s :: b)).
  { intros H. unfold lz. rewrite PC by auto. rewrite keep_has by (destruct s; auto; discriminate). reflexivity. }
  assert (LZ1 : is_nine s = false -> place s = true -> lz (a ++ [s]) b = lz a (s :: b) && (dg b =? 48)).
  { intros H H'. unfold lz. rewrite keep_has by auto. rewrite SM by auto. now rewrite andb_assoc. }
  assert (LZ2 : is_nine s = false -> place s = true -> lz a b = lz a (s :: b) && (dg b =? 48)).
  { intros H H'. unfold lz. rewrite SM by auto. now rewrite andb_assoc. }
  destruct s; unfold edit_step; cbn [sym_code]; cbv zeta.
  - (* 9 *)
    change (57 =? 48) with false. change (57 =? 47) with false. change (57 =? 66) with false.
    change (57 =? 80) with false. change (57 =? 57) with true. cbn [orb]. cbv iota.
    rewrite D1, D2, D3. rewrite (fetch_here a Digit b E eq_refl).
    rewrite (put_here a Digit b (dg b) E eq_refl eq_refl). cbn [obind].
    eexists. split; [reflexivity|]. constructor; fin E.
    + now rewrite widthl_snoc.
    + rewrite places_snoc. cbn [place]. lia.
    + rewrite D4. rewrite SM by auto. reflexivity.
    + unfold lz. rewrite has_app, has_one. cbn [is_nine]. now rewrite orb_true_r.
    + unfold sigs. rewrite has_app, has_one. cbn [is_nine]. now rewrite orb_true_r.
    + unfold sigs. rewrite has_app, has_one. cbn [is_nine]. now rewrite orb_true_r.
    + rewrite D8. unfold padc. now rewrite keep_has.
    + rewrite D9. symmetry. now apply (dpos_other a Digit b).
    + auto.
    + rewrite D11. unfold signsym. now rewrite keep_has.
    + rewrite D12. unfold currsym. now rewrite keep_has.
  - (* Z or * *)
    assert (EQ : forall c, c = 90 \/ c = 42 -> ((c =? 48) = false /\ (c =? 47) = false /\ (c =? 66) = false /\ (c =? 80) = false /\
      (c =? 57) = false /\ (c =? 86) = false /\ (c =? 46) = false /\ (c =? 44) = false /\ (c =? 67) = false /\
      (c =? 68) = false /\ (c =? 90) || (c =? 42) = true)) by (intros c [-> | ->]; repeat split; reflexivity).
    destruct (EQ (if p_star p then 42 else 90) ltac:(destruct (p_star p); auto))
      as (-> & -> & -> & -> & -> & -> & -> & -> & -> & -> & ->). cbn [orb]. cbv iota.
    replace (if (if p_star p then 42 else 90) =? 42 then 42 else 32) with (fill p) by (unfold fill; destruct (p_star p); reflexivity).
    rewrite D1, D2, D3. rewrite (fetch_here a Supp b E eq_refl). rewrite D5.
    rewrite <- (LZ2 eq_refl eq_refl).
    rewrite (put_here a Supp b (if lz a b then fill p else dg b) E eq_refl eq_refl). cbn [obind].
    eexists. split; [reflexivity|]. constructor; fin E.
    + now rewrite widthl_snoc.
    + rewrite places_snoc. cbn [place]. lia.
    + rewrite D4. rewrite SM by auto. reflexivity.
    + rewrite (LZ1 eq_refl eq_refl). now apply LZ2.
    + unfold sigs. rewrite !has_app, !has_one. cbn [is_nine is_supp]. now rewrite !orb_true_r.
    + unfold sigs. rewrite !has_app, !has_one. cbn [is_nine is_supp]. now rewrite !orb_true_r.
    + unfold padc. rewrite has_app, has_one. cbn [is_supp]. now rewrite orb_true_r.
    + rewrite D9. symmetry. now apply (dpos_other a Supp b).
    + auto.
    + rewrite D11. unfold signsym. now rewrite keep_has.
    + rewrite D12. unfold currsym. now rewrite keep_has.
  - (* floating *)
    pose proof (float_before a b E) as SG. rewrite SG in D6, D7.
    assert (SUPP0 : padc a = 32). { unfold padc. unfold sigs in SG. apply orb_false_iff in SG as [_ ->]. reflexivity. }
    rewrite SUPP0 in D8.
    assert (HEAD : (e_dst st =? 0) || lz a b = lz a b).
    { destruct (Z.eqb_spec (e_dst st) 0) as [Z0|]; auto. cbn [orb].
      assert (WA : widthl a = 0%nat) by lia.
      destruct a as [|x a'].
      - unfold lz. change (has is_nine []) with false. cbn [negb andb]. symmetry. apply Z.ltb_lt.
        replace (places b) with (places (p_body p) - 1).
        + apply FIT. change (p_body p) with body. rewrite E. reflexivity.
        + change (p_body p) with body. rewrite E. cbn [app]. rewrite places_cons. cbn [place]. lia.
      - pose proof (float_head _ b E ltac:(discriminate)) as HF.
        exfalso. unfold widthl in WA. unfold has in HF. apply existsb_exists in HF as (y & IN & FY).
        assert (IN2 : In y (filter shown (x :: a'))) by (apply filter_In; split; auto; destruct y; auto; discriminate).
        destruct (filter shown (x :: a')); [destruct IN2|discriminate]. }
    assert (SGN : has is_nine a = false /\ has is_supp a = false) by (unfold sigs in SG; now apply orb_false_iff in SG).
    destruct (p_lead p) eqn:LD; unfold lead_code.
    + change (43 =? 48) with false. change (43 =? 47) with false. change (43 =? 66) with false.
      change (43 =? 80) with false. change (43 =? 57) with false. change (43 =? 86) with false.
      change (43 =? 46) with false. change (43 =? 44) with false. change (43 =? 67) with false.
      change (43 =? 68) with false. change (43 =? 90) with false. change (43 =? 42) with false.
      change (43 =? 43) with true. cbn [orb]. cbv iota.
      rewrite D6, D3, (fetch_here a Float b E eq_refl), D5, <- (LZ2 eq_refl eq_refl), HEAD, D2, D8.
      rewrite D1.
      assert (RW : raw a Float b = [if lz a b then 32 else dg b]) by reflexivity.
      destruct (lz a b) eqn:LZB.
      * rewrite (put_here a Float b 32 E eq_refl RW). cbn [obind]. eexists. split; [reflexivity|].
        constructor; fin E; auto.
        -- now rewrite widthl_snoc.
        -- rewrite places_snoc. cbn [place]. lia.
        -- rewrite D4, SM by auto. reflexivity.
        -- rewrite (LZ1 eq_refl eq_refl). rewrite <- (LZ2 eq_refl eq_refl). auto.
        -- unfold sigs. rewrite !keep_has by reflexivity. rewrite (proj1 SGN), (proj2 SGN). first [reflexivity | exact D6 | exact D7].
        -- unfold sigs. rewrite !keep_has by reflexivity. rewrite (proj1 SGN), (proj2 SGN). first [reflexivity | exact D6 | exact D7].
        -- unfold padc. rewrite !keep_has by reflexivity. rewrite (proj2 SGN); reflexivity.
        -- rewrite D9. symmetry. now apply (dpos_other a Float b).
        -- unfold signsym. rewrite has_app, has_one. cbn [is_float]. rewrite orb_true_r, LD. reflexivity.
        -- rewrite D12. unfold currsym. rewrite LD. destruct (has is_float a), (has is_float (a ++ [Float])); reflexivity.
      * rewrite (put_here a Float b (dg b) E eq_refl RW). cbn [obind]. eexists. split; [reflexivity|].
        assert (NE : a <> []).
        { intros ->. rewrite D1 in HEAD. cbn in HEAD. discriminate. }
        constructor; fin E; auto.
        -- now rewrite widthl_snoc.
        -- rewrite places_snoc. cbn [place]. lia.
        -- rewrite D4, SM by auto. reflexivity.
        -- rewrite (LZ1 eq_refl eq_refl). rewrite <- (LZ2 eq_refl eq_refl). auto.
        -- unfold sigs. rewrite !keep_has by reflexivity. rewrite (proj1 SGN), (proj2 SGN). first [reflexivity | exact D6 | exact D7].
        -- unfold sigs. rewrite !keep_has by reflexivity. rewrite (proj1 SGN), (proj2 SGN). first [reflexivity | exact D6 | exact D7].
        -- unfold padc. rewrite !keep_has by reflexivity. rewrite (proj2 SGN); reflexivity.
        -- rewrite D9. symmetry. now apply (dpos_other a Float b).
        -- rewrite D11. unfold signsym. rewrite has_app, (float_head a b E NE). reflexivity.
        -- rewrite D12. unfold currsym. rewrite LD. destruct (has is_float a), (has is_float (a ++ [Float])); reflexivity.
    + change (45 =? 48) with false. change (45 =? 47) with false. change (45 =? 66) with false.
      change (45 =? 80) with false. change (45 =? 57) with false. change (45 =? 86) with false.
      change (45 =? 46) with false. change (45 =? 44) with false. change (45 =? 67) with false.
      change (45 =? 68) with false. change (45 =? 90) with false. change (45 =? 42) with false.
      change (45 =? 43) with false. change (45 =? 45) with true. cbn [orb]. cbv iota.
      rewrite D6, D3, (fetch_here a Float b E eq_refl), D5, <- (LZ2 eq_refl eq_refl), HEAD, D2, D8.
      rewrite D1.
      assert (RW : raw a Float b = [if lz a b then 32 else dg b]) by reflexivity.
      destruct (lz a b) eqn:LZB.
      * rewrite (put_here a Float b 32 E eq_refl RW). cbn [obind]. eexists. split; [reflexivity|].
        constructor; fin E; auto.
        -- now rewrite widthl_snoc.
        -- rewrite places_snoc. cbn [place]. lia.
        -- rewrite D4, SM by auto. reflexivity.
        -- rewrite (LZ1 eq_refl eq_refl). rewrite <- (LZ2 eq_refl eq_refl). auto.
        -- unfold sigs. rewrite !keep_has by reflexivity. rewrite (proj1 SGN), (proj2 SGN). first [reflexivity | exact D6 | exact D7].
        -- unfold sigs. rewrite !keep_has by reflexivity. rewrite (proj1 SGN), (proj2 SGN). first [reflexivity | exact D6 | exact D7].
        -- unfold padc. rewrite !keep_has by reflexivity. rewrite (proj2 SGN); reflexivity.
        -- rewrite D9. symmetry. now apply (dpos_other a Float b).
        -- unfold signsym. rewrite has_app, has_one. cbn [is_float]. rewrite orb_true_r, LD. reflexivity.
        -- rewrite D12. unfold currsym. rewrite LD. destruct (has is_float a), (has is_float (a ++ [Float])); reflexivity.
      * rewrite (put_here a Float b (dg b) E eq_refl RW). cbn [obind]. eexists. split; [reflexivity|].
        assert (NE : a <> []).
        { intros ->. rewrite D1 in HEAD. cbn in HEAD. discriminate. }
        constructor; fin E; auto.
        -- now rewrite widthl_snoc.
        -- rewrite places_snoc. cbn [place]. lia.
        -- rewrite D4, SM by auto. reflexivity.
        -- rewrite (LZ1 eq_refl eq_refl). rewrite <- (LZ2 eq_refl eq_refl). auto.
        -- unfold sigs. rewrite !keep_has by reflexivity. rewrite (proj1 SGN), (proj2 SGN). first [reflexivity | exact D6 | exact D7].
        -- unfold sigs. rewrite !keep_has by reflexivity. rewrite (proj1 SGN), (proj2 SGN). first [reflexivity | exact D6 | exact D7].
        -- unfold padc. rewrite !keep_has by reflexivity. rewrite (proj2 SGN); reflexivity.
        -- rewrite D9. symmetry. now apply (dpos_other a Float b).
        -- rewrite D11. unfold signsym. rewrite has_app, (float_head a b E NE). reflexivity.
        -- rewrite D12. unfold currsym. rewrite LD. destruct (has is_float a), (has is_float (a ++ [Float])); reflexivity.
    + 
      rewrite (cur_ne m CF 48) by (cbn [In]; tauto).
      rewrite (cur_ne m CF 47) by (cbn [In]; tauto).
      rewrite (cur_ne m CF 66) by (cbn [In]; tauto).
      rewrite (cur_ne m CF 80) by (cbn [In]; tauto).
      rewrite (cur_ne m CF 57) by (cbn [In]; tauto).
      rewrite (cur_ne m CF 86) by (cbn [In]; tauto).
      rewrite (cur_ne m CF 46) by (cbn [In]; tauto).
      rewrite (cur_ne m CF 44) by (cbn [In]; tauto).
      rewrite (cur_ne m CF 67) by (cbn [In]; tauto).
      rewrite (cur_ne m CF 68) by (cbn [In]; tauto).
      rewrite (cur_ne m CF 90) by (cbn [In]; tauto).
      rewrite (cur_ne m CF 42) by (cbn [In]; tauto).
      rewrite (cur_ne m CF 43) by (cbn [In]; tauto).
      rewrite (cur_ne m CF 45) by (cbn [In]; tauto). cbn [orb]. cbv iota. rewrite Z.eqb_refl. cbn [orb]. cbv iota.
      rewrite D7, D3, (fetch_here a Float b E eq_refl), D5, <- (LZ2 eq_refl eq_refl), HEAD, D2, D8.
      rewrite D1.
      assert (RW : raw a Float b = [if lz a b then 32 else dg b]) by reflexivity.
      destruct (lz a b) eqn:LZB.
      * rewrite (put_here a Float b 32 E eq_refl RW). cbn [obind]. eexists. split; [reflexivity|].
        constructor; fin E; auto.
        -- now rewrite widthl_snoc.
        -- rewrite places_snoc. cbn [place]. lia.
        -- rewrite D4, SM by auto. reflexivity.
        -- rewrite (LZ1 eq_refl eq_refl). rewrite <- (LZ2 eq_refl eq_refl). auto.
        -- unfold sigs. rewrite !keep_has by reflexivity. rewrite (proj1 SGN), (proj2 SGN). first [reflexivity | exact D6 | exact D7].
        -- unfold sigs. rewrite !keep_has by reflexivity. rewrite (proj1 SGN), (proj2 SGN). first [reflexivity | exact D6 | exact D7].
        -- unfold padc. rewrite !keep_has by reflexivity. rewrite (proj2 SGN); reflexivity.
        -- rewrite D9. symmetry. now apply (dpos_other a Float b).
        -- rewrite D11. unfold signsym. rewrite LD. destruct (has is_float a), (has is_float (a ++ [Float])); reflexivity.
        -- unfold currsym. rewrite has_app, has_one. cbn [is_float]. rewrite orb_true_r, LD. reflexivity.
      * rewrite (put_here a Float b (dg b) E eq_refl RW). cbn [obind]. eexists. split; [reflexivity|].
        assert (NE : a <> []).
        { intros ->. rewrite D1 in HEAD. cbn in HEAD. discriminate. }
        constructor; fin E; auto.
        -- now rewrite widthl_snoc.
        -- rewrite places_snoc. cbn [place]. lia.
        -- rewrite D4, SM by auto. reflexivity.
        -- rewrite (LZ1 eq_refl eq_refl). rewrite <- (LZ2 eq_refl eq_refl). auto.
        -- unfold sigs. rewrite !keep_has by reflexivity. rewrite (proj1 SGN), (proj2 SGN). first [reflexivity | exact D6 | exact D7].
        -- unfold sigs. rewrite !keep_has by reflexivity. rewrite (proj1 SGN), (proj2 SGN). first [reflexivity | exact D6 | exact D7].
        -- unfold padc. rewrite !keep_has by reflexivity. rewrite (proj2 SGN); reflexivity.
        -- rewrite D9. symmetry. now apply (dpos_other a Float b).
        -- rewrite D11. unfold signsym. rewrite LD. destruct (has is_float a), (has is_float (a ++ [Float])); reflexivity.
        -- rewrite D12. unfold currsym. rewrite has_app, (float_head a b E NE). reflexivity.
  - (* separator *)
    assert (EQ : exists c, separator m = c /\ (c = 44 \/ c = 46) /\ c <> c_decpoint m).
    { exists (separator m). destruct (dp_cases m CF) as [[A B]|[A B]]; rewrite A, B; split; auto; split; auto; discriminate. }
    destruct EQ as (c & EC & CC & CD). rewrite EC.
    assert (EQ2 : ((c =? 48) = false /\ (c =? 47) = false /\ (c =? 66) = false /\ (c =? 80) = false /\
      (c =? 57) = false /\ (c =? 86) = false /\ (c =? 46) || (c =? 44) = true)) by (destruct CC as [-> | ->]; repeat split; reflexivity).
    destruct EQ2 as (-> & -> & -> & -> & -> & -> & ->). cbn [orb]. cbv iota.
    rewrite (proj2 (Z.eqb_neq c (c_decpoint m)) CD). rewrite D5, D8, D1, D2.
    assert (RW : raw a Comma b = [if lz a (Comma :: b) then padc a else c]).
    { unfold raw, lz. rewrite EC, PC by reflexivity. reflexivity. }
    rewrite (put_here a Comma b _ E eq_refl RW). cbn [obind]. eexists. split; [reflexivity|].
    constructor; fin E; auto.
    + now rewrite widthl_snoc.
    + rewrite places_snoc. cbn [place]. lia.
    + rewrite LZ0 by auto. reflexivity.
    + unfold sigs. rewrite !keep_has by reflexivity. exact D6.
    + unfold sigs. rewrite !keep_has by reflexivity. exact D7.
    + unfold padc. rewrite !keep_has by reflexivity. reflexivity.
    + rewrite D9. symmetry. now apply (dpos_other a Comma b).
    + rewrite D11. unfold signsym. now rewrite keep_has.
    + rewrite D12. unfold currsym. now rewrite keep_has.
  - (* B *)
    change (66 =? 48) with false. change (66 =? 47) with false. change (66 =? 66) with true. cbn [orb]. cbv iota.
    rewrite D5, D8, D1, D2.
    assert (RW : raw a Blank b = [if lz a (Blank :: b) then padc a else 66]).
    { unfold raw, lz. rewrite PC by reflexivity. reflexivity. }
    rewrite (put_here a Blank b _ E eq_refl RW). cbn [obind]. eexists. split; [reflexivity|].
    constructor; fin E; auto.
    + now rewrite widthl_snoc.
    + rewrite places_snoc. cbn [place]. lia.
    + rewrite LZ0 by auto. reflexivity.
    + unfold sigs. rewrite !keep_has by reflexivity. exact D6.
    + unfold sigs. rewrite !keep_has by reflexivity. exact D7.
    + unfold padc. rewrite !keep_has by reflexivity. reflexivity.
    + rewrite D9. symmetry. now apply (dpos_other a Blank b).
    + rewrite D11. unfold signsym. now rewrite keep_has.
    + rewrite D12. unfold currsym. now rewrite keep_has.
  - (* insertion *)
    assert (IC : c = 48 \/ c = 47).
    { apply (ed_insert p ED). change (p_body p) with body. rewrite E. apply in_or_app. right. left. reflexivity. }
    assert (EQ2 : (c =? 48) || (c =? 47) = true) by (destruct IC as [-> | ->]; reflexivity).
    rewrite EQ2. cbv iota. rewrite D1, D2.
    rewrite (put_here a (Insert c) b c E eq_refl eq_refl). cbn [obind]. eexists. split; [reflexivity|].
    constructor; fin E; auto.
    + now rewrite widthl_snoc.
    + rewrite places_snoc. cbn [place]. lia.
    + rewrite LZ0 by auto. exact D5.
    + unfold sigs. rewrite !keep_has by reflexivity. exact D6.
    + unfold sigs. rewrite !keep_has by reflexivity. exact D7.
    + rewrite D8. unfold padc. rewrite !keep_has by reflexivity. reflexivity.
    + rewrite D9. symmetry. now apply (dpos_other a (Insert c) b).
    + rewrite D11. unfold signsym. now rewrite keep_has.
    + rewrite D12. unfold currsym. now rewrite keep_has.
  - (* decimal point *)
    assert (EQ : exists c, c_decpoint m = c /\ (c = 44 \/ c = 46)).
    { exists (c_decpoint m). split; auto. destruct (dp_cases m CF) as [[-> B]|[-> B]]; auto. }
    destruct EQ as (c & EC & CC). rewrite EC.
    assert (EQ2 : ((c =? 48) = false /\ (c =? 47) = false /\ (c =? 66) = false /\ (c =? 80) = false /\
      (c =? 57) = false /\ (c =? 86) = false /\ (c =? 46) || (c =? 44) = true)) by (destruct CC as [-> | ->]; repeat split; reflexivity).
    destruct EQ2 as (-> & -> & -> & -> & -> & -> & ->). cbn [orb]. cbv iota. rewrite Z.eqb_refl.
    rewrite D1, D2.
    rewrite (put_here a Point b c E eq_refl ltac:(unfold raw; now rewrite EC)). cbn [obind]. eexists. split; [reflexivity|].
    constructor; fin E; auto.
    + now rewrite widthl_snoc.
    + rewrite places_snoc. cbn [place]. lia.
    + rewrite LZ0 by auto. exact D5.
    + unfold sigs. rewrite !keep_has by reflexivity. exact D6.
    + unfold sigs. rewrite !keep_has by reflexivity. exact D7.
    + rewrite D8. unfold padc. rewrite !keep_has by reflexivity. reflexivity.
    + rewrite dpos_snoc by (now apply (at_point a Point b)). cbn [is_point shown]. f_equal. lia.
    + rewrite D11. unfold signsym. now rewrite keep_has.
    + rewrite D12. unfold currsym. now rewrite keep_has.
  - (* V *)
    change (86 =? 48) with false. change (86 =? 47) with false. change (86 =? 66) with false.
    change (86 =? 80) with false. change (86 =? 57) with false. change (86 =? 86) with true. cbn [orb]. cbv iota.
    assert (WV : widthl (a ++ [Virtual]) = widthl a).
    { rewrite widthl_app. unfold widthl at 2. cbn [filter shown length]. lia. }
    eexists. split; [reflexivity|].
    constructor; fin E; auto.
    + now rewrite WV.
    + rewrite WV, D2, gcells_snoc. cbn [app raw]. now rewrite app_nil_r.
    + rewrite D3, places_snoc. cbn [place]. lia.
    + rewrite LZ0 by auto. exact D5.
    + unfold sigs. rewrite !keep_has by reflexivity. exact D6.
    + unfold sigs. rewrite !keep_has by reflexivity. exact D7.
    + rewrite D8. unfold padc. rewrite !keep_has by reflexivity. reflexivity.
    + rewrite dpos_snoc by (now apply (at_point a Virtual b)). cbn [is_point shown]. f_equal. lia.
    + rewrite D11. unfold signsym. now rewrite keep_has.
    + rewrite D12. unfold currsym. now rewrite keep_has.
Qed.

Lemma loop_spec : forall b a st rest, body = a ++ b -> St a b st ->
  exists st', edit_loop m src neg false st (map (sym_code m p) b ++ rest) = edit_loop m src neg false st' rest /\
    St body [] st'.
Proof.
  induction b as [|s b IH]; intros a st rest E H.
  - exists st. split; [reflexivity|]. rewrite app_nil_r in E. now rewrite E.
  - destruct (step_spec a s b st E H) as (st' & S1 & S2). cbn [map app edit_loop]. rewrite S1. cbn [obind].
    apply (IH (a ++ [s])); auto. now rewrite <- app_assoc.
Qed.
End Loop.
