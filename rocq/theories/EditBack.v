(** De-editing (proof file). *)
From Coq Require Import QArith Qabs.
From Verif Require Import Base BaseFacts Field Sign Decimal SpecNum Numeric SpecStore NumFacts SpecMove.
From Verif Require Import DispProofs DecProofs BinProofs PackedProofs StoreProofs MoveProofs Move Edited MoveAll.
From Verif Require Import MovePacked MoveBin MoveNum MoveText MoveMore SpecEdit EditProofs EditFinish EditMove.
Local Open Scope Z_scope.

Definition negc (c : Z) : bool := (c =? 45) || (c =? 67).

Lemma scan_app : forall m a b sc pt sg,
  deedit_scan m (a ++ b) sc pt sg =
  let '(da, sc1, p1, s1) := deedit_scan m a sc pt sg in
  let '(db, sc2, p2, s2) := deedit_scan m b sc1 p1 s1 in (da ++ db, sc2, p2, s2).
Proof.
  induction a as [|c a IH]; intros b sc pt sg.
  - cbn [app deedit_scan]. destruct (deedit_scan m b sc pt sg) as [[[? ?] ?] ?]. reflexivity.
  - cbn [app deedit_scan]. destruct (is_digitb c).
    + rewrite IH. destruct (deedit_scan m a _ pt sg) as [[[da sc1] p1] s1].
      destruct (deedit_scan m b sc1 p1 s1) as [[[? ?] ?] ?]. reflexivity.
    + destruct ((c =? 46) || (c =? 44)); [apply IH|]. destruct ((c =? 45) || (c =? 67)); apply IH.
Qed.

Lemma scan_plain : forall m l sc pt sg, Forall (fun c => c <> c_decpoint m) l ->
  deedit_scan m l sc pt sg =
  (filter is_digitb l, if pt then sc + Z.of_nat (length (filter is_digitb l)) else sc, pt,
   if existsb negc l then -1 else sg).
Proof.
  induction l as [|c l IH]; intros sc pt sg F.
  - cbn. destruct pt; rewrite ?Z.add_0_r; reflexivity.
  - apply Forall_cons_iff in F as [F1 F2]. cbn [deedit_scan filter existsb].
    destruct (is_digitb c) eqn:DC.
    + rewrite IH by auto.
      assert (NC : negc c = false).
      { unfold negc, is_digitb in *. destruct (Z.eqb_spec c 45) as [->|]; [discriminate DC|].
        destruct (Z.eqb_spec c 67) as [->|]; [discriminate DC|reflexivity]. }
      rewrite NC. cbn [orb]. destruct pt; cbn [length]; [|reflexivity]. do 3 f_equal. lia.
    + destruct ((c =? 46) || (c =? 44)) eqn:PC.
      * rewrite (proj2 (Z.eqb_neq _ _) F1), orb_false_r. rewrite IH by auto.
        assert (NC : negc c = false).
        { apply orb_true_iff in PC as [PC|PC]; apply Z.eqb_eq in PC; subst c; reflexivity. }
        now rewrite NC.
      * fold (negc c). destruct (negc c) eqn:NC; rewrite IH by auto; cbn [orb]; [|reflexivity].
        destruct (existsb negc l); reflexivity.
Qed.

Section Back.
Variables (m : cfg) (p : picture) (N : Z) (neg bz : bool).
Hypothesis CF : edit_cfg m.
Hypothesis ED : editable p.
Hypothesis RD : readable p.
Hypothesis HN : 0 <= N < 10 ^ places (p_body p).
Hypothesis FIT : has is_float (p_body p) = true -> N < 10 ^ (places (p_body p) - 1).

Let body := p_body p.
Let cl := cell m p N neg.

Lemma digit_at_char : forall b, digit_at N b = digit_char (dig N (places b)).
Proof.
  intros. unfold digit_at, digit_char, dig. rewrite (proj2 (Z.ltb_ge (places b) 0)) by apply places_nonneg. reflexivity.
Qed.
Lemma digit_at_isdigit : forall b, is_digitb (digit_at N b) = true.
Proof.
  clear. intros. rewrite digit_at_char. pose proof (dig_range N (places b)) as R. unfold is_digitb, digit_char, c_0.
  rewrite (proj2 (Z.leb_le 48 (48 + dig N (places b)))), (proj2 (Z.leb_le (48 + dig N (places b)) 57)) by lia. reflexivity.
Qed.

Definition plain (c : Z) : Prop := is_digitb c = false /\ c <> c_decpoint m /\ (negc c = true -> c = sign_or_currency m p neg /\ has is_float body = true).

Lemma plain_lit : forall c, is_digitb c = false -> c <> c_decpoint m -> negc c = false -> plain c.
Proof. intros c H1 H2 H3. split; auto. split; auto. congruence. Qed.

Lemma cur_not_digit : is_digitb (c_currency m) = false.
Proof.
  clear - CF. unfold is_digitb. destruct (Z.leb_spec 48 (c_currency m)); cbn [andb]; auto.
  destruct (Z.leb_spec (c_currency m) 57); auto. exfalso. apply (proj2 CF). cbn [In].
  assert (C : c_currency m = 48 \/ c_currency m = 49 \/ c_currency m = 50 \/ c_currency m = 51 \/ c_currency m = 52 \/
     c_currency m = 53 \/ c_currency m = 54 \/ c_currency m = 55 \/ c_currency m = 56 \/ c_currency m = 57) by lia.
  destruct C as [-> | [-> | [-> | [-> | [-> | [-> | [-> | [-> | [-> | ->]]]]]]]]]; tauto.
Qed.

Lemma plain_sym : has is_float body = true -> plain (sign_or_currency m p neg).
Proof.
  intros HF. split; [|split; auto].
  - unfold sign_or_currency. destruct (p_lead p), neg; try reflexivity; apply cur_not_digit.
  - unfold sign_or_currency. assert (CD : c_currency m <> c_decpoint m).
    { intros E. apply (proj2 CF). rewrite E. destruct (proj1 CF) as [-> | ->]; cbn [In]; tauto. }
    destruct (proj1 CF) as [E | E]; rewrite E in *; destruct (p_lead p), neg; auto; discriminate.
Qed.
Lemma plain_32 : plain 32.
Proof. apply plain_lit; try reflexivity. destruct (proj1 CF) as [-> | ->]; discriminate. Qed.
Lemma plain_fill : plain (fill p).
Proof. unfold fill. destruct (p_star p); apply plain_lit; try reflexivity; destruct (proj1 CF) as [-> | ->]; discriminate. Qed.
Lemma plain_sep : plain (separator m).
Proof. destruct (dp_cases m CF) as [[A B]|[A B]]; rewrite B; apply plain_lit; try reflexivity; rewrite A; discriminate. Qed.
Lemma plain_47 : plain 47.
Proof. apply plain_lit; try reflexivity. destruct (proj1 CF) as [-> | ->]; discriminate. Qed.

Lemma plain_gap : forall a s b, body = a ++ s :: b -> plain (gap m p N neg a s b).
Proof.
  intros a s b E. unfold gap. change (p_body p) with body.
  destruct (has is_supp body) eqn:HS.
  - destruct (is_float s) eqn:FS.
    + apply plain_sym. rewrite E, has_app. destruct s; try discriminate FS. unfold has at 2. cbn [existsb is_float]. apply orb_true_r.
    + destruct (has is_supp (a ++ [s])); auto using plain_fill, plain_32.
  - destruct (has is_float body) eqn:HF; [|apply plain_32].
    destruct (next_leading N a s b); auto using plain_32, plain_sym.
Qed.

(** Every cell is a digit, the point, or plain. *)
Lemma cell_kinds : forall a s b, body = a ++ s :: b ->
  (place s = true /\ leading N a s b = false /\ cl a s b = [digit_at N b]) \/
  (place s && negb (leading N a s b) = false /\ s <> Point /\ Forall plain (cl a s b)) \/
  (s = Point /\ cl a s b = [c_decpoint m]).
Proof.
  intros a s b E. unfold cl. pose proof (plain_gap a s b E) as PG.
  destruct s; cbn [cell place].
  - left. split; auto. split; auto. unfold leading. rewrite has_app, has_one. cbn [is_nine]. now rewrite orb_true_r.
  - destruct (leading N a Supp b) eqn:L; [right; left|left; auto]. split; [reflexivity|]. split; [discriminate|]. apply Forall_cons; [exact PG|constructor].
  - destruct (leading N a Float b) eqn:L; [right; left|left; auto]. split; [reflexivity|]. split; [discriminate|]. apply Forall_cons; [exact PG|constructor].
  - right. left. split; [reflexivity|]. split; [discriminate|]. apply Forall_cons; [|constructor].
    destruct (leading N a Comma b); auto using plain_sep.
  - right. left. split; [reflexivity|]. split; [discriminate|]. apply Forall_cons; [|constructor].
    destruct (leading N a Blank b); auto using plain_32.
  - right. left. split; [reflexivity|]. split; [discriminate|]. apply Forall_cons; [|constructor].
    assert (IN : In (Insert c) (p_body p)) by (change (p_body p) with body; rewrite E; apply in_or_app; right; left; reflexivity).
    destruct (ed_insert p ED c IN) as [-> | ->]; [destruct (rd_insert p RD IN)|apply plain_47].
  - right. right. auto.
  - right. left. split; [reflexivity|]. split; [discriminate|]. constructor.
Qed.

Lemma plain_filter : forall l, Forall plain l -> filter is_digitb l = [].
Proof. induction 1 as [|c l (H & _) _ IH]; auto. cbn [filter]. now rewrite H. Qed.

Lemma low_digits_cons : forall k v, 0 <= v -> low_digits (S k) v = dig v (Z.of_nat k) :: low_digits k v.
Proof.
  clear. induction k; intros v H.
  - cbn [low_digits app]. unfold dig. change (Z.of_nat 0 <? 0) with false. cbn [Z.of_nat]. change (10 ^ 0) with 1. now rewrite Z.div_1_r.
  - change (low_digits (S (S k)) v) with (low_digits (S k) (v / 10) ++ [v mod 10]).
    rewrite IHk by (apply Z.div_pos; lia). cbn [app]. f_equal.
    unfold dig. rewrite (proj2 (Z.ltb_ge (Z.of_nat k) 0)), (proj2 (Z.ltb_ge (Z.of_nat (S k)) 0)) by lia.
    rewrite Z.div_div by (try lia; apply Z.pow_pos_nonneg; lia). do 2 f_equal.
    rewrite Nat2Z.inj_succ, Z.pow_succ_r by lia. reflexivity.
Qed.

(** Outside the suppressed zone every place shows its digit. *)
Lemma shown_digits : forall l a, body = a ++ l ->
  (forall x s y, l = x ++ s :: y -> leading N (a ++ x) s y = false) ->
  filter is_digitb (gcells cl a l []) = map digit_char (low_digits (Z.to_nat (places l)) N).
Proof.
  induction l as [|s b IH]; intros a E H; [reflexivity|]. cbn [gcells]. rewrite app_nil_r, filter_app.
  assert (L : leading N a s b = false) by (specialize (H [] s b eq_refl); now rewrite app_nil_r in H).
  rewrite IH.
  2:{ now rewrite <- app_assoc. }
  2:{ intros x u y EX. specialize (H (s :: x) u y). rewrite EX in H. specialize (H eq_refl). now rewrite <- app_assoc. }
  rewrite places_cons. pose proof (places_nonneg b) as PB.
  destruct (cell_kinds a s b E) as [(P & _ & C)|[(P & NP & C)|(-> & C)]].
  - rewrite P, C. cbn [filter]. rewrite digit_at_isdigit. rewrite Z2Nat.inj_add by lia. change (Z.to_nat 1) with 1%nat.
    cbn [Nat.add]. rewrite low_digits_cons by lia. cbn [map app]. rewrite Z2Nat.id by lia. now rewrite digit_at_char.
  - rewrite (plain_filter _ C). rewrite L in P. cbn [negb] in P. rewrite andb_true_r in P. rewrite P. reflexivity.
  - rewrite C. cbn [filter place]. assert (ND : is_digitb (c_decpoint m) = false) by (destruct (proj1 CF) as [-> | ->]; reflexivity).
    rewrite ND. reflexivity.
Qed.

Lemma zone_digits : forall l a, body = a ++ l -> exists ds,
  filter is_digitb (gcells cl a l []) = map digit_char ds /\ Forall is_dig ds /\
  digits_value ds = N mod 10 ^ places l /\ Z.of_nat (length ds) <= places l.
Proof.
  intros l a E. destruct (zone_split N l a) as (P & Q & EPQ & HP & HQ).
  exists (low_digits (Z.to_nat (places Q)) N).
  pose proof (places_nonneg Q) as PQ. pose proof (places_nonneg P) as PP.
  split; [|split; [apply low_digits_dig|split]].
  - rewrite EPQ, gcells_app, app_nil_r, filter_app.
    rewrite (shown_digits Q (a ++ P)); auto. 2:{ rewrite E, EPQ. now rewrite app_assoc. }
    replace (filter is_digitb (gcells cl a P Q)) with (@nil Z); [reflexivity|]. symmetry. apply plain_filter.
    apply gcells_Forall. intros x s y EX. specialize (HP x s y EX).
    assert (EB : body = (a ++ x) ++ s :: y ++ Q) by (rewrite E, EPQ, EX, <- !app_assoc; reflexivity).
    destruct (cell_kinds (a ++ x) s (y ++ Q) EB) as [(_ & L & _)|[(_ & _ & C)|(-> & _)]]; [congruence|exact C|].
    unfold leading in HP. rewrite (has_app is_point), has_one in HP. cbn [is_point] in HP.
    rewrite orb_true_r, andb_false_r in HP. discriminate.
  - rewrite low_digits_value by lia. rewrite Z2Nat.id by lia. rewrite EPQ, places_app.
    assert (CP : P = [] \/ P <> []) by (destruct P; [left; reflexivity|right; discriminate]).
    destruct CP as [CP|CP]; [rewrite CP; change (places []) with 0; f_equal; f_equal; lia|].
    destruct (@exists_last _ P CP) as (P' & u & EU).
    specialize (HP P' u [] EU). cbn [app] in HP. unfold leading in HP. apply andb_true_iff in HP as [_ HP].
    apply Z.ltb_lt in HP. rewrite (Z.mod_small N (10 ^ places Q)) by lia. symmetry. apply Z.mod_small.
    split; [lia|]. apply (Z.lt_le_trans _ _ _ HP). apply Z.pow_le_mono_r; lia.
  - rewrite low_digits_length, Z2Nat.id by lia. rewrite EPQ, places_app. lia.
Qed.

(** ** The sign *)
Lemma neg_cells : existsb negc (cells m p N neg [] body) =
  neg && has is_float body && match p_lead p with LCurr => false | _ => true end.
Proof.
  assert (SY : negc (sign_or_currency m p neg) = neg && match p_lead p with LCurr => false | _ => true end).
  { unfold sign_or_currency. destruct (p_lead p), neg; try reflexivity; unfold negc;
    rewrite (cur_ne m CF 45), (cur_ne m CF 67) by (cbn [In]; tauto); reflexivity. }
  assert (AL : Forall (fun c => negc c = true -> c = sign_or_currency m p neg /\ has is_float body = true) (cells m p N neg [] body)).
  { rewrite cells_gcells. apply gcells_Forall. intros x s y E. cbn [app]. rewrite app_nil_r.
    destruct (cell_kinds x s y E) as [(_ & _ & C)|[(_ & _ & C)|(-> & C)]]; unfold cl in C.
    - rewrite C. constructor; [|constructor]. intros H. exfalso. pose proof (digit_at_isdigit y) as DI.
      unfold negc in H. apply orb_true_iff in H as [H|H]; apply Z.eqb_eq in H; rewrite H in DI; discriminate.
    - eapply Forall_impl; [|exact C]. intros c (_ & _ & H). exact H.
    - rewrite C. constructor; [|constructor]. intros H. exfalso. destruct (proj1 CF) as [E2|E2]; rewrite E2 in H; discriminate. }
  destruct (has is_float body) eqn:HF.
  - rewrite andb_true_r, <- SY. destruct (negc (sign_or_currency m p neg)) eqn:NS.
    + apply existsb_exists. eexists. split; [|exact NS].
      refine (sym_shown m p N neg (repeat 0 (pic_size p)) 0 CF ED HN FIT _ HF). apply repeat_length.
    + destruct (existsb negc _) eqn:EX; auto. apply existsb_exists in EX as (c & IN & NC).
      rewrite Forall_forall in AL. destruct (AL c IN NC) as (-> & _). congruence.
  - rewrite andb_false_r. cbn [andb]. destruct (existsb negc _) eqn:EX; auto.
    apply existsb_exists in EX as (c & IN & NC). rewrite Forall_forall in AL. destruct (AL c IN NC). discriminate.
Qed.

Lemma trail_plain : Forall (fun c => c <> c_decpoint m) (trail_text p neg) /\ filter is_digitb (trail_text p neg) = [] /\
  existsb negc (trail_text p neg) = neg && match p_trail p with TPlus | TMinus | TCR => true | _ => false end.
Proof.
  split; [|split].
  - apply trail_nodp; auto.
  - unfold trail_text. destruct (p_trail p), neg; reflexivity.
  - unfold trail_text. destruct (p_trail p), neg; reflexivity.
Qed.

Lemma existsb_app_Z : forall (f : Z -> bool) a b, existsb f (a ++ b) = existsb f a || existsb f b.
Proof. intros. apply existsb_app. Qed.

Lemma nodp_plain : forall l, Forall plain l -> Forall (fun c => c <> c_decpoint m) l.
Proof. intros l H. eapply Forall_impl; [|exact H]. intros c (_ & K & _). exact K. Qed.

Lemma nodp_cells : forall l a t, body = a ++ l ++ t -> ~ In Point l ->
  Forall (fun c => c <> c_decpoint m) (gcells cl a l t).
Proof.
  intros l a t E NP. apply gcells_Forall. intros x s y EX.
  assert (EB : body = (a ++ x) ++ s :: y ++ t) by (rewrite E, EX, <- !app_assoc; reflexivity).
  destruct (cell_kinds _ _ _ EB) as [(_ & _ & C)|[(_ & _ & C)|(-> & C)]].
  - rewrite C. constructor; [|constructor]. pose proof (digit_at_isdigit (y ++ t)) as DI. intros H. rewrite H in DI.
    destruct (proj1 CF) as [E2|E2]; rewrite E2 in DI; discriminate.
  - now apply nodp_plain.
  - exfalso. apply NP. rewrite EX. apply in_or_app. right. left. reflexivity.
Qed.

(** ** The scan of the text *)
Definition sgn_back : Z := if neg && carries_sign p then -1 else 0.

Lemma scan_text : exists ds sc,
  deedit_scan m (cells m p N neg [] body ++ trail_text p neg) 0 false 0 =
    (map digit_char ds, sc, existsb (fun s => match s with Point => true | _ => false end) body, sgn_back) /\
  Forall is_dig ds /\ digits_value ds = N /\ Z.of_nat (length ds) <= places body /\
  sc = if existsb (fun s => match s with Point => true | _ => false end) body then decimals body else 0.
Proof.
  destruct trail_plain as (TP1 & TP2 & TP3).
  destruct (zone_digits body [] eq_refl) as (ds & Z1 & Z2 & Z3 & Z4).
  assert (ZN : digits_value ds = N) by (rewrite Z3; apply Z.mod_small; exact HN). clear Z3.
  assert (SG : (if existsb negc (trail_text p neg) then -1 else if existsb negc (cells m p N neg [] body) then -1 else 0) = sgn_back).
  { rewrite TP3, neg_cells. unfold sgn_back, carries_sign. change (p_body p) with body.
    destruct neg, (has is_float body), (p_lead p), (p_trail p); reflexivity. }
  assert (CG : cells m p N neg [] body = gcells cl [] body []) by apply cells_gcells.
  rewrite <- CG in Z1.
  exists ds.
  destruct (existsb (fun s => match s with Point => true | _ => false end) body) eqn:HP.
  - apply existsb_exists in HP as (s & IN & PS). destruct s; try discriminate PS.
    apply in_split in IN as (a & b & E).
    assert (NP : has is_point a = false) by (now apply (at_point p ED a Point b)).
    assert (NPa : ~ In Point a).
    { intros IN. unfold has in NP. assert (X : existsb is_point a = true) by (apply existsb_exists; exists Point; auto). congruence. }
    assert (PLb : forallb place b = true) by (now apply (ed_point p ED a Point b)).
    assert (NPb : ~ In Point b).
    { intros IN. rewrite forallb_forall in PLb. specialize (PLb _ IN). discriminate. }
    assert (DEC : decimals body = places b).
    { rewrite E, decimals_app by auto. reflexivity. }
    assert (CE : cells m p N neg [] body = gcells cl [] a (Point :: b) ++ [c_decpoint m] ++ gcells cl (a ++ [Point]) b []).
    { rewrite cells_gcells, E, gcells_app. cbn [gcells app]. rewrite !app_nil_r. reflexivity. }
    assert (LB : filter is_digitb (gcells cl (a ++ [Point]) b []) = map digit_char (low_digits (Z.to_nat (places b)) N)).
    { apply shown_digits.
      - now rewrite <- app_assoc.
      - intros x s y EX. apply leading_after. rewrite !has_app, has_one. cbn [is_point]. rewrite orb_true_r. reflexivity. }
    exists (decimals body). split; [|auto].
    rewrite CE. rewrite <- !app_assoc.
    assert (FA : Forall (fun c => c <> c_decpoint m) (gcells cl [] a (Point :: b))) by (now apply nodp_cells).
    assert (FB : Forall (fun c => c <> c_decpoint m) (gcells cl (a ++ [Point]) b [])).
    { apply nodp_cells; auto. rewrite app_nil_r, <- app_assoc. exact E. }
    rewrite scan_app, scan_plain by auto. rewrite scan_app.
    assert (SDP : forall sg, deedit_scan m [c_decpoint m] 0 false sg = ([], 0, true, sg)).
    { intros sg. cbn [deedit_scan]. rewrite Z.eqb_refl. destruct (proj1 CF) as [E2|E2]; rewrite E2; reflexivity. }
    rewrite SDP. rewrite scan_app, scan_plain by auto. rewrite scan_plain by auto. rewrite TP2. cbn [length]. rewrite Z.add_0_r.
    assert (FC : map digit_char ds = filter is_digitb (gcells cl [] a (Point :: b)) ++ filter is_digitb (gcells cl (a ++ [Point]) b [])).
    { rewrite <- Z1, CE, !filter_app. cbn [filter].
      assert (ND : is_digitb (c_decpoint m) = false) by (destruct (proj1 CF) as [-> | ->]; reflexivity).
      rewrite ND. reflexivity. }
    assert (LEN : Z.of_nat (length (filter is_digitb (gcells cl (a ++ [Point]) b []))) = places b).
    { rewrite LB, map_length, low_digits_length. apply Z2Nat.id, places_nonneg. }
    rewrite LEN, DEC. rewrite FC, app_nil_r.
    rewrite <- SG, CE, !existsb_app_Z. cbn [existsb app].
    assert (ND : negc (c_decpoint m) = false) by (destruct (proj1 CF) as [-> | ->]; reflexivity).
    rewrite ND. cbn [orb].
    destruct (existsb negc (gcells cl [] a (Point :: b))), (existsb negc (gcells cl (a ++ [Point]) b [])), (existsb negc (trail_text p neg)); reflexivity.
  - assert (NP : ~ In Point body).
    { intros IN. assert (X : existsb (fun s => match s with Point => true | _ => false end) body = true) by (apply existsb_exists; exists Point; auto). congruence. }
    exists 0. split; [|auto].
    assert (FB : Forall (fun c => c <> c_decpoint m) (gcells cl [] body [])).
    { apply nodp_cells; auto. now rewrite app_nil_r. }
    rewrite CG in *. rewrite scan_app, !scan_plain by auto. rewrite TP2, Z1, app_nil_r. rewrite <- SG. reflexivity.
Qed.

(** ** Scale from the picture *)
Fixpoint scale_chars (l : list Z) (scale count : Z) (point : bool) : Z :=
  match l with
  | [] => scale
  | c :: r =>
    if (c =? 57) || (c =? 48) || (c =? 90) || (c =? 42) then
      if point then scale_chars r (scale + 1) count point
      else scale_chars r scale (count + 1) point
    else if c =? 86 then scale_chars r scale count true
    else scale_chars r scale count point
  end.

Lemma scale_run : forall c n r scale count point, c <> 80 ->
  scale_chars (repeat c (S n) ++ r) scale count point =
  (if (c =? 57) || (c =? 48) || (c =? 90) || (c =? 42) then
      if point then scale_chars r (scale + Z.of_nat (S n)) count point
      else scale_chars r scale (count + Z.of_nat (S n)) point
    else if c =? 86 then scale_chars r scale count true
    else scale_chars r scale count point).
Proof.
  clear. intros c n r. induction n; intros scale count point NP.
  - cbn [repeat app scale_chars]. reflexivity.
  - change (repeat c (S (S n)) ++ r) with (c :: repeat c (S n) ++ r). cbn [scale_chars].
    assert (CE : forall k, k + 1 + Z.of_nat (S n) = k + Z.of_nat (S (S n))) by (intros; lia).
    destruct ((c =? 57) || (c =? 48) || (c =? 90) || (c =? 42)) eqn:E1.
    { destruct point; rewrite IHn by auto; now rewrite ?E1, CE. }
    destruct (c =? 86) eqn:E2; rewrite IHn by auto; now rewrite ?E1, ?E2.
Qed.

Lemma deedit_scale_chars : forall pic scale count point,
  Forall (fun cn => 1 <= snd cn) pic -> ~ In 80 (expand_pic pic) ->
  deedit_scale pic scale count point = scale_chars (expand_pic pic) scale count point.
Proof.
  clear. induction pic as [|[c rep] r IH]; intros scale count point F NP; [reflexivity|].
  apply Forall_cons_iff in F as [F1 F2]. cbn [snd] in F1.
  unfold expand_pic in *. cbn [flat_map fst snd] in *. fold (expand_pic r) in *.
  destruct (Z.to_nat rep) as [|n] eqn:EN; [lia|].
  assert (N80 : c <> 80) by (intros ->; apply NP; apply in_or_app; left; left; reflexivity).
  assert (NR : ~ In 80 (expand_pic r)) by (intros IN; apply NP; apply in_or_app; auto).
  rewrite scale_run by auto.
  assert (RN : Z.of_nat (S n) = rep) by lia. rewrite RN. cbn [deedit_scale].
  rewrite (proj2 (Z.eqb_neq _ _) N80). rewrite !IH by auto. reflexivity.
Qed.

Lemma scale_trail : forall scale count point, scale_chars (trail_code (p_trail p)) scale count point = scale.
Proof. intros. destruct (p_trail p); reflexivity. Qed.

Lemma code_class : forall s, In s body ->
  let c := sym_code m p s in
  ((c =? 57) || (c =? 48) || (c =? 90) || (c =? 42) = (is_nine s || is_supp s)) /\
  (c =? 86) = (match s with Virtual => true | _ => false end) /\ c <> 80.
Proof.
  intros s IN. destruct s; cbn [sym_code is_nine is_supp orb].
  - repeat split; discriminate.
  - destruct (p_star p); repeat split; discriminate.
  - destruct (p_lead p); cbn [lead_code]; try (repeat split; discriminate).
    rewrite (cur_ne m CF 57), (cur_ne m CF 48), (cur_ne m CF 90), (cur_ne m CF 42), (cur_ne m CF 86) by (cbn [In]; tauto).
    repeat split. apply Z.eqb_neq. apply cur_ne; auto. cbn [In]; tauto.
  - destruct (dp_cases m CF) as [[_ ->]|[_ ->]]; repeat split; discriminate.
  - repeat split; discriminate.
  - destruct (ed_insert p ED c IN) as [-> | ->]; [destruct (rd_insert p RD IN)|]. repeat split; discriminate.
  - destruct (dp_cases m CF) as [[-> _]|[-> _]]; repeat split; discriminate.
  - repeat split; discriminate.
Qed.

Lemma scale_after : forall b scale count, (forall s, In s b -> In s body) ->
  forallb place b = true -> has is_float b = false ->
  scale_chars (map (sym_code m p) b ++ trail_code (p_trail p)) scale count true = scale + places b.
Proof.
  induction b as [|s b IH]; intros scale count IN PL NF.
  - cbn [map app]. rewrite scale_trail. change (places []) with 0. lia.
  - cbn [forallb] in PL. apply andb_true_iff in PL as [PS PL].
    unfold has in NF. cbn [existsb] in NF. apply orb_false_iff in NF as [NS NF].
    destruct (code_class s (IN s (or_introl eq_refl))) as (C1 & C2 & C3).
    cbn [map app scale_chars]. rewrite C1.
    assert (D : is_nine s || is_supp s = true) by (destruct s; try discriminate; reflexivity).
    rewrite D. rewrite IH; auto. 2:{ intros u HU. apply IN. now right. }
    rewrite places_cons, PS. lia.
Qed.

Lemma scale_before : forall b a count, body = a ++ b -> has is_point a = false -> ~ In Point body ->
  scale_chars (map (sym_code m p) b ++ trail_code (p_trail p)) 0 count false = decimals body.
Proof.
  induction b as [|s b IH]; intros a count E NP NPT.
  - cbn [map app]. rewrite scale_trail. rewrite app_nil_r in E. rewrite E, <- (app_nil_r a), decimals_app by auto. reflexivity.
  - assert (E2 : body = (a ++ [s]) ++ b) by (rewrite <- app_assoc; exact E).
    assert (IN : In s body) by (rewrite E; apply in_or_app; right; left; reflexivity).
    destruct (code_class s IN) as (C1 & C2 & C3).
    cbn [map app scale_chars]. rewrite C1, C2.
    destruct (is_point s) eqn:PS.
    + destruct s; try discriminate PS; [contradiction|]. cbn [is_nine is_supp orb].
      assert (DEC : decimals body = places b).
      { rewrite E, decimals_app by auto. reflexivity. }
      rewrite scale_after; [lia| | |].
      * intros u HU. rewrite E. apply in_or_app. right. right. exact HU.
      * now apply (ed_point p ED a Virtual b).
      * now apply (rd_virtual p RD a b).
    + assert (NX : has is_point (a ++ [s]) = false) by (now rewrite keep_has).
      destruct (is_nine s || is_supp s); [now apply (IH (a ++ [s]))|].
      destruct s; try discriminate PS; exact (IH _ count E2 NX NPT).
Qed.

Lemma no_P : ~ In 80 (pic_string m p).
Proof.
  unfold pic_string. intros IN. apply in_app_or in IN as [IN|IN].
  - apply in_map_iff in IN as (s & E & IN). destruct (code_class s IN) as (_ & _ & C). congruence.
  - destruct (p_trail p); cbn [trail_code In] in IN; intuition discriminate.
Qed.

(** ** The whole *)
Lemma deedit_spec : exists ds sc pt sg,
  deedit_scan m (edited_text m p N neg bz) 0 false 0 = (map digit_char ds, sc, pt, sg) /\
  Forall is_dig ds /\ Z.of_nat (length ds) <= places body /\
  signed_value (sg <? 0) ds = (if neg && carries_sign p then - N else N) /\
  (forall pic, expand_pic pic = pic_string m p -> Forall (fun cn => 1 <= snd cn) pic ->
     N = 0 \/ (if sc =? 0 then deedit_scale pic 0 0 pt else sc) = decimals body) /\
  (sg = 0 \/ sg = -1).
Proof.
  unfold edited_text. destruct (blanked p N bz) eqn:BL.
  - assert (N0 : N = 0) by (unfold blanked in BL; apply andb_true_iff in BL as [BL _]; now apply Z.eqb_eq).
    assert (EX : exists sc pt, deedit_scan m (blank_text m p bz) 0 false 0 = ([], sc, pt, 0)).
    { assert (AL : Forall (fun c => c = 32 \/ c = 42 \/ c = c_decpoint m) (blank_text m p bz)).
      { unfold blank_text. destruct (bz || negb (has is_supp (p_body p)) || negb (p_star p)).
        - apply Forall_forall. intros x IN. apply repeat_spec in IN. auto.
        - apply Forall_app. split.
          + apply Forall_forall. intros x IN. apply in_flat_map in IN as (s & _ & IN). destruct s; cbn [In] in IN; intuition auto.
          + apply Forall_forall. intros x IN. apply repeat_spec in IN. auto. }
      assert (G : forall l sc pt, Forall (fun c => c = 32 \/ c = 42 \/ c = c_decpoint m) l ->
         exists sc' pt', deedit_scan m l sc pt 0 = ([], sc', pt', 0)).
      { clear - CF. intros l. induction l as [|c l IH]; intros sc pt F; [cbn; eauto|].
        apply Forall_cons_iff in F as [F1 F2]. cbn [deedit_scan].
        destruct F1 as [-> | [-> | ->]]; [apply IH; auto|apply IH; auto|].
        replace (is_digitb (c_decpoint m)) with false by (destruct (proj1 CF) as [-> | ->]; reflexivity).
        replace ((c_decpoint m =? 46) || (c_decpoint m =? 44)) with true by (destruct (proj1 CF) as [-> | ->]; reflexivity).
        apply IH; auto. }
      apply G. exact AL. }
    destruct EX as (sc & pt & EX). exists [], sc, pt, 0. split; [exact EX|]. split; [constructor|].
    split; [apply places_nonneg|]. split; [|split; auto].
    rewrite N0. unfold signed_value. destruct (neg && carries_sign p); reflexivity.
  - destruct scan_text as (ds & sc & S1 & S2 & S3 & S4 & S5).
    exists ds, sc, (existsb (fun s => match s with Point => true | _ => false end) body), sgn_back.
    split; [exact S1|]. split; auto. split; auto. split; [|split].
    + unfold sgn_back, signed_value. rewrite S3. destruct (neg && carries_sign p); reflexivity.
    + intros pic EP FP. right. rewrite S5.
      destruct (existsb (fun s => match s with Point => true | _ => false end) body) eqn:HP.
      * apply existsb_exists in HP as (s & IN & PS). destruct s; try discriminate PS.
        pose proof (rd_point p RD IN) as D1. change (p_body p) with body in D1.
        rewrite (proj2 (Z.eqb_neq (decimals body) 0)) by lia. reflexivity.
      * change (0 =? 0) with true. cbv iota.
        rewrite deedit_scale_chars by (auto; rewrite EP; apply no_P). rewrite EP. unfold pic_string.
        apply (scale_before body [] 0 eq_refl eq_refl).
        intros IN. assert (X : existsb (fun s => match s with Point => true | _ => false end) body = true) by (apply existsb_exists; exists Point; auto). congruence.
    + unfold sgn_back. destruct (neg && carries_sign p); auto.
Qed.
End Back.

Theorem edited_to_display_spec : forall m p f f2 N neg k,
  edit_cfg m -> editable p -> readable p -> edited_item m p f ->
  0 <= N < 10 ^ places (p_body p) ->
  (has is_float (p_body p) = true -> N < 10 ^ (places (p_body p) - 1)) ->
  fd f = edited_text m p N neg (a_bzero (fa f)) -> wf_display f2 k ->
  exists f2', edited_to_display m f f2 = Ok (f, f2') /\
    denotes (c_ebcdic m) f2' (held f2 (low_part k
      (aligns (if neg && carries_sign p then - N else N) (decimals (p_body p)) (a_scale (fa f2))))) /\
    fa f2' = fa f2 /\ f_size f2' = f_size f2.
Proof.
  intros m p f f2 N neg k CF ED RD (T2 & SZ & _ & PE & PR) HN FIT FD W.
  destruct (deedit_spec m p N neg (a_bzero (fa f)) CF ED RD HN FIT) as (ds & sc & pt & sg & S1 & S2 & S3 & S4 & S5 & S6).
  unfold edited_to_display. rewrite FD, S1.
  pose proof (rd_places p RD) as RP.
  destruct (Nat.ltb_spec 64 (length (map digit_char ds))) as [H|H]; [rewrite map_length in H; lia|].
  cbv zeta. eexists. split; [reflexivity|].
  set (scale := if sc =? 0 then deedit_scale (a_pic (fa f)) 0 0 pt else sc).
  destruct (store_region_denotes m f2 k ds scale (signed_value (sg <? 0) ds) sg (sg <? 0) W S2 eq_refl (fun _ => eq_refl)) as (_ & X1 & X2 & X3).
  split; [|auto]. rewrite S4 in X1.
  destruct (S5 (a_pic (fa f)) PE PR) as [N0|SC].
  - rewrite N0 in *. assert (Z0 : (if neg && carries_sign p then - 0 else 0) = 0) by (destruct (neg && carries_sign p); reflexivity).
    rewrite Z0 in *. assert (A0 : forall a b, aligns 0 a b = 0) by reflexivity. rewrite A0 in *. exact X1.
  - fold scale in SC. rewrite <- SC. exact X1.
Qed.
