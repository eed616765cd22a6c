(** Numeric editing: after the loop (proof file). *)
From Coq Require Import QArith Qabs.
From Verif Require Import Base BaseFacts Field Sign Decimal SpecNum Numeric SpecStore NumFacts.
From Verif Require Import DispProofs DecProofs MoveProofs Move Edited SpecEdit EditProofs.
Local Open Scope Z_scope.

Section Finish.
Variables (m : cfg) (p : picture) (N : Z) (neg bz : bool) (src old : list Z) (base : Z).
Hypothesis CF : edit_cfg m.
Hypothesis ED : editable p.
Hypothesis HN : 0 <= N < 10 ^ places (p_body p).
Hypothesis FIT : has is_float (p_body p) = true -> N < 10 ^ (places (p_body p) - 1).
Hypothesis OLD : length old = pic_size p.

Let body := p_body p.
Let dg := digit_at N.
Let raws := raw m p N.
Let R := gcells raws [] body [].

Record Fin (s : est) : Prop := mkFin {
  fi_data : e_data s = R ++ trail_text p neg;
  fi_end : e_end s = Z.of_nat (length R);
  fi_blank : e_supp s || (e_zero s && bz) = blanked p N bz;
  fi_pad : e_pad s = padc p body;
  fi_dp : e_dp s = dpos 0 body;
  fi_ss : e_ssym s = signsym p neg body;
  fi_cs : e_csym s = currsym m p body }.

Lemma R_len : length R = widthl body.
Proof. apply gcells_length. apply raw_width. Qed.

Lemma old_tail : length (skipn (widthl body) old) = trail_size (p_trail p).
Proof. rewrite skipn_length, OLD. unfold pic_size. fold (widthl (p_body p)). change (p_body p) with body. lia. Qed.

Lemma trail_spec : forall st, St m p N neg old base body [] st ->
  (p_trail p = TPlus \/ p_trail p = TMinus -> blanked p N bz = true ->
     fetch_src src (base + places body) = 48) ->
  exists st', edit_loop m src neg false st (trail_code (p_trail p)) = Ok st' /\ Fin st'.
Proof.
  intros st [D1 D2 D3 D4 D5 D6 D7 D8 D9 D10 D11 D12] HZ.
  pose proof old_tail as OT. pose proof R_len as RL.
  assert (LO : length old = (length R + trail_size (p_trail p))%nat).
  { rewrite RL, OLD. reflexivity. }
  assert (BL : e_supp st || (e_zero st && bz) = blanked p N bz).
  { rewrite D4, D5. unfold lz, blanked. change (places []) with 0. change (10 ^ 0) with 1.
    replace (N <? 1) with (N =? 0) by (destruct (Z.eqb_spec N 0), (Z.ltb_spec N 1); auto; lia).
    change (p_body p) with body. destruct (has is_nine body), (N =? 0), bz; reflexivity. }
  change (gcells (raw m p N) [] body []) with R in D2.
  assert (TT : forall x, (p_trail p = TPlus /\ x = 43 \/ p_trail p = TMinus /\ x = 45) ->
    exists st', edit_loop m src neg false st [x] = Ok st' /\ Fin st').
  { intros x HX. assert (TS : p_trail p = TPlus \/ p_trail p = TMinus) by tauto.
    assert (SZ : trail_size (p_trail p) = 1%nat) by (destruct TS as [-> | ->]; reflexivity).
    destruct (ed_trail p ED TS) as (SG & _). rewrite SZ in OT.
    destruct (skipn (widthl body) old) as [|c [|]] eqn:SK; cbn [length] in OT; try discriminate.
    cbn [edit_loop]. unfold edit_step. cbv zeta.
    assert (TE : e_tsign st = true) by (rewrite D6; exact SG).
    assert (EQ : ((x =? 48) = false /\ (x =? 47) = false /\ (x =? 66) = false /\ (x =? 80) = false /\
      (x =? 57) = false /\ (x =? 86) = false /\ (x =? 46) = false /\ (x =? 44) = false /\ (x =? 67) = false /\
      (x =? 68) = false /\ (x =? 90) = false /\ (x =? 42) = false /\ (x =? 43) || (x =? 45) = true)).
    { destruct HX as [[_ ->]|[_ ->]]; repeat split; reflexivity. }
    destruct EQ as (-> & -> & -> & -> & -> & -> & -> & -> & -> & -> & -> & -> & EQ). cbn [orb]. rewrite EQ. cbv iota.
    rewrite TE, D1, D2. rewrite <- RL. rewrite put_at_app. cbn [obind].
    eexists. split; [reflexivity|]. constructor;
    cbn [e_dst e_data e_src e_zero e_supp e_tsign e_tcurr e_pad e_dp e_end e_ssym e_csym]; auto.
    - f_equal. unfold trail_text. destruct HX as [[-> ->]|[-> ->]]; destruct neg; reflexivity.
    - rewrite D10, LO, SZ. lia.
    - rewrite <- BL. rewrite D3. destruct (e_supp st || e_zero st && bz) eqn:EB.
      + rewrite HZ; [|auto|congruence]. change (48 =? 48) with true. now rewrite !andb_true_r.
      + apply orb_false_iff in EB as [-> EB]. cbn [andb orb].
        destruct (e_zero st); cbn [andb] in *; auto. rewrite EB. apply andb_false_r. }
  assert (TC : forall x, (p_trail p = TCR /\ x = 67 \/ p_trail p = TDB /\ x = 68) ->
    exists st', edit_loop m src neg false st [x] = Ok st' /\ Fin st').
  { intros x HX. assert (SZ : trail_size (p_trail p) = 2%nat) by (destruct HX as [[-> _]|[-> _]]; reflexivity).
    rewrite SZ in OT.
    destruct (skipn (widthl body) old) as [|c [|c2 [|]]] eqn:SK; cbn [length] in OT; try discriminate.
    cbn [edit_loop]. unfold edit_step. cbv zeta.
    assert (EQ : ((x =? 48) = false /\ (x =? 47) = false /\ (x =? 66) = false /\ (x =? 80) = false /\
      (x =? 57) = false /\ (x =? 86) = false /\ (x =? 46) = false /\ (x =? 44) = false /\
      (x =? 67) || (x =? 68) = true)).
    { destruct HX as [[_ ->]|[_ ->]]; repeat split; reflexivity. }
    destruct EQ as (-> & -> & -> & -> & -> & -> & -> & -> & ->). cbn [orb]. cbv iota.
    destruct (if neg then if x =? 67 then (67, 82) else (68, 66) else (32, 32)) as [y z] eqn:YZ.
    rewrite D1, D2. rewrite <- RL. rewrite put_at_app. cbn [obind].
    replace (R ++ [y; c2]) with ((R ++ [y]) ++ [c2]) by now rewrite <- app_assoc.
    replace (Z.of_nat (length R) + 1) with (Z.of_nat (length (R ++ [y]))) by (rewrite app_length; cbn [length]; lia).
    rewrite put_at_app. cbn [obind].
    eexists. split; [reflexivity|]. constructor;
    cbn [e_dst e_data e_src e_zero e_supp e_tsign e_tcurr e_pad e_dp e_end e_ssym e_csym]; auto.
    - rewrite <- app_assoc. f_equal. unfold trail_text. destruct HX as [[-> ->]|[-> ->]]; destruct neg; cbn in YZ; injection YZ as <- <-; reflexivity. }
  destruct (p_trail p) eqn:TR; cbn [trail_code].
  - exists st. split; [reflexivity|]. cbn [trail_size] in OT. constructor; auto.
    + rewrite D2. f_equal. unfold trail_text. rewrite TR. now apply length_zero_iff_nil.
    + rewrite D10, LO. cbn [trail_size]. lia.
  - apply TT. auto.
  - apply TT. auto.
  - apply TC. auto.
  - apply TC. auto.
Qed.

(** ** Blanked *)
Lemma trail_nodp : Forall (fun c => c <> c_decpoint m) (trail_text p neg).
Proof.
  unfold trail_text. destruct CF as [[-> | ->] _]; destruct (p_trail p); auto;
  destruct neg; repeat constructor; discriminate.
Qed.

Lemma digit_range : forall b, 48 <= dg b <= 57.
Proof.
  intros. unfold dg, digit_at. pose proof (Z.mod_pos_bound (N / 10 ^ places b) 10 ltac:(lia)). lia.
Qed.
Lemma digit_nodp : forall b, dg b <> c_decpoint m.
Proof. intros b. pose proof (digit_range b). destruct CF as [[-> | ->] _]; lia. Qed.

Lemma fin_blank : forall st, Fin st -> blanked p N bz = true ->
  edit_finish m bz st = Ok (blank_text m p bz).
Proof.
  intros st [D1 D2 D3 D4 D5 D6 D7] B. unfold edit_finish. cbv zeta. rewrite D3, B, D1, D4.
  assert (LEN : length (R ++ trail_text p neg) = pic_size p).
  { rewrite app_length, R_len. unfold pic_size, widthl. f_equal. unfold trail_text. destruct (p_trail p), neg; reflexivity. }
  rewrite LEN. unfold blank_text, padc, fill. change (p_body p) with body.
  destruct bz; [rewrite orb_true_r; reflexivity|]. rewrite orb_false_r. cbn [orb].
  destruct (has is_supp body); [|reflexivity]. cbn [negb orb].
  destruct (p_star p); [|reflexivity]. cbn [negb]. change (42 =? 32) with false. cbv iota.
  f_equal. rewrite map_app. f_equal.
  - unfold R. rewrite (gcells_map _ _ (fun _ s _ => match s with Virtual => [] | Point => [c_decpoint m] | _ => [42] end)).
    + generalize (@nil sym) at 1. clear. induction body as [|s b IH]; intros a; cbn [gcells flat_map]; auto. now rewrite IH.
    + intros x s y E. cbn [app]. rewrite app_nil_r.
      assert (DP : forall c, c <> c_decpoint m -> (if c =? c_decpoint m then c else 42) = 42).
      { intros c H. now rewrite (proj2 (Z.eqb_neq _ _) H). }
      assert (N32 : 32 <> c_decpoint m) by (destruct CF as [[-> | ->] _]; discriminate).
      assert (N42 : fill p <> c_decpoint m) by (unfold fill; destruct CF as [[-> | ->] _]; destruct (p_star p); discriminate).
      assert (NP : padc p x <> c_decpoint m) by (unfold padc; destruct (has is_supp x); auto).
      destruct s; cbn [raws raw map]; try reflexivity.
      * rewrite DP; auto. apply digit_nodp.
      * rewrite DP; auto. destruct (lz N x y); auto. apply digit_nodp.
      * rewrite DP; auto. destruct (lz N x y); auto. apply digit_nodp.
      * rewrite DP; auto. destruct (lz N x y); auto.
        destruct (dp_cases m CF) as [[-> ->]|[-> ->]]; discriminate.
      * rewrite DP; auto. destruct (lz N x y); auto. destruct CF as [[-> | ->] _]; discriminate.
      * rewrite DP; auto. assert (IC : c = 48 \/ c = 47).
        { apply (ed_insert p ED). change (p_body p) with body. rewrite E. apply in_or_app. right. left. reflexivity. }
        destruct IC as [-> | ->]; destruct CF as [[-> | ->] _]; discriminate.
      * now rewrite Z.eqb_refl.
  - assert (TS : length (trail_text p neg) = trail_size (p_trail p)).
    { unfold trail_text. destruct (p_trail p), neg; reflexivity. }
    rewrite <- TS. pose proof trail_nodp as F. clear TS LEN D1. induction (trail_text p neg) as [|c l IH]; auto.
    apply Forall_cons_iff in F as [F1 F2]. cbn [map length repeat]. rewrite IH by auto.
    now rewrite (proj2 (Z.eqb_neq _ _) F1).
Qed.

(** ** Not blanked *)

(** With the zeros after the decimal point. *)
Definition raw2 (a : list sym) (s : sym) (b : list sym) : list Z :=
  match s with
  | Digit => [dg b]
  | Supp => [if leading N a s b then fill p else dg b]
  | Float => [if leading N a s b then 32 else dg b]
  | Comma => [if leading N a s b then padc p a else separator m]
  | Blank => [if leading N a s b then padc p a else 66]
  | Insert c => [c]
  | Point => [c_decpoint m]
  | Virtual => []
  end.

Lemma raw2_width : forall a s b, length (raw2 a s b) = width s.
Proof. intros a s b; destruct s; reflexivity. Qed.

Lemma leading_lz : forall a s b, has is_point (a ++ [s]) = false -> is_nine s = false ->
  leading N a s b = lz N a b.
Proof. intros a s b H H'. unfold leading, lz. rewrite H, keep_has by auto. cbn [negb]. now rewrite andb_true_r. Qed.

Lemma leading_after : forall a s b, has is_point a = true -> leading N a s b = false.
Proof. intros a s b H. unfold leading. rewrite (has_app is_point), H. cbn [orb negb]. now rewrite andb_false_r. Qed.

Lemma lz_digit : forall a b, lz N a b = true -> dg b = 48.
Proof.
  intros a b H. unfold lz in H. apply andb_true_iff in H as [_ H]. apply Z.ltb_lt in H.
  unfold dg, digit_at. rewrite Z.div_small by lia. reflexivity.
Qed.

Lemma zf_digit : forall b, zf (dg b) = dg b.
Proof.
  intros b. pose proof (digit_range b). unfold zf, zero_fill_char, is_digitb.
  rewrite (proj2 (Z.leb_le 48 (dg b))), (proj2 (Z.leb_le (dg b) 57)) by lia. reflexivity.
Qed.

(** A list of symbols without a point, or up to its point. *)
Lemma point_split : forall l, has is_point l = false \/
  exists a s b, l = a ++ s :: b /\ is_point s = true /\ has is_point a = false.
Proof.
  induction l as [|x l IH]; [left; reflexivity|].
  destruct (is_point x) eqn:PX.
  - right. exists [], x, l. auto.
  - destruct IH as [IH|(a & s & b & -> & H1 & H2)].
    + left. unfold has in *. cbn [existsb]. now rewrite PX, IH.
    + right. exists (x :: a), s, b. split; [reflexivity|]. split; auto. unfold has in *. cbn [existsb]. now rewrite PX, H2.
Qed.

Lemma raw_raw2 : forall a s b, has is_point a = false -> raws a s b = raw2 a s b.
Proof.
  intros a s b H. unfold raws, raw, raw2. fold dg.
  destruct s; try reflexivity; rewrite leading_lz; auto; rewrite keep_has; auto.
Qed.

Definition R2 := gcells raw2 [] body [].

Lemma zero_filled :
  match dpos 0 body with
  | Some q => zero_fill (R ++ trail_text p neg) (q + 1) (Z.of_nat (length R))
  | None => R ++ trail_text p neg
  end = R2 ++ trail_text p neg.
Proof.
  destruct (point_split body) as [NP|(a & s & b & E & PS & PA)].
  - assert (DN : dpos 0 body = None).
    { revert NP. generalize 0. clear. induction body as [|x r IH]; intros k H; auto.
      unfold has in H. cbn [existsb] in H. apply orb_false_iff in H as [H1 H2].
      destruct x; try discriminate H1; cbn [dpos]; apply IH; exact H2. }
    rewrite DN. f_equal. unfold R, R2. apply gcells_ext. intros x s y E. rewrite app_nil_l. apply raw_raw2.
    rewrite E, has_app in NP. now apply orb_false_iff in NP as [NP _].
  - assert (PL : forallb place b = true) by (now apply (ed_point p ED a s b)).
    assert (E2 : body = (a ++ [s]) ++ b) by now rewrite <- app_assoc.
    set (R1 := gcells raws [] (a ++ [s]) b). set (Rb := gcells raws (a ++ [s]) b []).
    assert (RS : R = R1 ++ Rb).
    { unfold R. rewrite E2, gcells_app, app_nil_r. reflexivity. }
    assert (DP : dpos 0 body = Some (Z.of_nat (length R1) - 1)).
    { rewrite E2, dpos_app by (rewrite has_app, has_one, PS; apply orb_true_r).
      rewrite dpos_snoc, PS by auto. f_equal. unfold R1. rewrite gcells_length by apply raw_width.
      rewrite widthl_app, widthl_cons. unfold width, widthl at 3. cbn [filter length]. destruct (shown s); lia. }
    rewrite DP. rewrite RS at 1 2. replace (Z.of_nat (length R1) - 1 + 1) with (Z.of_nat (length R1)) by lia.
    rewrite app_length, <- app_assoc, zero_fill_app.
    rewrite app_assoc. f_equal. unfold R2. rewrite E2, gcells_app, app_nil_r. f_equal.
    + unfold R1. apply gcells_ext. intros x u y EX. rewrite app_nil_l. apply raw_raw2.
      destruct y as [|y0 y].
      * apply app_inj_tail in EX as [-> _]. exact PA.
      * destruct (@exists_last _ (y0 :: y) ltac:(discriminate)) as (y' & z & EY). rewrite EY in EX.
        rewrite app_comm_cons, app_assoc in EX. apply app_inj_tail in EX as [EX _].
        rewrite EX, has_app in PA. now apply orb_false_iff in PA as [PA _].
    + unfold Rb. cbn [app]. apply gcells_map. intros x u y EX. rewrite !app_nil_r.
      assert (PU : place u = true).
      { rewrite EX, forallb_app in PL. apply andb_true_iff in PL as [_ PL]. cbn [forallb] in PL.
        now apply andb_true_iff in PL as [PL _]. }
      assert (HP : has is_point ((a ++ [s]) ++ x) = true).
      { rewrite !has_app, has_one, PS. rewrite orb_true_r. reflexivity. }
      assert (Z1 : zf 32 = 48) by reflexivity. assert (Z2 : zf (fill p) = 48) by (unfold fill; destruct (p_star p); reflexivity).
      unfold raws. destruct u; try discriminate PU; cbn [raw raw2 map]; fold dg.
      * now rewrite zf_digit.
      * rewrite leading_after by auto. destruct (lz N _ y) eqn:LZ; [rewrite Z2, (lz_digit _ _ LZ)|rewrite zf_digit]; reflexivity.
      * rewrite leading_after by auto. destruct (lz N _ y) eqn:LZ; [rewrite Z1, (lz_digit _ _ LZ)|rewrite zf_digit]; reflexivity.
Qed.

Lemma leading_stop : forall a s t r, leading N a s (t :: r) = false -> leading N (a ++ [s]) t r = false.
Proof using.
  clear. intros a s t r H. unfold leading in *. destruct (negb (has is_nine (a ++ [s])) && negb (has is_point (a ++ [s]))) eqn:E.
  - cbn [andb] in H. apply Z.ltb_ge in H.
    assert (10 ^ places r <= 10 ^ places (t :: r)).
    { apply Z.pow_le_mono_r; [lia|]. rewrite places_cons. destruct (place t); lia. }
    rewrite (proj2 (Z.ltb_ge N (10 ^ places r))) by lia. now rewrite andb_false_r.
  - rewrite (has_app is_nine), (has_app is_point). apply andb_false_iff in E as [E|E]; apply negb_false_iff in E; rewrite E.
    + reflexivity.
    + cbn [orb negb]. now rewrite andb_false_r.
Qed.

Lemma not_leading_rest : forall l a s t, leading N a s (l ++ t) = false ->
  forall x u y, s :: l = x ++ u :: y -> leading N (a ++ x) u (y ++ t) = false.
Proof.
  induction l as [|w l IH]; intros a s t H x u y E.
  - destruct x as [|x0 x]; cbn [app] in E.
    + injection E as -> <-. now rewrite app_nil_r.
    + injection E as _ E. destruct x; discriminate.
  - destruct x as [|x0 x]; cbn [app] in E.
    + injection E as -> <-. now rewrite app_nil_r.
    + injection E as -> E. replace (a ++ x0 :: x) with ((a ++ [x0]) ++ x) by now rewrite <- app_assoc.
      apply (IH (a ++ [x0]) w t); auto. apply leading_stop. exact H.
Qed.

(** The suppressed zone is a prefix. *)
Lemma zone_split : forall l a, exists P Q, l = P ++ Q /\
  (forall x s y, P = x ++ s :: y -> leading N (a ++ x) s (y ++ Q) = true) /\
  (forall x s y, Q = x ++ s :: y -> leading N ((a ++ P) ++ x) s y = false).
Proof.
  induction l as [|s l IH]; intros a.
  - exists [], []. split; [reflexivity|]. split; intros x s y E; destruct x; discriminate.
  - destruct (leading N a s l) eqn:LD.
    + destruct (IH (a ++ [s])) as (P & Q & -> & HP & HQ). exists (s :: P), Q. split; [reflexivity|]. split.
      * intros x u y E. destruct x as [|x0 x]; cbn [app] in E.
        -- injection E as -> ->. now rewrite app_nil_r.
        -- injection E as -> E. specialize (HP x u y E). now rewrite <- app_assoc in HP.
      * intros x u y E. specialize (HQ x u y E). rewrite <- app_assoc in HQ. cbn [app] in HQ.
        rewrite <- app_assoc. rewrite <- app_assoc in HQ. exact HQ.
    + exists [], (s :: l). split; [reflexivity|]. split.
      * intros x u y E; destruct x; discriminate.
      * intros x u y E. rewrite app_nil_r. pose proof (not_leading_rest l a s []) as NL. rewrite app_nil_r in NL.
        specialize (NL LD x u y E). now rewrite app_nil_r in NL.
Qed.

Lemma unb_digit : forall b, unb (dg b) = dg b.
Proof. intros b. pose proof (digit_range b). unfold unb. rewrite (proj2 (Z.eqb_neq (dg b) 66)) by lia. reflexivity. Qed.
Lemma unb_sep : unb (separator m) = separator m.
Proof. unfold unb. destruct (dp_cases m CF) as [[_ ->]|[_ ->]]; reflexivity. Qed.
Lemma unb_dp : unb (c_decpoint m) = c_decpoint m.
Proof. unfold unb. destruct (dp_cases m CF) as [[-> _]|[-> _]]; reflexivity. Qed.
Lemma insert_cases : forall a c b, body = a ++ Insert c :: b -> c = 48 \/ c = 47.
Proof.
  intros a c b E. apply (ed_insert p ED). change (p_body p) with body. rewrite E. apply in_or_app. right. left. reflexivity.
Qed.

Lemma unb_pad : forall a, unb (padc p a) = padc p a.
Proof. intros. unfold padc, fill. destruct (has is_supp a), (p_star p); reflexivity. Qed.

(** Away from the sign or currency sign the cells are those of the specification. *)
Lemma cell_plain : forall a s b, body = a ++ s :: b ->
  (leading N a s b = true -> is_float s = false /\
     (has is_supp body = true \/ has is_float body = false)) ->
  map unb (raw2 a s b) = cell m p N neg a s b.
Proof.
  intros a s b E H.
  assert (G : leading N a s b = true -> is_supp s = false -> gap m p N neg a s b = padc p a).
  { intros L NS. destruct (H L) as (NF & SF). unfold gap. rewrite NF. change (p_body p) with body.
    unfold padc. rewrite keep_has by auto. destruct (has is_supp body) eqn:HS.
    - reflexivity.
    - destruct SF as [SF|SF]; [congruence|]. rewrite SF. destruct (has is_supp a) eqn:HA; auto.
      rewrite E, has_app, HA in HS. discriminate. }
  destruct s; cbn [raw2 cell map]; fold dg.
  - now rewrite unb_digit.
  - f_equal. destruct (leading N a Supp b) eqn:L; [|apply unb_digit].
    unfold gap. assert (HS : has is_supp (p_body p) = true).
    { change (p_body p) with body. rewrite E, has_app. unfold has at 2. cbn [existsb is_supp]. apply orb_true_r. }
    rewrite HS. cbn [is_float]. rewrite has_app, has_one. cbn [is_supp]. rewrite orb_true_r.
    unfold unb, fill. destruct (p_star p); reflexivity.
  - f_equal. destruct (leading N a Float b) eqn:L; [|apply unb_digit]. destruct (H eq_refl); discriminate.
  - f_equal. destruct (leading N a Comma b) eqn:L; [rewrite G by auto; apply unb_pad|apply unb_sep].
  - f_equal. destruct (leading N a Blank b) eqn:L; [rewrite G by auto; apply unb_pad|reflexivity].
  - f_equal. destruct (insert_cases a c b E) as [-> | ->]; reflexivity.
  - now rewrite unb_dp.
  - reflexivity.
Qed.

Lemma R2_hd : hd 0 R2 <> 66.
Proof.
  unfold R2. destruct body as [|s b] eqn:EB; [cbn; discriminate|]. cbn [gcells app]. rewrite app_nil_r.
  destruct s; cbn [raw2 app hd]; rewrite ?app_nil_r.
  - pose proof (digit_range b). lia.
  - destruct (leading _ _ _ _); [unfold fill; destruct (p_star p); discriminate|]. pose proof (digit_range b). lia.
  - destruct (leading _ _ _ _); [discriminate|]. pose proof (digit_range b). lia.
  - destruct (leading _ _ _ _); [unfold padc; cbn; discriminate|]. destruct (dp_cases m CF) as [[_ ->]|[_ ->]]; discriminate.
  - assert (L : leading N [] Blank b = true).
    { unfold leading. cbn [app has existsb is_nine is_point orb negb andb]. apply Z.ltb_lt.
      replace (places b) with (places (p_body p)); [lia|]. change (p_body p) with body. rewrite EB. rewrite places_cons. cbn [place]. lia. }
    rewrite L. unfold padc. cbn. discriminate.
  - destruct (insert_cases [] c b) as [-> | ->]; [now rewrite EB|discriminate|discriminate].
  - destruct (dp_cases m CF) as [[-> _]|[-> _]]; discriminate.
  - (* V *) assert (PL : forallb place b = true) by (now apply (ed_point p ED [] Virtual b)).
    destruct b as [|u b]; [cbn; discriminate|]. cbn [gcells app]. rewrite app_nil_r.
    cbn [forallb] in PL. apply andb_true_iff in PL as [PU _].
    destruct u; try discriminate PU; cbn [raw2 app hd].
    + pose proof (digit_range b). lia.
    + destruct (leading _ _ _ _); [unfold fill; destruct (p_star p); discriminate|]. pose proof (digit_range b). lia.
    + destruct (leading _ _ _ _); [discriminate|]. pose proof (digit_range b). lia.
Qed.

Lemma unb_sym : unb (sign_or_currency m p neg) = sign_or_currency m p neg.
Proof.
  unfold unb, sign_or_currency. destruct (p_lead p), neg; try reflexivity;
  rewrite (cur_ne m CF 66) by (cbn [In]; tauto); reflexivity.
Qed.

Lemma final : forall D, hd 0 D <> 66 -> map unb D = gcells (cell m p N neg) [] body [] -> 
  replace_B (D ++ trail_text p neg) (padc p body) 0 (length D) = cells m p N neg [] body ++ trail_text p neg.
Proof. intros D H1 H2. rewrite replace_B_app by auto. rewrite H2, cells_gcells. reflexivity. Qed.

Lemma syms : has is_float body = true ->
  (signsym p neg body =? 0) && (currsym m p body =? 0) = false /\
  (if negb (signsym p neg body =? 0) && negb (currsym m p body =? 0)
   then true else false) = false /\
  (if negb (signsym p neg body =? 0) then signsym p neg body else currsym m p body) = sign_or_currency m p neg.
Proof.
  intros H. unfold signsym, currsym, sign_or_currency. rewrite H.
  destruct (p_lead p), neg; try (repeat split; reflexivity);
  rewrite (cur_ne m CF 0) by (cbn [In]; tauto); repeat split; reflexivity.
Qed.

Lemma repeat_snoc : forall (c : Z) n, repeat c n ++ [c] = repeat c (S n).
Proof. intros. induction n; cbn [repeat app]; auto. f_equal. exact IHn. Qed.

Lemma key : has is_float body = true -> exists X Y, R2 = X ++ 32 :: Y /\ ~ In 32 Y /\
      map unb (X ++ sign_or_currency m p neg :: Y) = gcells (cell m p N neg) [] body [].
Proof.
  intros HF. destruct (ed_first p ED HF) as (r & ER & CL). change (p_body p) with body in ER, CL.
      destruct CL as [(C1 & C2 & C3)|(C1 & C2 & r' & C3)].
      - (* floating *)
        destruct (zone_split body []) as (P & Q & EPQ & HP & HQ). cbn [app] in HP, HQ.
        assert (PNE : P <> []).
        { intros ->. cbn [app] in EPQ. subst Q. specialize (HQ [] Float r ER). cbn [app] in HQ.
          unfold leading in HQ. cbn [app has existsb is_nine is_point orb negb andb] in HQ. apply Z.ltb_ge in HQ.
          specialize (FIT HF). change (p_body p) with body in FIT. rewrite ER, places_cons in FIT. cbn [place] in FIT.
          replace (1 + places r - 1) with (places r) in FIT by lia. lia. }
        assert (P32 : gcells raw2 [] P Q = repeat 32 (length P)).
        { assert (FP : forall x s y, P = x ++ s :: y -> raw2 x s (y ++ Q) = [32]).
          { intros x s y E. specialize (HP x s y E). cbn [app] in HP.
            assert (EB : body = x ++ s :: y ++ Q) by (rewrite EPQ, E, <- app_assoc; reflexivity).
            assert (NS : has is_supp x = false).
            { rewrite EB, has_app in C1. now apply orb_false_iff in C1 as [C1 _]. }
            destruct s; cbn [raw2].
            - unfold leading in HP. rewrite has_app, has_one in HP. cbn [is_nine] in HP. rewrite orb_true_r in HP. discriminate.
            - rewrite EB, has_app in C1. apply orb_false_iff in C1 as [_ C1]. discriminate.
            - now rewrite HP.
            - rewrite HP. unfold padc. now rewrite NS.
            - rewrite HP. unfold padc. now rewrite NS.
            - specialize (C3 x c (y ++ Q) EB). unfold leading in HP. rewrite has_app, C3 in HP. discriminate.
            - unfold leading in HP. rewrite (has_app is_point), has_one in HP. cbn [is_point] in HP. rewrite orb_true_r, andb_false_r in HP. discriminate.
            - unfold leading in HP. rewrite (has_app is_point), has_one in HP. cbn [is_point] in HP. rewrite orb_true_r, andb_false_r in HP. discriminate. }
          rewrite (gcells_ext _ (fun _ _ _ => [32])).
          - generalize (@nil sym). clear. induction P as [|s P IH]; intros a; cbn [gcells length repeat]; auto. now rewrite IH.
          - intros x s y E. rewrite app_nil_l. now apply FP. }
        destruct (@exists_last _ P PNE) as (P' & sl & EP).
        exists (repeat 32 (length P')), (gcells raw2 P Q []). split; [|split].
        + unfold R2. rewrite EPQ, gcells_app, app_nil_r, P32. cbn [app].
          rewrite EP, app_length. cbn [length]. rewrite Nat.add_1_r, <- repeat_snoc, <- app_assoc. reflexivity.
        + assert (FQ : Forall (fun c => c <> 32) (gcells raw2 P Q [])).
          { apply gcells_Forall. intros x s y E. rewrite app_nil_r.
            specialize (HQ x s y E).
            assert (EB : body = (P ++ x) ++ s :: y) by (rewrite EPQ, E, <- app_assoc; reflexivity).
            assert (DG : forall b, dg b <> 32) by (intros b; pose proof (digit_range b); lia).
            destruct s; cbn [raw2]; rewrite ?HQ; auto; repeat constructor; auto.
            - destruct (dp_cases m CF) as [[_ ->]|[_ ->]]; discriminate.
            - discriminate.
            - destruct (insert_cases _ _ _ EB) as [-> | ->]; discriminate.
            - destruct (dp_cases m CF) as [[-> _]|[-> _]]; discriminate. }
          intros I. rewrite Forall_forall in FQ. exact (FQ 32 I eq_refl).
        + rewrite map_app. cbn [map]. rewrite unb_sym.
          rewrite EPQ at 1. rewrite gcells_app. cbn [app]. rewrite app_nil_r.
          rewrite (gcells_map unb raw2 (cell m p N neg) Q P []).
          2:{ intros x s y E. rewrite app_nil_r. apply cell_plain.
              - rewrite EPQ, E, <- app_assoc. reflexivity.
              - intros L. rewrite (HQ x s y E) in L. discriminate. }
          assert (GP : gcells (cell m p N neg) [] P Q = repeat 32 (length P') ++ [sign_or_currency m p neg]).
          { assert (FP : forall x s y, P = x ++ s :: y -> cell m p N neg x s (y ++ Q) =
               [match y with [] => sign_or_currency m p neg | _ => 32 end]).
            { intros x s y E. pose proof (HP x s y E) as L. cbn [app] in L.
              assert (EB : body = x ++ s :: y ++ Q) by (rewrite EPQ, E, <- app_assoc; reflexivity).
              assert (G : gap m p N neg x s (y ++ Q) = match y with [] => sign_or_currency m p neg | _ => 32 end).
              { unfold gap. change (p_body p) with body. rewrite C1, HF. destruct y as [|t y].
                - cbn [app]. unfold next_leading. destruct Q as [|t Q]; auto.
                  specialize (HQ [] t Q eq_refl). rewrite app_nil_r in HQ. rewrite E in HQ. now rewrite HQ.
                - cbn [app next_leading]. specialize (HP (x ++ [s]) t y).
                  rewrite <- app_assoc in HP. cbn [app] in HP. rewrite (HP E). reflexivity. }
              destruct s; cbn [cell]; rewrite ?L, ?G; auto.
              - unfold leading in L. rewrite has_app, has_one in L. cbn [is_nine] in L. rewrite orb_true_r in L. discriminate.
              - specialize (C3 x c (y ++ Q) EB). unfold leading in L. rewrite has_app, C3 in L. discriminate.
              - unfold leading in L. rewrite (has_app is_point), has_one in L. cbn [is_point] in L. rewrite orb_true_r, andb_false_r in L. discriminate.
              - unfold leading in L. rewrite (has_app is_point), has_one in L. cbn [is_point] in L. rewrite orb_true_r, andb_false_r in L. discriminate. }
            rewrite EP, gcells_snoc. f_equal.
            - rewrite (gcells_ext _ (fun _ _ _ => [32])).
              + generalize (@nil sym). clear. induction P' as [|s P IH]; intros a; cbn [gcells length repeat]; auto. now rewrite IH.
              + intros x s y E. rewrite app_nil_l. rewrite E, <- app_assoc in EP. cbn [app] in EP.
                specialize (FP x s (y ++ [sl]) EP). rewrite <- app_assoc in FP. cbn [app] in FP.
                rewrite FP. destruct y; reflexivity.
            - cbn [app]. exact (FP P' sl [] EP). }
          rewrite GP, <- app_assoc. cbn [app]. f_equal.
          clear. induction (length P'); cbn [repeat map]; auto. f_equal; auto.
      - (* fixed, asterisks *)
        assert (HS : has is_supp body = true) by (rewrite ER, C3; reflexivity).
        assert (LH : leading N [] Float r = true).
        { unfold leading. cbn [app has existsb is_nine is_point orb negb andb]. apply Z.ltb_lt.
          specialize (FIT HF). change (p_body p) with body in FIT. rewrite ER, places_cons in FIT. cbn [place] in FIT.
          replace (1 + places r - 1) with (places r) in FIT by lia. exact FIT. }
        exists [], (gcells raw2 [Float] r []). split; [|split].
        + unfold R2. rewrite ER. cbn [gcells app raw2]. rewrite app_nil_r, LH. reflexivity.
        + assert (FQ : Forall (fun c => c <> 32) (gcells raw2 [Float] r [])).
          { apply gcells_Forall. intros x s y E. rewrite app_nil_r.
            assert (EB : body = ([Float] ++ x) ++ s :: y) by (rewrite ER, E; reflexivity).
            assert (DG : forall b, dg b <> 32) by (intros b; pose proof (digit_range b); lia).
            assert (F42 : fill p <> 32) by (unfold fill; rewrite C1; discriminate).
            assert (PD : is_supp s = false -> padc p ([Float] ++ x) <> 32).
            { intros NS. unfold padc. destruct x as [|x0 x].
              - rewrite C3 in E. cbn [app] in E. injection E as <- _. discriminate NS.
              - rewrite C3 in E. cbn [app] in E. injection E as <- _. cbn [app has existsb is_supp orb]. exact F42. }
            destruct s; cbn [raw2]; repeat (apply Forall_cons || apply Forall_nil); auto.
            - destruct (leading N ([Float] ++ x) Supp y); [exact F42|apply DG].
            - rewrite E, has_app in C2. apply orb_false_iff in C2 as [_ C2]. discriminate.
            - destruct (leading N ([Float] ++ x) Comma y); [apply PD; reflexivity|]. destruct (dp_cases m CF) as [[_ ->]|[_ ->]]; discriminate.
            - destruct (leading N ([Float] ++ x) Blank y); [apply PD; reflexivity|discriminate].
            - destruct (insert_cases _ _ _ EB) as [-> | ->]; discriminate.
            - destruct (dp_cases m CF) as [[-> _]|[-> _]]; discriminate. }
          intros I. rewrite Forall_forall in FQ. exact (FQ 32 I eq_refl).
        + rewrite ER. cbn [app map gcells]. rewrite unb_sym, app_nil_r.
          assert (CE : cell m p N neg [] Float r = [sign_or_currency m p neg]).
          { cbn [cell]. rewrite LH. unfold gap. change (p_body p) with body. rewrite HS. reflexivity. }
          rewrite CE. cbn [app]. f_equal.
          * apply gcells_map. intros x s y E. rewrite app_nil_r. apply cell_plain.
            -- rewrite ER, E. reflexivity.
            -- intros _. split; auto. destruct s; auto.
               rewrite E, has_app in C2. apply orb_false_iff in C2 as [_ C2]. discriminate. 
Qed.

Lemma sym_shown : has is_float body = true -> In (sign_or_currency m p neg) (cells m p N neg [] body).
Proof.
  intros HF. destruct (key HF) as (X & Y & _ & _ & K). rewrite cells_gcells, <- K.
  rewrite <- unb_sym at 1. apply in_map. apply in_or_app. right. left. reflexivity.
Qed.

Lemma fin_text : forall st, Fin st -> blanked p N bz = false ->
  edit_finish m bz st = Ok (cells m p N neg [] body ++ trail_text p neg).
Proof.
  intros st [D1 D2 D3 D4 D5 D6 D7] B. unfold edit_finish. cbv zeta. rewrite D3, B, D1, D4, D5, D6, D7, D2.
  rewrite zero_filled.
  assert (LR : length R = length R2).
  { unfold R, R2. rewrite !gcells_length; auto using raw2_width. intros; apply raw_width. }
  rewrite LR. pose proof R2_hd as HD. rewrite Nat2Z.id.
  destruct (has is_float body) eqn:HF.
  - destruct (syms HF) as (S1 & S2 & S3). rewrite S1.
    assert (S2' : negb (signsym p neg body =? 0) && negb (currsym m p body =? 0) = false).
    { destruct (negb (signsym p neg body =? 0) && negb (currsym m p body =? 0)); auto. }
    rewrite S2'.
    destruct (key HF) as (X & Y & K1 & K2 & K3).
    assert (LE : (Z.of_nat (length R2) <=? 0) = false).
    { apply Z.leb_gt. rewrite K1, app_length. cbn [length]. lia. }
    rewrite LE.
    replace (Z.to_nat (Z.of_nat (length R2) - 1)) with (length X + length Y)%nat
      by (rewrite K1, app_length; cbn [length]; lia).
    assert (K1T : R2 ++ trail_text p neg = X ++ 32 :: Y ++ trail_text p neg) by (rewrite K1, <- app_assoc; reflexivity).
    rewrite K1T. cbn [app]. rewrite last_space_app by auto.
    assert (U : forall s2, s2 = 0 -> (match length X with
       | O => upd (length X) (sign_or_currency m p neg) (X ++ 32 :: Y ++ trail_text p neg)
       | S j => if s2 =? 0 then upd (length X) (sign_or_currency m p neg) (X ++ 32 :: Y ++ trail_text p neg)
                else upd j s2 (upd (length X) (sign_or_currency m p neg) (X ++ 32 :: Y ++ trail_text p neg))
       end) = (X ++ sign_or_currency m p neg :: Y) ++ trail_text p neg).
    { intros s2 ->. change (0 =? 0) with true. cbv iota. rewrite upd_app, <- app_assoc. destruct (length X); reflexivity. }
    assert (FIN : forall W, W = (X ++ sign_or_currency m p neg :: Y) ++ trail_text p neg ->
      replace_B W (padc p body) 0 (length R2) = cells m p N neg [] body ++ trail_text p neg).
    { intros W ->. replace (length R2) with (length (X ++ sign_or_currency m p neg :: Y))
        by (rewrite K1, !app_length; reflexivity).
      apply final; auto. destruct X as [|x X]; cbn [app hd].
      - intros E66. pose proof unb_sym as US. rewrite E66 in US. unfold unb in US. cbn in US. discriminate.
      - rewrite K1 in HD. exact HD. }
    destruct (negb (signsym p neg body =? 0)) eqn:SS; rewrite S3; cbv iota; cbn [obind]; f_equal; apply FIN; apply U; reflexivity.
  - assert (S1 : (signsym p neg body =? 0) && (currsym m p body =? 0) = true).
    { unfold signsym, currsym. rewrite HF. reflexivity. }
    rewrite S1. cbn [obind]. f_equal. apply final; auto.
    apply gcells_map. intros x s y E. cbn [app]. rewrite app_nil_r. apply cell_plain; auto.
    intros _. split; auto. destruct s; auto. rewrite E, has_app in HF. apply orb_false_iff in HF as [_ HF]. discriminate.
Qed.
End Finish.
