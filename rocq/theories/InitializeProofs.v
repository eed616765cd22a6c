(** Proofs about INITIALIZE and initial values. *)
From Verif Require Import Base BaseFacts Layout SpecLayout LayoutProofs Initialize SpecInitialize.

Local Open Scope nat_scope.

Lemma fld_ind' : forall P : fld -> Prop,
  (forall a o s ch, Forall P ch -> P (Fld a o s ch)) -> forall f, P f.
Proof.
  intros P H. fix IH 1. intros [a o s ch]. apply H. induction ch as [|c ch IHc]; constructor; auto.
Qed.

(** ** Memory *)
Lemma put_in : forall m a bs x, a <= x < a + length bs -> put m a bs x = nth (x - a) bs 0%Z.
Proof. intros m a bs x H. unfold put. destruct (Nat.leb_spec a x); [|lia]. destruct (Nat.ltb_spec x (a + length bs)); [reflexivity|lia]. Qed.
Lemma put_out : forall m a bs x, x < a \/ a + length bs <= x -> put m a bs x = m x.
Proof. intros m a bs x H. unfold put. destruct (Nat.leb_spec a x); [|reflexivity]. destruct (Nat.ltb_spec x (a + length bs)); [lia|reflexivity]. Qed.
Lemma put_app : forall m a b1 b2 x, put (put m a b1) (a + length b1) b2 x = put m a (b1 ++ b2) x.
Proof.
  intros m a b1 b2 x. destruct (Nat.lt_ge_cases x a) as [L|L].
  - rewrite !put_out by lia. reflexivity.
  - destruct (Nat.lt_ge_cases x (a + length b1)) as [L1|L1].
    + rewrite (put_out _ (a + length b1)) by lia. rewrite !put_in by (rewrite ?app_length; lia). rewrite app_nth1 by lia. reflexivity.
    + destruct (Nat.lt_ge_cases x (a + length b1 + length b2)) as [L2|L2].
      * rewrite !put_in by (rewrite ?app_length; lia). rewrite app_nth2 by lia. f_equal. lia.
      * rewrite !put_out by (rewrite ?app_length; lia). reflexivity.
Qed.
Lemma put_ext : forall m m' a bs x, (forall y, m y = m' y) -> put m a bs x = put m' a bs x.
Proof. intros m m' a bs x H. unfold put. destruct (_ && _); auto. Qed.
Lemma put_nil : forall m a x, put m a [] x = m x.
Proof. intros. apply put_out. cbn. lia. Qed.
Lemma holds_put : forall m a bs, holds (put m a bs) a bs.
Proof. intros m a bs i H. rewrite put_in by lia. f_equal. lia. Qed.

Section MV.
Variable mv : src -> fld -> list Z.
Lemma run_app : forall w1 w2 m, run_all mv (w1 ++ w2) m = run_all mv w2 (run_all mv w1 m).
Proof. intros. unfold run_all. apply fold_left_app. Qed.
Lemma run_wr_ext : forall w m m', (forall y, m y = m' y) -> forall x, run_wr mv m w x = run_wr mv m' w x.
Proof. intros [] m m' H x; apply put_ext; exact H. Qed.
Lemma run_ext : forall ws m m', (forall y, m y = m' y) -> forall x, run_all mv ws m x = run_all mv ws m' x.
Proof.
  induction ws as [|w ws IH]; intros m m' H x; [apply H|]. cbn [run_all fold_left]. apply IH. now apply run_wr_ext.
Qed.

(** ** VALUE literals *)
Lemma repeat_eq : forall c l, forallb (Z.eqb c) l = true -> l = repeat c (length l).
Proof. induction l as [|x l IH]; intros H; [reflexivity|]. cbn in *. apply andb_true_iff in H as [A B]. apply Z.eqb_eq in A. subst. f_equal. auto. Qed.
Lemma run_length_split : forall c l, exists r, l = repeat c (run_length c l) ++ r /\ length r + run_length c l = length l.
Proof.
  induction l as [|x l IH]; [exists []; auto|]. cbn [run_length]. destruct (Z.eqb_spec x c) as [->|N].
  - destruct IH as (r & E & L). exists r. split; [cbn; f_equal; exact E|cbn; lia].
  - exists (x :: l). split; [reflexivity|cbn; lia].
Qed.
Lemma rev_repeat : forall (c : Z) n, rev (repeat c n) = repeat c n.
Proof.
  induction n; [reflexivity|]. cbn [repeat rev]. rewrite IHn. clear. induction n; [reflexivity|]. cbn. f_equal. exact IHn.
Qed.
Lemma firstn_repeat : forall (c : Z) n k, n <= k -> firstn n (repeat c k) = repeat c n.
Proof. induction n; intros [|k] H; cbn; try reflexivity; try lia. f_equal. apply IHn. lia. Qed.
Lemma text_buff : forall l size,
  (if size <=? length l then firstn size l else l ++ repeat 32%Z (size - length l)) = text_image l size.
Proof.
  intros l size. unfold text_image. rewrite firstn_app. destruct (Nat.leb_spec size (length l)) as [H|H].
  - replace (size - length l) with 0 by lia. cbn [firstn]. now rewrite app_nil_r.
  - rewrite (firstn_all2 l) by lia. f_equal. symmetry. apply firstn_repeat. lia.
Qed.
Lemma text_length : forall l n, length (text_image l n) = n.
Proof. intros. unfold text_image. rewrite firstn_length, app_length, repeat_length. lia. Qed.
Lemma text_writes_put : forall l size a m x, 1 <= size ->
  run_all mv (text_writes l size a) m x = put m a (text_image l size) x.
Proof.
  intros l size a m x HS. unfold text_writes. rewrite text_buff. cbv zeta. set (b := text_image l size).
  assert (LB : length b = size) by apply text_length.
  destruct (Nat.eqb_spec size 1) as [E|E].
  { cbn [run_all fold_left run_wr]. destruct b as [|y [|z b']]; cbn in LB; try lia. reflexivity. }
  destruct (forallb (Z.eqb (nth 0 b 0%Z)) b) eqn:FA.
  { apply repeat_eq in FA. rewrite LB in FA. cbn [run_all fold_left run_wr]. now rewrite <- FA. }
  destruct (_ && _) eqn:C; [|reflexivity].
  destruct (run_length_split (nth (size - 1) b 0%Z) (rev b)) as (r & E1 & E2).
  set (c := nth (size - 1) b 0%Z) in *. set (n := run_length c (rev b)) in *. rewrite rev_length, LB in E2.
  assert (EB : b = rev r ++ repeat c n).
  { rewrite <- (rev_involutive b), E1, rev_app_distr, rev_repeat. reflexivity. }
  assert (LR : length (rev r) = size - n) by (rewrite rev_length; lia).
  assert (FB : firstn (size - n) b = rev r) by (rewrite EB, <- LR, firstn_app, Nat.sub_diag, firstn_all; cbn [firstn]; apply app_nil_r).
  rewrite FB. cbn [run_all fold_left run_wr]. rewrite <- LR. rewrite put_app, <- EB. reflexivity.
Qed.

Lemma nth_seq_firstn : forall l r, r <= length l -> map (fun i => nth i l 0%Z) (seq 0 r) = firstn r l.
Proof.
  intros l r. revert l. induction r as [|r IH]; intros l H; [reflexivity|].
  destruct l as [|x l]; [cbn in H; lia|]. cbn [seq map nth firstn]. f_equal. rewrite <- seq_shift, map_map. cbn [nth]. apply IH. cbn in H. lia.
Qed.
Lemma all_image_app : forall l k r, l <> [] -> r <= length l ->
  all_image l (k * length l + r) = all_image l (k * length l) ++ firstn r l.
Proof.
  intros l k r NE H. unfold all_image. rewrite seq_app, map_app. f_equal. cbn [plus].
  rewrite <- (nth_seq_firstn l r H).
  assert (G : forall s, map (fun i => nth (i mod length l) l 0%Z) (seq (k * length l + s) (r - s)) = map (fun i => nth i l 0%Z) (seq s (r - s))).
  { intros s. remember (r - s) as q eqn:Q. revert s Q. induction q as [|q IH]; intros s Q; [reflexivity|].
    cbn [seq map]. f_equal.
    - f_equal. rewrite Nat.add_comm, Nat.mod_add by (destruct l; cbn; congruence). apply Nat.mod_small. lia.
    - replace (S (k * length l + s)) with (k * length l + S s) by lia. apply IH. lia. }
  specialize (G 0). rewrite Nat.add_0_r, Nat.sub_0_r in G. exact G.
Qed.
Lemma all_length : forall l n, length (all_image l n) = n.
Proof. intros. unfold all_image. now rewrite map_length, seq_length. Qed.
Lemma all_blocks : forall l a k m x, l <> [] ->
  run_all mv (map (fun i => WData (a + i * length l) l) (seq 0 k)) m x = put m a (all_image l (k * length l)) x.
Proof.
  intros l a k m x NE. revert x. induction k as [|k IH]; intros x; [now rewrite put_nil|].
  rewrite seq_S, map_app, run_app. cbn [map run_all fold_left run_wr plus].
  rewrite (put_ext _ (put m a (all_image l (k * length l)))) by exact IH.
  rewrite <- (all_length l (k * length l)) at 2. rewrite put_app.
  replace (S k * length l) with (k * length l + length l) by (cbn; lia).
  rewrite (all_image_app l k (length l) NE) by lia. now rewrite firstn_all.
Qed.
Lemma all_writes_put : forall l size a m x, l <> [] ->
  run_all mv (all_writes l size a) m x = put m a (all_image l size) x.
Proof.
  intros l size a m x NE. unfold all_writes. cbv zeta.
  assert (LP : length l <> 0) by (destruct l; cbn; congruence).
  destruct (Nat.eqb_spec (length l) 1) as [E|E].
  { cbn [run_all fold_left run_wr]. destruct l as [|c [|c2 l]]; cbn in E; try lia. cbn [nth].
    replace (all_image [c] size) with (repeat c size); [reflexivity|].
    unfold all_image. cbn [length]. clear.
    assert (G : forall s, repeat c size = map (fun i => nth (i mod 1) [c] 0%Z) (seq s size)).
    { induction size as [|n IH]; intros s; [reflexivity|]. cbn [repeat seq map]. rewrite Nat.mod_1_r. cbn [nth]. f_equal. apply IH. }
    apply G. }
  destruct (Nat.leb_spec size (length l)) as [H|H].
  { cbn [run_all fold_left run_wr]. pose proof (all_image_app l 0 size NE H) as A. cbn [Nat.mul plus] in A. now rewrite A. }
  rewrite run_app. set (k := size / length l). pose proof (Nat.div_mod size (length l) LP) as DM. fold k in DM.
  assert (DM' : size = k * length l + size mod length l) by (rewrite Nat.mul_comm; exact DM).
  pose proof (Nat.mod_upper_bound size (length l) LP) as MB.
  destruct (Nat.eqb_spec (size mod length l) 0) as [Z0|NZ].
  - cbn [run_all fold_left]. rewrite all_blocks by exact NE. replace (k * length l) with size by lia. reflexivity.
  - cbn [run_all fold_left run_wr]. rewrite (put_ext _ (put m a (all_image l (k * length l)))) by (intros; now apply all_blocks).
    rewrite <- (all_length l (k * length l)) at 2. rewrite put_app. rewrite <- all_image_app by (auto; lia). now rewrite <- DM'.
Qed.

Section EB.
Variable ebcdic : bool.
Lemma value_writes_put : forall v f a m x, (forall l, v = VAll l -> l <> []) -> 1 <= f_size f ->
  run_all mv (value_writes ebcdic v f a) m x = put m a (value_image mv ebcdic v f) x.
Proof.
  intros v f a m x HA HS. unfold value_writes, value_image, plain_digits.
  destruct (f_cat f); try reflexivity; destruct v; try reflexivity;
  try (apply text_writes_put; exact HS); try (apply all_writes_put; now apply HA);
  destruct (f_usage f); try reflexivity; destruct (d_signsep _); try reflexivity; destruct (_ && _); reflexivity.
Qed.

Hypothesis Hmv : move_sizes mv.
Variable s : init_stmt.
Hypothesis Hcat : forall k, i_value s <> Some (Some k).
Let p := emit_initialize s.

Lemma phrase_val : forall c, value_phrase s c = ph_val p.
Proof. intros c. unfold value_phrase, p, emit_initialize. cbn [ph_val]. destruct (i_value s) as [[k|]|] eqn:E; try reflexivity. now destruct (Hcat k). Qed.
Lemma phrase_def : ph_def p = (i_def s || match i_value s, i_rep s with None, [] => true | _, _ => false end)%bool.
Proof.
  unfold p, emit_initialize. cbn [ph_def]. destruct (i_value s), (i_rep s), (i_def s); reflexivity.
Qed.
Lemma phrase_rep : forall c, rep_of p c = match find (fun e => cat_beq (fst e) c) (i_rep s) with Some e => Some (snd e) | None => None end.
Proof. reflexivity. Qed.
Lemma phrase_stmt : ph_stmt p = negb (i_filler s).
Proof. reflexivity. Qed.

(** A FILLER item with a VALUE is initialised WITH FILLER only. *)
Definition fine (f : fld) : Prop :=
  sane f /\ (i_value s <> None -> f_ch f = [] -> a_filler (f_attr f) = true -> a_value (f_attr f) <> None -> i_filler s = true).

Lemma value_length : forall v f, length (value_image mv ebcdic v f) = f_size f.
Proof.
  intros v f. unfold value_image. destruct (f_cat f); try apply Hmv; destruct v; rewrite ?repeat_length; try apply Hmv; try apply all_length; try apply text_length; auto;
  destruct (f_usage f); try destruct (plain_digits _ _); rewrite ?repeat_length; try apply Hmv; auto.
Qed.
Lemma default_length : forall f, length (default_image mv ebcdic f) = f_size f.
Proof.
  intros f. unfold default_image. destruct (a_cat _), (f_usage f); try destruct (plain_digits _ _); rewrite ?repeat_length; try apply Hmv; auto.
Qed.
Lemma due_length : forall f img, due mv ebcdic s f = Some img -> length img = f_size f.
Proof.
  intros f img H. unfold due in H.
  assert (V : forall v, Some (value_image mv ebcdic v f) = Some img -> length img = f_size f) by (intros v E; injection E as <-; apply value_length).
  assert (D : Some (default_image mv ebcdic f) = Some img -> length img = f_size f) by (intros E; injection E as <-; apply default_length).
  destruct (f_ch f).
  - destruct (_ && _); [discriminate|].
    assert (R : match find (fun e => cat_beq (fst e) (a_cat (f_attr f))) (i_rep s) with
       | Some e => Some (mv (snd e) f)
       | None => if (i_def s || match i_value s, i_rep s with None, [] => true | _, _ => false end)%bool then Some (default_image mv ebcdic f) else None
       end = Some img -> length img = f_size f).
    { destruct (find _ _) as [e|]; [intros E; injection E as <-; apply Hmv|]. destruct (_ || _)%bool; [auto|discriminate]. }
    destruct (a_value (f_attr f)); [|auto]. destruct (value_phrase _ _); auto. eauto.
  - destruct (a_value (f_attr f)); [|discriminate]. destruct (value_phrase _ _); [eauto|discriminate].
Qed.

Notation due_ := (due mv ebcdic s).
Notation itype := (init_type ebcdic p).

Lemma init_type_eq : forall top f, itype top f =
  if f_redef f && (negb top || negb (ph_stmt p)) then NONE
  else if ph_val p && has_value f then
    if top && a_occurs (f_attr f) && negb (ph_stmt p) then COMPOUND else ONE
  else match f_ch f with
       | [] => if ph_stmt p && a_filler (f_attr f) then NONE else leaf_init_type ebcdic p f
       | c :: r => if ity_eqb (itype false c) ONE then COMPOUND
                   else if forallb (fun g => ity_eqb (itype false c) (itype false g)) r then itype false c else COMPOUND
       end.
Proof. intros top [a o z ch]. reflexivity. Qed.
Lemma ity_eqb_eq : forall a b, ity_eqb a b = true <-> a = b.
Proof. intros [] []; split; intros H; try discriminate; reflexivity. Qed.

Lemma due_value : forall f v, fine f -> ph_val p = true -> a_value (f_attr f) = Some v ->
  due_ f = Some (value_image mv ebcdic v f).
Proof.
  intros f v [_ FI] PV AV. unfold due. rewrite !phrase_val. fold p. rewrite PV, AV.
  destruct (f_ch f) eqn:EC; [|reflexivity]. destruct (_ && _) eqn:E; [|reflexivity].
  apply andb_true_iff in E as [E1 E2]. rewrite FI in E2; auto; try congruence; [discriminate|].
  intros N. unfold p, emit_initialize in PV. cbn [ph_val] in PV. rewrite N in PV. discriminate.
Qed.
Lemma due_group : forall f, f_ch f <> [] -> ph_val p && has_value f = false -> due_ f = None.
Proof.
  intros f NE H. unfold due. destruct (f_ch f); [congruence|]. unfold has_value in H. rewrite phrase_val. fold p.
  destruct (a_value (f_attr f)); [|reflexivity]. rewrite andb_true_r in H. now rewrite H.
Qed.
Lemma due_leaf : forall f, f_ch f = [] -> ph_val p && has_value f = false ->
  due_ f = if ph_stmt p && a_filler (f_attr f) then None else
           match rep_of p (a_cat (f_attr f)) with
           | Some x => Some (mv x f)
           | None => if ph_def p then Some (default_image mv ebcdic f) else None
           end.
Proof.
  intros f NE H. unfold due. rewrite NE. unfold has_value in H. rewrite phrase_val. fold p.
  rewrite phrase_rep, phrase_def, phrase_stmt. rewrite (andb_comm (negb (i_filler s))).
  destruct (a_filler (f_attr f) && negb (i_filler s)); [reflexivity|]. fold p.
  destruct (a_value (f_attr f)); [rewrite andb_true_r in H; rewrite H|]; destruct (find _ _); reflexivity.
Qed.

(** A group of type NONE or DEFAULT has subordinate items of that type only. *)
Lemma group_type : forall f top t, itype top f = t -> t <> ONE -> t <> COMPOUND ->
  f_redef f && (negb top || negb (ph_stmt p)) = false ->
  ph_val p && has_value f = false /\ (f_ch f <> [] -> forall c, In c (f_ch f) -> itype false c = t).
Proof.
  intros f top t E N1 N2 R. rewrite init_type_eq, R in E. destruct (ph_val p && has_value f).
  - exfalso. destruct (_ && _); congruence.
  - split; [reflexivity|]. intros NE c I. destruct (f_ch f) as [|c0 r]; [congruence|].
    destruct (ity_eqb (itype false c0) ONE) eqn:E1; [congruence|]. destruct (forallb _ r) eqn:FA; [|congruence].
    destruct I as [<-|I]; [exact E|]. rewrite forallb_forall in FA. specialize (FA c I). apply ity_eqb_eq in FA. congruence.
Qed.

Lemma occ_leaf : forall f d g e, f_ch f = [] -> occurrence s f d g e -> g = f /\ e = d.
Proof. intros f d g e H O. inversion O as [|? ? c ? ? ? I]; subst; [auto|]. rewrite H in I. contradiction. Qed.
Lemma occ_value : forall f d g e, ph_val p && has_value f = true -> occurrence s f d g e -> g = f /\ e = d.
Proof.
  intros f d g e H O. inversion O as [|? ? c ? ? ? I ? ? V]; subst; [auto|]. exfalso. apply andb_true_iff in H as [HA HB].
  rewrite phrase_val in V. specialize (V HA). unfold has_value in HB. rewrite V in HB. discriminate.
Qed.

Definition redef_ok (top : bool) (f : fld) : Prop := f_redef f && (negb top || negb (ph_stmt p)) = false.
Lemma redef_ok_false : forall f, f_redef f = false -> redef_ok false f.
Proof. intros f H. unfold redef_ok. now rewrite H. Qed.

Lemma none_due : forall f top, redef_ok top f -> itype top f = NONE ->
  forall d g e, occurrence s f d g e -> due_ g = None.
Proof.
  induction f as [a o z ch IH] using fld_ind'. intros top R T d g e O.
  destruct (group_type _ _ _ T ltac:(discriminate) ltac:(discriminate) R) as [V K].
  inversion O as [|? ? c k ? ? I RD KB VP O']; subst.
  - destruct ch as [|c0 r] eqn:EC; [|apply due_group; [discriminate|exact V]].
    rewrite due_leaf by (auto; reflexivity). rewrite init_type_eq, V in T. unfold redef_ok in R. rewrite R in T. cbn [f_ch] in T.
    destruct (ph_stmt p && _); [reflexivity|]. unfold leaf_init_type in T. cbn [f_cat f_ch f_attr] in T. cbn [f_attr].
    destruct (rep_of p _); [discriminate|]. destruct (ph_def p); [|reflexivity]. exfalso. revert T.
    destruct (f_usage (Fld a o z [])); try discriminate; destruct (a_cat a); try discriminate; destruct (leaf_type (Fld a o z [])); try discriminate;
    destruct (d_signsep (a_decl a)); try discriminate; destruct (ebcdic && d_psign (a_decl a)); discriminate.
  - cbn [f_ch] in *. rewrite Forall_forall in IH. apply (IH c I false (redef_ok_false _ RD) (K ltac:(intros X; subst; contradiction) c I) _ _ _ O').
Qed.

Lemma leaf_default : forall f, f_ch f = [] -> leaf_init_type ebcdic p f = DEFAULT ->
  rep_of p (a_cat (f_attr f)) = None /\ ph_def p = true /\
  exists c, uniform_char f = Some c /\ default_image mv ebcdic f = repeat c (f_size f).
Proof.
  intros [a o z ch] EC T. cbn [f_ch] in EC. subst ch. unfold leaf_init_type in T. unfold default_image, plain_digits.
  cbn [uniform_char f_cat f_ch f_attr f_size] in *. unfold leaf_type in *. cbn [f_attr f_size] in *. unfold f_usage in *. cbn [f_attr] in *.
  destruct (rep_of p _); [discriminate|]. destruct (ph_def p); [|discriminate]. split; [reflexivity|]. split; [reflexivity|].
  revert T. destruct (d_usage _), (a_cat a); try discriminate; intros T; try (eexists; split; reflexivity);
  destruct (d_signsep _); try discriminate; destruct (ebcdic && _); try discriminate; eexists; split; reflexivity.
Qed.

Lemma default_due : forall f top, redef_ok top f -> itype top f = DEFAULT ->
  forall d g e, occurrence s f d g e ->
  (f_ch g <> [] -> due_ g = None) /\
  (f_ch g = [] -> due_ g = Some (default_image mv ebcdic g)) /\
  (forall c, uniform_char f = Some c -> f_ch g = [] -> due_ g = Some (repeat c (f_size g))).
Proof.
  induction f as [a o z ch IH] using fld_ind'. intros top R T d g e O.
  destruct (group_type _ _ _ T ltac:(discriminate) ltac:(discriminate) R) as [V K].
  inversion O as [|? ? c k ? ? I RD KB VP O']; subst.
  - destruct ch as [|c0 r] eqn:EC.
    + rewrite due_leaf by (auto; reflexivity). rewrite init_type_eq, V in T. unfold redef_ok in R. rewrite R in T. cbn [f_ch] in T.
      destruct (ph_stmt p && _); [discriminate|].
      destruct (leaf_default (Fld a o z []) eq_refl T) as (E1 & E2 & c & E3 & E4). rewrite E1, E2.
      split; [cbn [f_ch]; congruence|]. split; [reflexivity|]. intros c' U _. rewrite E3 in U. injection U as <-. now rewrite E4.
    + split; [intros _; apply due_group; [discriminate|exact V]|]. split; [discriminate|]. discriminate.
  - cbn [f_ch] in *. rewrite Forall_forall in IH.
    assert (NE : ch <> []) by (intros X; subst; contradiction).
    destruct (IH c I false (redef_ok_false _ RD) (K NE c I) _ _ _ O') as (A & B & C).
    split; [exact A|]. split; [exact B|]. intros c' U. apply C. cbn [uniform_char] in U.
    destruct ch as [|c0 r]; [congruence|]. destruct (forallb _ r) eqn:FA; [|discriminate].
    destruct I as [<-|I]; [exact U|]. rewrite forallb_forall in FA. specialize (FA c I). rewrite RD in FA. cbn [orb] in FA.
    rewrite U in FA. unfold opt_eqb in FA. destruct (uniform_char c); [|discriminate]. apply Z.eqb_eq in FA. now subst.
Qed.

Lemma one_due : forall f top, fine f -> redef_ok top f -> itype top f = ONE ->
  (exists img, due_ f = Some img /\ forall a m x, run_all mv (one ebcdic p f a) m x = put m a img x) /\
  (forall d g e, occurrence s f d g e -> g = f /\ e = d).
Proof.
  intros f top FI R T. rewrite init_type_eq in T. unfold redef_ok in R. rewrite R in T.
  destruct (ph_val p && has_value f) eqn:V.
  - split; [|intros; now apply (occ_value f d)]. apply andb_true_iff in V as [V1 V2].
    unfold has_value in V2. destruct (a_value (f_attr f)) as [v|] eqn:AV; [|discriminate].
    exists (value_image mv ebcdic v f). split; [now apply due_value|]. intros a m x. unfold one. rewrite V1, AV.
    destruct FI as [(_ & _ & _ & FA & FS) _]. apply value_writes_put; [intros l ->; now apply FA|apply FS; congruence].
  - destruct (f_ch f) as [|c r] eqn:EC.
    + split; [|intros; now apply occ_leaf]. destruct (ph_stmt p && _) eqn:PF; [discriminate|].
      rewrite due_leaf, PF by assumption. unfold one.
      replace (if ph_val p then a_value (f_attr f) else None) with (@None value)
        by (unfold has_value in V; destruct (ph_val p), (a_value (f_attr f)); try reflexivity; discriminate).
      rewrite EC. unfold leaf_init_type in T. unfold f_cat in *. rewrite EC in *. destruct (rep_of p _) as [x|] eqn:RE.
      * exists (mv x f). split; [reflexivity|]. intros; reflexivity.
      * destruct (ph_def p); [|discriminate]. exists (default_image mv ebcdic f). split; [reflexivity|]. intros a m x.
        unfold default_image, plain_digits. destruct FI as [(_ & F4 & F8 & _ & _) _].
        unfold leaf_type in T.
        destruct (f_usage f) eqn:EU; 
        try (destruct (F4 EC eq_refl) as [-> ->]; reflexivity); try (destruct (F8 EC eq_refl) as [-> ->]; reflexivity);
        destruct (a_cat (f_attr f)); try discriminate; try reflexivity;
        destruct (d_signsep _); try discriminate; try reflexivity; destruct (ebcdic && _); try discriminate; reflexivity.
    + exfalso. destruct (ity_eqb (itype false c) ONE) eqn:E; [discriminate|]. destruct (forallb _ r); [|discriminate].
      rewrite T in E. discriminate.
Qed.
Lemma compound_group : forall f, f_redef f = false -> itype false f = COMPOUND -> f_ch f <> [] /\ ph_val p && has_value f = false.
Proof.
  intros f R T. rewrite init_type_eq, R in T. cbn [andb] in T. destruct (ph_val p && has_value f); [discriminate|].
  split; [|reflexivity]. intros EC. rewrite EC in T. destruct (ph_stmt p && _); [discriminate|]. unfold leaf_init_type in T.
  destruct (rep_of p _); [discriminate|]. destruct (ph_def p); [|discriminate].
  revert T. destruct (f_usage f), (f_cat f), (leaf_type f); try discriminate; destruct (d_signsep _); try discriminate; destruct (ebcdic && _); discriminate.
Qed.
Lemma default_group : forall f top, redef_ok top f -> itype top f = DEFAULT -> uniform_char f = None ->
  f_ch f <> [] /\ ph_val p && has_value f = false.
Proof.
  intros f top R T U. destruct (group_type _ _ _ T ltac:(discriminate) ltac:(discriminate) R) as [V _]. split; [|exact V].
  intros EC. rewrite init_type_eq, V, EC in T. unfold redef_ok in R. rewrite R in T. destruct (ph_stmt p && _); [discriminate|].
  destruct (leaf_default f EC T) as (_ & _ & c & E & _). congruence.
Qed.

(** ** Geometry *)
Definition wp (f : fld) : Prop := well_placed (erase f).
Definition ext (f : fld) : nat := f_occ f * f_size f.
Lemma erase_off : forall f, p_off (erase f) = f_off f. Proof. intros []; reflexivity. Qed.
Lemma erase_occ : forall f, all_occurrences (erase f) = ext f. Proof. intros []; reflexivity. Qed.
Lemma erase_redef : forall f, d_redef (p_decl (erase f)) = f_redef f. Proof. intros []; reflexivity. Qed.

(** The items of a group in order. *)
Fixpoint seqd (fin : nat) (cs : list fld) : Prop :=
  match cs with
  | [] => True
  | c :: r => wp c /\ f_off c + ext c <= fin /\ (forall q, In q r -> f_redef q = false -> f_off c + ext c <= f_off q) /\ seqd fin r
  end.
Lemma wp_inv : forall a o z ch, wp (Fld a o z ch) ->
  seqd (o + z) ch /\ forall c, In c ch -> wp c /\ o <= f_off c /\ f_off c + ext c <= o + z.
Proof.
  intros a o z ch W. unfold wp in W. cbn [erase] in W. inversion W as [d off size ch' K1 K2]; subst. clear W.
  assert (KC : forall c, In c ch -> wp c /\ o <= f_off c /\ f_off c + ext c <= o + z).
  { intros c I. destruct (K1 (erase c) (in_map erase _ _ I)) as [A [B C]]. rewrite erase_off, erase_occ in *. auto. }
  split; [|exact KC].
  assert (KO : forall i j c q, i < j -> nth_error ch i = Some c -> nth_error ch j = Some q -> f_redef q = false -> f_off c + ext c <= f_off q).
  { intros i j c q L N1 N2 R. specialize (K2 i j (erase c) (erase q) L (map_nth_error erase _ _ N1) (map_nth_error erase _ _ N2)).
    rewrite erase_redef, R, !erase_off, erase_occ in K2. exact K2. }
  clear K1 K2. induction ch as [|c r IH]; [exact I|]. cbn [seqd].
  split; [apply KC; now left|]. split; [apply KC; now left|]. split.
  - intros q I R. apply In_nth_error in I as [j N]. apply (KO 0 (S j) c q); auto. lia.
  - apply IH; [intros; apply KC; now right|]. intros i j c' q L N1 N2 R. apply (KO (S i) (S j) c' q); auto. lia.
Qed.
Lemma mul_room : forall k n z, k < n -> k * z + z <= n * z.
Proof. intros k n z H. replace (k * z + z) with (S k * z) by (cbn; lia). apply Nat.mul_le_mono_r. lia. Qed.
Lemma occ_within : forall f d g e, occurrence s f d g e -> wp f ->
  f_off f + d <= f_off g + e /\ f_off g + e + f_size g <= f_off f + d + f_size f.
Proof.
  intros f d g e O. induction O as [f d|f d c k g e I R K V O IH]; intros W; [lia|].
  destruct f as [a o z ch]. cbn [f_ch f_off f_size] in *. destruct (wp_inv _ _ _ _ W) as [_ KC]. destruct (KC c I) as (W' & A & B).
  destruct (IH W') as [IA IB]. pose proof (mul_room k (f_occ c) (f_size c) K). unfold ext in B. lia.
Qed.

Definition good (f : fld) (d : nat) (ws : list wr) : Prop := forall m, initialized mv ebcdic s f d m (run_all mv ws m).
(** All occurrences of an item. *)
Definition allgood (f : fld) (n d : nat) (ws : list wr) : Prop := forall m, let m' := run_all mv ws m in
  (forall k g e img, k < n -> occurrence s f (d + k * f_size f) g e -> due_ g = Some img -> holds m' (f_off g + e) img) /\
  (forall k g e x, k < n -> occurrence s f (d + k * f_size f) g e -> f_ch g = [] -> due_ g = None ->
     f_off g + e <= x < f_off g + e + f_size g -> m' x = m x) /\
  (forall x, x < f_off f + d \/ f_off f + d + n * f_size f <= x -> m' x = m x).

Lemma rounds_good : forall f body d n, wp f -> (forall e, good f e (body e)) ->
  allgood f n d (flat_map (fun k => body (d + k * f_size f)) (seq 0 n)).
Proof.
  intros f body d n W G. induction n as [|n IH]; intros m.
  - cbn. split; [|split]; intros; try lia.
  - rewrite seq_S, flat_map_app, run_app. cbn [flat_map plus]. rewrite app_nil_r.
    set (m1 := run_all mv (flat_map _ _) m). specialize (IH m). cbv zeta in IH. fold m1 in IH. destruct IH as (IA & IC & IB).
    destruct (G (d + n * f_size f) m1) as (GA & GC & GB). set (m2 := run_all mv (body _) m1) in *.
    assert (MR : S n * f_size f = n * f_size f + f_size f) by (cbn; lia).
    cbv zeta. split; [|split].
    + intros k g e img K O D. destruct (Nat.eq_dec k n) as [->|NE]; [eapply GA; eauto|].
      destruct (occ_within _ _ _ _ O W) as [O1 O2]. pose proof (due_length g img D) as DL. pose proof (mul_room k n (f_size f) ltac:(lia)).
      intros i Hi. rewrite GB by lia. apply (IA k g e img ltac:(lia) O D i Hi).
    + intros k g e x K O L D X. destruct (occ_within _ _ _ _ O W) as [O1 O2]. destruct (Nat.eq_dec k n) as [->|NE].
      * rewrite (GC g e x O L D X). apply IB. lia.
      * pose proof (mul_room k n (f_size f) ltac:(lia)). rewrite GB by lia. eapply IC; eauto. lia.
    + intros x X. rewrite GB by lia. apply IB. lia.
Qed.
Lemma each_good : forall f body d, wp f -> sane f -> (forall e, good f e (body e)) -> allgood f (f_occ f) d (each body f d).
Proof.
  intros f body d W [S1 _] G. unfold each. destruct (a_occurs (f_attr f)); [now apply rounds_good|].
  rewrite (S1 eq_refl). pose proof (rounds_good f body d 1 W G) as R. cbn [seq flat_map Nat.mul] in R. rewrite Nat.add_0_r, app_nil_r in R. exact R.
Qed.

Lemma one_good : forall f top e, wp f -> fine f -> redef_ok top f -> itype top f = ONE -> good f e (one ebcdic p f (f_off f + e)).
Proof.
  intros f top e W FI R T m. destruct (one_due f top FI R T) as [(img & D & RU) OC]. pose proof (due_length f img D) as DL.
  split; [|split].
  - intros g e' img' O D'. destruct (OC _ _ _ O) as [-> ->]. rewrite D in D'. injection D' as <-.
    intros i Hi. rewrite RU. now apply holds_put.
  - intros g e' x O L D'. destruct (OC _ _ _ O) as [-> ->]. congruence.
  - intros x X. rewrite RU. apply put_out. lia.
Qed.

(** ** The items of a group *)
Definition kgood (fin d : nat) (cs : list fld) (ws : list wr) : Prop := forall m, let m' := run_all mv ws m in
  (forall c k g e img, In c cs -> f_redef c = false -> k < f_occ c -> occurrence s c (d + k * f_size c) g e ->
     due_ g = Some img -> holds m' (f_off g + e) img) /\
  (forall c k g e x, In c cs -> f_redef c = false -> k < f_occ c -> occurrence s c (d + k * f_size c) g e ->
     f_ch g = [] -> due_ g = None -> f_off g + e <= x < f_off g + e + f_size g -> m' x = m x) /\
  (forall x, (forall c, In c cs -> f_redef c = false -> x < f_off c + d) \/ fin + d <= x -> m' x = m x).

Lemma occ_item : forall c k d g e, wp c -> k < f_occ c -> occurrence s c (d + k * f_size c) g e ->
  f_off c + d <= f_off g + e /\ f_off g + e + f_size g <= f_off c + ext c + d.
Proof.
  intros c k d g e W K O. destruct (occ_within _ _ _ _ O W). pose proof (mul_room k (f_occ c) (f_size c) K). unfold ext. lia.
Qed.

Lemma kgood_skip : forall fin d c r ws, f_redef c = true \/ (f_redef c = false /\ (forall k g e, occurrence s c k g e -> due_ g = None)) ->
  seqd fin (c :: r) -> kgood fin d r ws -> kgood fin d (c :: r) ws.
Proof.
  intros fin d c r ws H (W & F & OR & _) G m. destruct (G m) as (A & C & B). cbv zeta. split; [|split].
  - intros c' k g e img [<-|I] R K O D; [|eapply A; eauto]. destruct H as [H|[_ H]]; [congruence|]. rewrite (H _ _ _ O) in D. discriminate.
  - intros c' k g e x [<-|I] R K O L D X; [|eapply C; eauto]. apply B. left. intros q I RQ. specialize (OR q I RQ).
    destruct (occ_item _ _ _ _ _ W K O). lia.
  - intros x [X|X]; apply B; [left|now right]. intros q I. apply X. now right.
Qed.
Lemma kgood_item : forall fin d c r w1 w2, f_redef c = false -> seqd fin (c :: r) -> allgood c (f_occ c) d w1 -> kgood fin d r w2 ->
  kgood fin d (c :: r) (w1 ++ w2).
Proof.
  intros fin d c r w1 w2 R (W & F & OR & SR) G1 G2 m. rewrite run_app.
  destruct (G1 m) as (A1 & C1 & B1). set (m1 := run_all mv w1 m) in *. destruct (G2 m1) as (A2 & C2 & B2). set (m2 := run_all mv w2 m1) in *.
  fold (ext c) in B1.
  assert (BE : forall x, x < f_off c + ext c + d -> m2 x = m1 x).
  { intros x X. apply B2. left. intros q I RQ. specialize (OR q I RQ). lia. }
  cbv zeta. split; [|split].
  - intros c' k g e img [<-|I] RC K O D; [|eapply A2; eauto]. destruct (occ_item _ _ _ _ _ W K O). pose proof (due_length g img D).
    intros i Hi. rewrite BE by lia. eapply A1; eauto.
  - intros c' k g e x [<-|I] RC K O L D X.
    + destruct (occ_item _ _ _ _ _ W K O). rewrite BE by lia. eapply C1; eauto.
    + rewrite (C2 c' k g e x I RC K O L D X). apply B1. right. specialize (OR c' I RC).
      assert (W' : wp c').
      { clear - SR I. induction r as [|q r IH]; [contradiction|]. destruct SR as (W & _ & _ & SR). destruct I as [<-|I]; auto. }
      destruct (occ_item _ _ _ _ _ W' K O). lia.
  - intros x X. rewrite B2.
    + apply B1. destruct X as [X|X]; [left; apply X; auto; now left|right; lia].
    + destruct X as [X|X]; [left; intros q I; apply X; now right|now right].
Qed.

(** Runs of items. *)
Lemma nth_repeat_lt : forall (c : Z) n i, i < n -> nth i (repeat c n) 0%Z = c.
Proof. induction n; intros [|i] H; cbn; auto; try lia. apply IHn. lia. Qed.
Fixpoint dropw (j : fld -> bool) (l : list fld) : list fld :=
  match l with g :: r => if j g then dropw j r else l | [] => [] end.
Fixpoint takew (j : fld -> bool) (l : list fld) : list fld :=
  match l with g :: r => if j g then g :: takew j r else [] | [] => [] end.
Lemma drop_take : forall j l, l = takew j l ++ dropw j l.
Proof. induction l as [|g l IH]; [reflexivity|]. cbn. destruct (j g); [cbn; congruence|reflexivity]. Qed.
Lemma take_all : forall j l g, In g (takew j l) -> j g = true.
Proof. induction l as [|x l IH]; intros g I; [contradiction|]. cbn in I. destruct (j x) eqn:E; [|contradiction]. destruct I as [<-|I]; auto. Qed.
Lemma drop_head : forall j l g r, dropw j l = g :: r -> j g = false.
Proof. induction l as [|x l IH]; intros g r E; [discriminate|]. cbn in E. destruct (j x) eqn:J; [eauto|]. now injection E as <- <-. Qed.
Lemma drop_length : forall j l, length (dropw j l) <= length l.
Proof. induction l as [|x l IH]; [auto|]. cbn. destruct (j x); cbn; lia. Qed.

Notation joins_ := (joins ebcdic p).
Lemma kids_skip : forall comp fin d c k cs,
  kids ebcdic p comp fin d (Some (c, k)) cs = kids ebcdic p comp fin d None (dropw (joins_ c k) cs).
Proof.
  intros comp fin d c k. induction cs as [|g cs IH]; [reflexivity|]. cbn [dropw]. destruct (joins_ c k g) eqn:J.
  - rewrite <- IH. cbn [kids]. now rewrite J.
  - cbn [kids]. now rewrite J.
Qed.
Lemma run_end_drop : forall c k fin cs,
  run_end ebcdic p c k fin cs = match dropw (joins_ c k) cs with [] => fin | g :: _ => f_off g end.
Proof. intros c k fin. induction cs as [|g cs IH]; [reflexivity|]. cbn [dropw run_end]. destruct (joins_ c k g); [exact IH|reflexivity]. Qed.
Lemma seqd_app : forall fin a b, seqd fin (a ++ b) -> seqd fin b /\
  forall c, In c a -> wp c /\ f_off c + ext c <= fin /\ (forall q, In q b -> f_redef q = false -> f_off c + ext c <= f_off q).
Proof.
  induction a as [|x a IH]; intros b H; cbn [app] in *; [split; [exact H|contradiction]|].
  destruct H as (W & F & OR & SR). destruct (IH b SR) as [A B]. split; [exact A|].
  intros c [<-|I]; [|auto]. split; [exact W|]. split; [exact F|]. intros q I. apply OR. apply in_or_app. now right.
Qed.
Lemma seqd_in : forall fin cs c, seqd fin cs -> In c cs -> wp c /\ f_off c + ext c <= fin.
Proof. induction cs as [|x cs IH]; intros c H I; [contradiction|]. destruct H as (W & F & _ & SR). destruct I as [<-|I]; auto. Qed.

Lemma kgood_run : forall fin d c r ch ws, f_redef c = false -> seqd fin (c :: r) -> itype false c = DEFAULT ->
  uniform_char c = Some ch ->
  kgood fin d (dropw (joins_ ch (f_cat c)) r) ws ->
  kgood fin d (c :: r) (WFill (f_off c + d) (run_end ebcdic p ch (f_cat c) fin r - f_off c) ch :: ws).
Proof.
  intros fin d c r ch ws R (W & F & OR & SR) T U G m. rewrite run_end_drop.
  set (j := joins_ ch (f_cat c)) in *. set (rest := dropw j r) in *. set (pre := takew j r).
  assert (TA : forall q, In q pre -> j q = true) by (intros q; apply take_all).
  assert (ER : r = pre ++ rest) by apply drop_take.
  assert (HR : forall q l, rest = q :: l -> f_redef q = false).
  { intros q l E. pose proof (drop_head j r q l E) as J. unfold j, joins in J. destruct (f_redef q); [discriminate|reflexivity]. }
  set (fe := match rest with [] => fin | g :: _ => f_off g end). clearbody pre.
  clearbody rest. rewrite ER in SR. destruct (seqd_app _ _ _ SR) as [SQ SP].
  (* the run *)
  assert (RUN : forall q, In q (c :: pre) -> f_redef q = false ->
    wp q /\ f_off c <= f_off q /\ f_off q + ext q <= fe /\ (forall t, In t rest -> f_redef t = false -> f_off q + ext q <= f_off t) /\
    itype false q = DEFAULT /\ uniform_char q = Some ch).
  { intros q [<-|I] RQ.
    - split; [exact W|]. split; [lia|]. split.
      + unfold fe. destruct rest as [|t l] eqn:E; [exact F|]. apply OR; [rewrite ER; apply in_or_app; right; now left|eapply HR; reflexivity].
      + split; [|auto]. intros t I RT. apply OR; [rewrite ER; apply in_or_app; now right|exact RT].
    - destruct (SP q I) as (WQ & FQ & OQ). split; [exact WQ|]. split.
      + specialize (OR q ltac:(rewrite ER; apply in_or_app; now left) RQ). lia.
      + split; [unfold fe; destruct rest as [|t l] eqn:E; [exact FQ|]; apply OQ; [now left|eapply HR; reflexivity]|]. split; [exact OQ|].
        pose proof (TA q I) as J. unfold j, joins in J. rewrite RQ in J. cbn [orb] in J.
        apply andb_true_iff in J as [J _]. apply andb_true_iff in J as [J1 J2]. apply ity_eqb_eq in J1. split; [exact J1|].
        unfold opt_eqb in J2. destruct (uniform_char q); [|discriminate]. apply Z.eqb_eq in J2. now subst. }
  assert (REST : forall t, In t rest -> f_redef t = false -> fe <= f_off t).
  { intros t I RT. unfold fe. destruct rest as [|q l] eqn:E; [contradiction|]. destruct I as [<-|I]; [lia|].
    destruct SQ as (_ & _ & OQ & _). specialize (OQ t I RT). lia. }
  assert (FF : fe <= fin). { unfold fe. destruct rest as [|q l] eqn:E; [lia|]. destruct SQ as (_ & FQ & _). lia. }
  assert (FC : f_off c + ext c <= fe). { apply (RUN c); auto. now left. }
  cbn [run_all fold_left run_wr]. set (m1 := put m _ _). destruct (G m1) as (A2 & C2 & B2). unfold run_all in A2, C2, B2. set (m2 := fold_left _ ws m1) in *.
  assert (IN : forall x, f_off c + d <= x < fe + d -> m1 x = ch).
  { intros x X. unfold m1. rewrite put_in by (rewrite repeat_length; lia). apply nth_repeat_lt. lia. }
  assert (OUT : forall x, x < f_off c + d \/ fe + d <= x -> m1 x = m x).
  { intros x X. apply put_out. rewrite repeat_length. lia. }
  assert (SPLIT : forall q, In q (c :: r) -> In q (c :: pre) \/ In q rest).
  { intros q [<-|I]; [left; now left|]. rewrite ER in I. apply in_app_or in I as [I|I]; [left; now right|now right]. }
  cbv zeta. split; [|split].
  - intros q k g e img I RQ K O D. destruct (SPLIT q I) as [I'|I']; [|eapply A2; eauto].
    destruct (RUN q I' RQ) as (WQ & LQ & EQ & OQ & TQ & UQ).
    destruct (occ_item _ _ _ _ _ WQ K O). destruct (default_due q false (redef_ok_false _ RQ) TQ _ _ _ O) as (DG & _ & DL).
    destruct (f_ch g) eqn:EC; [|rewrite DG in D by discriminate; discriminate].
    rewrite (DL ch UQ eq_refl) in D. injection D as <-. intros i Hi. rewrite repeat_length in Hi.
    rewrite nth_repeat_lt by lia. rewrite B2; [apply IN; lia|]. left. intros t IT RT. specialize (OQ t IT RT). lia.
  - intros q k g e x I RQ K O L D X. destruct (SPLIT q I) as [I'|I'].
    + destruct (RUN q I' RQ) as (WQ & LQ & EQ & OQ & TQ & UQ).
      destruct (default_due q false (redef_ok_false _ RQ) TQ _ _ _ O) as (_ & _ & DL). rewrite (DL ch UQ L) in D. discriminate.
    + rewrite (C2 q k g e x I' RQ K O L D X). apply OUT. right. specialize (REST q I' RQ).
      destruct (seqd_in _ _ _ SQ I') as [WQ _]. destruct (occ_item _ _ _ _ _ WQ K O). lia.
  - intros x X. rewrite B2.
    + apply OUT. destruct X as [X|X]; [left; apply X; auto; now left|right; lia].
    + destruct X as [X|X]; [left; intros q I; apply X; right; rewrite ER; apply in_or_app; now right|now right].
Qed.

Lemma kids_good : forall fin d n cs, length cs <= n ->
  (forall c, In c cs -> everywhere fine c) ->
  (forall c, In c cs -> f_ch c <> [] -> ph_val p && has_value c = false -> forall e, good c e (compound ebcdic p c e)) ->
  seqd fin cs -> kgood fin d cs (kids ebcdic p (fun g e => compound ebcdic p g e) fin d None cs).
Proof.
  intros fin d n. induction n as [|n IH]; intros cs L FI CG SQ.
  - destruct cs; [|cbn in L; lia]. intros m. cbn. split; [|split]; intros; try contradiction. reflexivity.
  - destruct cs as [|c r]; [intros m; cbn; split; [|split]; intros; try contradiction; reflexivity|].
    cbn [length] in L. pose proof SQ as (W & F & OR & SR).
    assert (KR : kgood fin d r (kids ebcdic p (fun g e => compound ebcdic p g e) fin d None r)).
    { apply IH; auto; [lia|intros; apply FI; now right|]. intros c' I. apply CG. now right. }
    assert (FC : fine c). { specialize (FI c (or_introl eq_refl)). now inversion FI. }
    cbn [kids]. destruct (f_redef c) eqn:R.
    { replace (itype false c) with NONE by (rewrite init_type_eq, R; reflexivity). apply kgood_skip; auto. }
    destruct (itype false c) eqn:T.
    + apply kgood_skip; auto. right. split; [exact R|]. intros k g e. apply (none_due c false); auto using redef_ok_false.
    + apply kgood_item; auto. apply each_good; auto; [apply FC|]. intros e. apply (one_good c false e); auto using redef_ok_false.
    + destruct (uniform_char c) as [ch|] eqn:U.
      * apply kgood_run; auto. rewrite kids_skip. set (rest := dropw _ r). pose proof (drop_take (joins_ ch (f_cat c)) r) as ER. fold rest in ER.
        assert (IR : forall q, In q rest -> In q (c :: r)) by (intros q I; right; rewrite ER; apply in_or_app; now right).
        assert (LR : length rest <= length r) by apply drop_length. clearbody rest.
        apply IH; [lia|auto|auto|]. rewrite ER in SR. now apply (seqd_app _ _ _ SR).
      * destruct (default_group c false (redef_ok_false _ R) T U). apply kgood_item; auto. apply each_good; auto; [apply FC|].
        apply CG; auto. now left.
    + destruct (compound_group c R T). apply kgood_item; auto. apply each_good; auto; [apply FC|]. apply CG; auto. now left.
Qed.

Lemma comp_good : forall f, everywhere fine f -> wp f -> f_ch f <> [] -> ph_val p && has_value f = false ->
  forall e, good f e (compound ebcdic p f e).
Proof.
  induction f as [a o z ch IH] using fld_ind'. intros EV W NE V e m. cbn [compound].
  destruct (wp_inv _ _ _ _ W) as [SQ KC]. inversion EV as [? _ FI]; subst. cbn [f_ch] in *. rewrite Forall_forall in IH.
  destruct (kids_good (o + z) e (length ch) ch (Nat.le_refl _) FI) with (m := m) as (A & C & B); [|exact SQ|].
  { intros c I NC VC. apply IH; auto. now apply KC. }
  set (m' := run_all mv _ m) in *. split; [|split].
  - intros g e' img O D. inversion O as [|? ? c k ? ? I R K VP O']; subst; [rewrite due_group in D by auto; discriminate|].
    eapply A; eauto.
  - intros g e' x O L D X. inversion O as [|? ? c k ? ? I R K VP O']; subst; [now destruct (NE L)|]. eapply C; eauto.
  - intros x X. cbn [f_off f_size] in X. apply B. destruct X as [X|X]; [left|right; lia]. intros c I _. destruct (KC c I). lia.
Qed.

(** ** The whole statement *)
Lemma initialize_good : forall hp f d, everywhere fine f -> wp f -> redef_ok true f ->
  (ph_stmt p = false -> ph_val p && has_value f = true -> a_occurs (f_attr f) = false) ->
  (ph_stmt p = false -> hp = false -> a_occurs (f_attr f) = false) ->
  good f d (initialize ebcdic p hp f d).
Proof.
  intros hp f d EV W R Q1 Q2. unfold initialize.
  assert (FI : fine f) by now inversion EV.
  assert (CT : f_ch f <> [] -> ph_val p && has_value f = false -> good f d (compound_top ebcdic p hp f d)).
  { intros NE V. unfold compound_top. destruct (negb (ph_stmt p) && negb hp && a_occurs (f_attr f)) eqn:E.
    - exfalso. apply andb_true_iff in E as [E E3]. apply andb_true_iff in E as [E1 E2].
      apply negb_true_iff in E1, E2. rewrite (Q2 E1 E2) in E3. discriminate.
    - now apply comp_good. }
  destruct (itype true f) eqn:T.
  - intros m. cbn [run_all fold_left]. split; [|split]; auto. intros g e img O D. rewrite (none_due f true R T _ _ _ O) in D. discriminate.
  - now apply (one_good f true).
  - destruct (uniform_char f) as [c|] eqn:U; [|destruct (default_group f true R T U); auto].
    intros m. cbn [run_all fold_left run_wr]. split; [|split].
    + intros g e img O D. destruct (default_due f true R T _ _ _ O) as (DG & _ & DL). destruct (occ_within _ _ _ _ O W).
      destruct (f_ch g) eqn:EC; [|rewrite DG in D by discriminate; discriminate]. rewrite (DL c U eq_refl) in D. injection D as <-.
      intros i Hi. rewrite repeat_length in Hi. rewrite put_in by (rewrite repeat_length; lia). rewrite !nth_repeat_lt by lia. reflexivity.
    + intros g e x O L D. destruct (default_due f true R T _ _ _ O) as (_ & _ & DL). rewrite (DL c U L) in D. discriminate.
    + intros x X. apply put_out. rewrite repeat_length. lia.
  - rewrite init_type_eq in T. unfold redef_ok in R. rewrite R in T.
    destruct (ph_val p && has_value f) eqn:V.
    { exfalso. destruct (ph_stmt p) eqn:PS; [rewrite andb_false_r in T; discriminate|].
      rewrite (Q1 eq_refl eq_refl) in T. discriminate. }
    apply CT; auto. intros EC. rewrite EC in T. destruct (ph_stmt p && _); [discriminate|].
    clear - T. unfold leaf_init_type in T.
    destruct (rep_of p _); [discriminate|]. destruct (ph_def p); [|discriminate].
    revert T. destruct (f_usage f), (f_cat f), (leaf_type f); try discriminate; destruct (d_signsep _); try discriminate; destruct (ebcdic && _); discriminate.
Qed.
End EB.
End MV.
