(** cb_build_field_tree builds the tree that the level numbers describe. *)
From Verif Require Import Base Names SpecNames NamesThm NamesThm2.
Local Open Scope Z_scope.

Section Step.
Variable es : list entry.
Variable ns : list node.
Hypothesis I : inv es ns.
Hypothesis Ne : es <> [].
Variables lv nm : Z.
Let e : entry := (lv, nm).
Hypothesis Lv : 1 <= lv <= 49 \/ lv = 77 \/ lv = 88.
Let f := length es.

Lemma keep_tops : forall ns1, length ns1 = length ns -> ~ is_top lv -> keeps ns ns1 ->
  (forall i, In i (tops ns) -> n_sister (get ns1 i) = n_sister (get ns i)) ->
  forall po, chain (ns1 ++ [mkNode lv nm po None None]) (Some 0%nat) (tops (ns1 ++ [mkNode lv nm po None None])).
Proof.
  intros ns1 L T K S po. set (ns' := ns1 ++ [mkNode lv nm po None None]).
  assert (length ns' = Datatypes.S (length ns)) as L' by (unfold ns'; rewrite app_length; cbn; lia).
  assert (forall i, (i < length ns)%nat -> get ns' i = get ns1 i) as G by (intros; apply get_app1; lia).
  assert (keeps ns ns') as K' by (intros i Hi; rewrite G by assumption; now apply K).
  rewrite (tops_snoc ns ns' L' K'). replace (get ns' (length ns)) with (mkNode lv nm po None None).
  2:{ rewrite <- L. symmetry. apply get_app2. }
  cbn [n_level]. destruct (top lv) eqn:E; [apply top_ok in E; contradiction|]. rewrite app_nil_r.
  apply chain_same with (ns := ns).
  - apply (iv_tops _ _ I). intros H. pose proof (iv_len _ _ I) as H'. rewrite H in H'.
    destruct es; [congruence|discriminate].
  - intros i Hi. pose proof (proj1 (tops_in _ _ I i) Hi) as [H _]. rewrite <- (iv_len _ _ I) in H.
    rewrite G by assumption. now apply S.
Qed.

Lemma keep_kids : forall ns1 po p, length ns1 = length ns -> keeps ns ns1 -> (p < length ns)%nat ->
  (ordb lv = false \/ po <> Some p) ->
  n_child (get ns1 p) = n_child (get ns p) ->
  (forall i, In i (kids ns p) -> n_sister (get ns1 i) = n_sister (get ns i)) ->
  chain (ns1 ++ [mkNode lv nm po None None]) (n_child (get ns1 p)) (kids (ns1 ++ [mkNode lv nm po None None]) p).
Proof.
  intros ns1 po p L K Lp Np Cp S. set (ns' := ns1 ++ [mkNode lv nm po None None]).
  assert (length ns' = Datatypes.S (length ns)) as L' by (unfold ns'; rewrite app_length; cbn; lia).
  assert (forall i, (i < length ns)%nat -> get ns' i = get ns1 i) as G by (intros; apply get_app1; lia).
  assert (keeps ns ns') as K' by (intros i Hi; rewrite G by assumption; now apply K).
  rewrite (kids_snoc ns ns' p L' K'). replace (get ns' (length ns)) with (mkNode lv nm po None None).
  2:{ rewrite <- L. symmetry. apply get_app2. }
  replace (kid_of (mkNode lv nm po None None) p) with false.
  2:{ unfold kid_of. cbn [n_level n_parent]. destruct Np as [-> | Np]; [reflexivity|].
      destruct po as [q|]; [|now rewrite andb_false_r]. destruct (Nat.eqb_spec q p); [congruence|now rewrite andb_false_r]. }
  rewrite app_nil_r, Cp. pose proof (iv_len _ _ I) as Ln. apply chain_same with (ns := ns).
  - apply (iv_kids _ _ I). lia.
  - intros i Hi. pose proof (proj1 (kids_in _ _ I p i) Hi) as [H _]. apply parent_lt in H.
    rewrite G by lia. now apply S.
Qed.

(** 66-... : a new record. *)
Lemma step_top : is_top lv -> forall c, before es c ->
  inv (es ++ [e]) (set_sister ns (founder f ns c) f ++ [mkNode lv nm None None None]).
Proof.
  intros T c (Lc & Cc & Ac). pose proof (iv_len _ _ I) as Ln.
  destruct (founder_spec es ns I f c Lc Lc Cc) as (F1 & F2 & F3).
  { intros j Hj. specialize (Ac j Hj). unfold is_top, is_cond in *. lia. }
  set (t := founder f ns c) in *. set (ns1 := set_sister ns t f).
  assert (ordb lv = true) as Ol by (unfold ordb, is_top in *; lia).
  assert (top lv = true) as Tl by now apply top_ok.
  apply inv_snoc with (ns := ns); auto.
  - apply set_sister_len.
  - apply keeps_sister.
  - apply valid_snoc; auto.
    + apply (iv_valid _ _ I).
    + intros p P _. destruct P as (_ & P & _). fold e in P.
      change (length es) with f in P. unfold f, e in P. rewrite level_app2 in P. contradiction.
  - intros p Lp. apply keep_kids; [apply set_sister_len|apply keeps_sister|assumption| | |].
    + right. discriminate.
    + unfold ns1, set_sister. destruct (Nat.eq_dec t p) as [-> | H].
      * rewrite put_same by assumption. reflexivity.
      * now rewrite put_other.
    + intros i Hi. unfold ns1, set_sister. rewrite put_other; [reflexivity|]. intros ->.
      apply (kids_in _ _ I) in Hi. destruct Hi as [(_ & Hi & _) _]. contradiction.
  - set (ns' := ns1 ++ [mkNode lv nm None None None]).
    assert (length ns1 = length ns) as L1 by apply set_sister_len.
    assert (length ns' = Datatypes.S (length ns)) as L' by (unfold ns'; rewrite app_length; cbn; lia).
    assert (forall i, (i < length ns)%nat -> get ns' i = get ns1 i) as G by (intros; apply get_app1; lia).
    assert (keeps ns ns') as K' by (intros i Hi; rewrite G by assumption; now apply keeps_sister).
    assert (get ns' (length ns) = mkNode lv nm None None None) as Gf by (rewrite <- L1; apply get_app2).
    rewrite (tops_snoc ns ns' L' K'), Gf. cbn [n_level]. rewrite Tl.
    assert (Sorted lt (tops ns)) as ST by apply filter_seq_sorted.
    destruct (sorted_last (tops ns) t ST) as [l El].
    { apply (tops_in _ _ I). auto. }
    { intros y Hy. apply (tops_in _ _ I) in Hy. destruct Hy as [Hy1 Hy2].
      destruct (le_lt_dec y t); [assumption|]. elim (F3 y); [lia|assumption]. }
    pose proof (filter_seq_nodup (fun i => top (n_level (get ns i))) (length ns) 0) as ND.
    fold (tops ns) in ND.
    assert (chain ns (Some 0%nat) (tops ns)) as CT.
    { apply (iv_tops _ _ I). intros H. rewrite H in Ln. cbn in Ln. lia. }
    rewrite El in *. rewrite <- app_assoc. cbn [app].
    assert (length ns = f) as Lnf by (unfold f; lia). rewrite Lnf in Gf |- *.
    apply chain_snoc with (ns := ns); auto.
    + intros i Hi. assert (In i (tops ns)) as Hi' by (rewrite El; apply in_or_app; now left).
      apply (tops_in _ _ I) in Hi'. rewrite G by (unfold f; lia). unfold ns1, set_sister.
      rewrite put_other; [reflexivity|]. intros ->. apply NoDup_remove_2 in ND. rewrite app_nil_r in ND. contradiction.
    + rewrite G by (unfold f; lia). unfold ns1, set_sister. rewrite put_same by lia. reflexivity.
    + now rewrite Gf.
Qed.

Lemma level_f : level (es ++ [e]) f = lv.
Proof. unfold f, e. now rewrite level_app2. Qed.

(** A condition name. *)
Lemma step_cond : lv = 88 -> forall c, before es c ->
  inv (es ++ [e]) (ns ++ [mkNode lv nm (Some c) None None]).
Proof.
  intros E c (Lc & Cc & Ac). pose proof (iv_len _ _ I) as Ln.
  assert (~ is_top lv) as T by (unfold is_top; lia).
  apply inv_snoc with (ns := ns); auto using keeps_refl.
  - unfold parent_of. fold e. fold f. rewrite level_f, app_length. cbn [length].
    rewrite (level_app1 es e c) by assumption.
    refine (conj _ (conj T (conj Lc (conj Cc (conj (or_introl E) _))))); [unfold f; lia|].
    intros j Hj Hc. rewrite level_app1 in Hc by (unfold f in *; lia). elim Hc. apply Ac. exact Hj.
  - apply valid_snoc; auto.
    + apply (iv_valid _ _ I).
    + intros; contradiction.
    + intros; contradiction.
  - intros p Lp. apply keep_kids; auto using keeps_refl. left. unfold ordb. lia.
  - apply keep_tops; auto using keeps_refl.
Qed.

(** The first part of a group. *)
Lemma step_lower : 2 <= lv <= 49 -> forall c, before es c -> level es c < lv ->
  inv (es ++ [e]) (set_child ns c f ++ [mkNode lv nm (Some c) None None]).
Proof.
  intros V c (Lc & Cc & Ac) Lt. pose proof (iv_len _ _ I) as Ln.
  assert (~ is_top lv) as T by (unfold is_top; lia).
  assert (depth (level es c) = level es c) as Dc by (unfold depth; destruct (Z.eqb_spec (level es c) 77); lia).
  set (ns1 := set_child ns c f).
  assert (parent_of (es ++ [e]) f c) as Pf.
  { unfold parent_of. rewrite level_f, app_length. cbn [length]. rewrite (level_app1 es e c) by assumption.
    refine (conj _ (conj T (conj Lc (conj Cc (conj (or_intror _) _))))); [unfold f; lia|lia|].
    intros j Hj Hc. rewrite level_app1 in Hc by (unfold f in *; lia). elim Hc. apply Ac. exact Hj. }
  assert (forall i, parent_of es i c -> ~ is_cond (level es i) -> False) as No.
  { intros i Hi Ci. apply Ci. apply Ac. apply parent_lt in Hi. exact Hi. }
  apply inv_snoc with (ns := ns); auto.
  - apply set_child_len.
  - apply keeps_child.
  - apply valid_snoc; auto.
    + apply (iv_valid _ _ I).
    + intros H; contradiction.
    + intros p P _. rewrite (parent_unique _ _ _ _ P Pf). split; [lia|].
      intros j Hj Cj. elim (No j Hj Cj).
  - intros p Lp. destruct (Nat.eq_dec p c) as [-> | H].
    + set (ns' := ns1 ++ [mkNode lv nm (Some c) None None]).
      assert (length ns1 = length ns) as L1 by apply set_child_len.
      assert (length ns' = Datatypes.S (length ns)) as L' by (unfold ns'; rewrite app_length; cbn; lia).
      assert (forall i, (i < length ns)%nat -> get ns' i = get ns1 i) as G by (intros; apply get_app1; lia).
      assert (keeps ns ns') as K' by (intros i Hi; rewrite G by assumption; now apply keeps_child).
      assert (get ns' (length ns) = mkNode lv nm (Some c) None None) as Gf by (rewrite <- L1; apply get_app2).
      rewrite (kids_snoc ns ns' c L' K'), Gf.
      replace (kids ns c) with (@nil nat).
      2:{ destruct (kids ns c) as [|x r] eqn:Ek; [reflexivity|].
          assert (In x (kids ns c)) as Hx by (rewrite Ek; now left).
          apply (kids_in _ _ I) in Hx. destruct Hx as [H1 H2]. elim (No x H1 H2). }
      unfold kid_of. cbn [n_level n_parent]. rewrite Nat.eqb_refl.
      replace (ordb lv) with true by (unfold ordb; lia). cbn [andb app].
      unfold ns1 at 1, set_child. rewrite put_same by lia. cbn [n_child].
      assert (length ns = f) as Lnf by (unfold f; lia). rewrite Lnf in Gf |- *. constructor. rewrite Gf. constructor.
    + apply keep_kids; [apply set_child_len|apply keeps_child|assumption| | |].
      * right. congruence.
      * unfold ns1, set_child. now rewrite put_other by congruence.
      * intros i Hi. unfold ns1, set_child. destruct (Nat.eq_dec c i) as [-> | Hn].
        -- rewrite put_same by lia. reflexivity.
        -- now rewrite put_other.
  - apply keep_tops; [apply set_child_len|assumption|apply keeps_child|].
    intros i Hi. unfold ns1, set_child. destruct (Nat.eq_dec c i) as [-> | Hn].
    + rewrite put_same by lia. reflexivity.
    + now rewrite put_other.
Qed.

(** Another part of a group. *)
Lemma step_same : 2 <= lv <= 49 -> forall p, (p < length es)%nat -> level es p = lv ->
  (forall j, (p < j < length es)%nat -> ~ is_cond (level es j) -> lv < depth (level es j)) ->
  inv (es ++ [e]) (set_sister ns p f ++ [mkNode lv nm (n_parent (get ns p)) None None]).
Proof.
  intros V p Lp Ep Ap. pose proof (iv_len _ _ I) as Ln.
  assert (~ is_top lv) as T by (unfold is_top; lia).
  assert (~ is_cond (level es p)) as Cp by (unfold is_cond; lia).
  pose proof (iv_par _ _ I p Lp) as P. destruct (n_parent (get ns p)) as [q|] eqn:Eq.
  2:{ rewrite Ep in P. contradiction. }
  set (ns1 := set_sister ns p f).
  pose proof P as (_ & _ & Lq & Cq & [Dq | Dq] & Bq); [contradiction|].
  assert (parent_of (es ++ [e]) f q) as Pf.
  { unfold parent_of. rewrite level_f, app_length. cbn [length]. rewrite (level_app1 es e q) by lia.
    refine (conj _ (conj T (conj _ (conj Cq (conj (or_intror _) _))))); [unfold f; lia|unfold f; lia|lia|].
    intros j Hj Hc. rewrite level_app1 in * by (unfold f in *; lia).
    split; [unfold is_cond; lia|].
    destruct (lt_eq_lt_dec j p) as [[H | H] | H].
    - destruct (Bq j (conj (proj1 Hj) H) Hc). lia.
    - subst j. unfold depth. destruct (Z.eqb_spec (level es p) 77); lia.
    - specialize (Ap j (conj H (proj2 Hj)) Hc). lia. }
  assert (kids ns p = kids ns p /\ In p (kids ns q)) as [_ Iq].
  { split; [reflexivity|]. apply (kids_in _ _ I). auto. }
  apply inv_snoc with (ns := ns); auto.
  - apply set_sister_len.
  - apply keeps_sister.
  - apply valid_snoc; auto.
    + apply (iv_valid _ _ I).
    + intros H; contradiction.
    + intros p' P' _. rewrite (parent_unique _ _ _ _ P' Pf). split.
      * apply (v_77 _ (iv_valid _ _ I) p q P Cp).
      * intros j Hj Cj. rewrite <- Ep. apply (v_parts _ (iv_valid _ _ I) j p q Hj P Cj Cp).
  - intros r Lr. destruct (Nat.eq_dec r q) as [-> | H].
    + set (ns' := ns1 ++ [mkNode lv nm (Some q) None None]).
      assert (length ns1 = length ns) as L1 by apply set_sister_len.
      assert (length ns' = Datatypes.S (length ns)) as L' by (unfold ns'; rewrite app_length; cbn; lia).
      assert (forall i, (i < length ns)%nat -> get ns' i = get ns1 i) as G by (intros; apply get_app1; lia).
      assert (keeps ns ns') as K' by (intros i Hi; rewrite G by assumption; now apply keeps_sister).
      assert (get ns' (length ns) = mkNode lv nm (Some q) None None) as Gf by (rewrite <- L1; apply get_app2).
      rewrite (kids_snoc ns ns' q L' K'), Gf.
      unfold kid_of. cbn [n_level n_parent]. rewrite Nat.eqb_refl.
      replace (ordb lv) with true by (unfold ordb; lia). cbn [andb].
      assert (n_child (get ns1 q) = n_child (get ns q)) as ->.
      { unfold ns1, set_sister. rewrite put_other by lia. reflexivity. }
      assert (Sorted lt (kids ns q)) as SK by apply filter_seq_sorted.
      destruct (sorted_last (kids ns q) p SK Iq) as [l El].
      { intros y Hy. apply (kids_in _ _ I) in Hy. destruct Hy as [Hy1 Hy2].
        destruct (le_lt_dec y p) as [|Hlt]; [assumption|exfalso]. pose proof (parent_lt _ _ _ Hy1) as Ly.
        destruct Hy1 as (_ & _ & _ & _ & _ & By). destruct (By p (conj Lq Hlt) Cp) as [_ B2].
        specialize (Ap y (conj Hlt (proj2 Ly)) Hy2).
        assert (depth (level es p) = lv) as Hd by (unfold depth; rewrite Ep; destruct (Z.eqb_spec lv 77); lia).
        assert (depth (level es y) <= level es y).
        { unfold depth. destruct (Z.eqb_spec (level es y) 77); lia. }
        lia. }
      assert (NoDup (kids ns q)) as ND by apply filter_seq_nodup.
      assert (chain ns (n_child (get ns q)) (kids ns q)) as CK by (apply (iv_kids _ _ I); lia).
      rewrite El in *. rewrite <- app_assoc. cbn [app].
      assert (length ns = f) as Lnf by (unfold f; lia). rewrite Lnf in Gf |- *.
      apply chain_snoc with (ns := ns); auto.
      * intros i Hi. assert (In i (kids ns q)) as Hi' by (rewrite El; apply in_or_app; now left).
        apply (kids_in _ _ I) in Hi'. destruct Hi' as [Hi' _]. apply parent_lt in Hi'.
        rewrite G by (unfold f; lia). unfold ns1, set_sister.
        rewrite put_other; [reflexivity|]. intros ->. apply NoDup_remove_2 in ND. rewrite app_nil_r in ND. contradiction.
      * rewrite G by (unfold f; lia). unfold ns1, set_sister. rewrite put_same by lia. reflexivity.
      * now rewrite Gf.
    + apply keep_kids; [apply set_sister_len|apply keeps_sister|assumption| | |].
      * right. congruence.
      * unfold ns1, set_sister. destruct (Nat.eq_dec p r) as [-> | Hn].
        -- rewrite put_same by lia. reflexivity.
        -- now rewrite put_other.
      * intros i Hi. unfold ns1, set_sister. rewrite put_other; [reflexivity|]. intros ->.
        apply (kids_in _ _ I) in Hi. destruct Hi as [Hi _]. apply H. exact (parent_unique _ _ _ _ Hi P).
  - apply keep_tops; [apply set_sister_len|assumption|apply keeps_sister|].
    intros i Hi. unfold ns1, set_sister. rewrite put_other; [reflexivity|]. intros ->.
    apply (tops_in _ _ I) in Hi. rewrite Ep in Hi. now destruct Hi.
Qed.

Lemma invalid_parent : forall p, 2 <= lv <= 49 -> parent_of (es ++ [e]) f p ->
  level es p = 77 \/ (exists y, parent_of es y p /\ ~ is_cond (level es y) /\ level es y <> lv) ->
  ~ valid (es ++ [e]).
Proof.
  intros p V P H W. pose proof (parent_lt _ _ _ P) as L. unfold f in L.
  assert (~ is_cond (level (es ++ [e]) f)) as Cf by (rewrite level_f; unfold is_cond; lia).
  destruct H as [H | (y & Py & Cy & Ny)].
  - apply (v_77 _ W f p P Cf). now rewrite level_app1 by lia.
  - pose proof (parent_lt _ _ _ Py) as Ly. apply Ny.
    rewrite <- (level_app1 es e y) by lia. rewrite <- level_f.
    apply (v_parts _ W y f p); auto.
    + apply parent_app1; [lia|exact Py].
    + now rewrite level_app1 by lia.
Qed.
Lemma parent_f : forall c, 2 <= lv <= 49 -> (c < length es)%nat -> ~ is_cond (level es c) ->
  depth (level es c) < lv ->
  (forall j, (c < j < length es)%nat -> ~ is_cond (level es j) -> lv < depth (level es j)) ->
  parent_of (es ++ [e]) f c.
Proof.
  intros c V Lc Cc Dc Ac. unfold parent_of. rewrite level_f, app_length. cbn [length].
  rewrite (level_app1 es e c) by assumption.
  refine (conj _ (conj _ (conj Lc (conj Cc (conj (or_intror Dc) _))))).
  - unfold f; lia.
  - unfold is_top; lia.
  - intros j Hj Hc. rewrite level_app1 in * by (unfold f in *; lia). split; [unfold is_cond; lia|].
    specialize (Ac j Hj Hc). lia.
Qed.

Lemma step_some : lv <> 66 -> lv <> 78 ->
  match add_field ns (Some (length es - 1)%nat) lv nm with
  | Ok (Some ns') => inv (es ++ [e]) ns'
  | Ok None => ~ valid (es ++ [e])
  | _ => False
  end.
Proof.
  intros N66 N78. pose proof (iv_len _ _ I) as Ln.
  assert (length es <> 0)%nat as Nz by (destruct es; [congruence|discriminate]).
  unfold add_field. rewrite Ln. fold f.
  replace ((lv =? 66) || (lv =? 78)) with false by lia.
  replace (negb ((lv =? 77) || (lv =? 88) || (1 <=? lv) && (lv <=? 49))) with false by lia.
  cbv beta iota zeta.
  pose proof (last_ord es ns I Ne) as LO. cbv zeta in LO. change (f - 1)%nat with (length es - 1)%nat. set (l0 := (length es - 1)%nat) in *.
  assert (l0 < length es)%nat as L0 by (unfold l0; lia).
  destruct LO as (c & -> & B). rewrite (iv_lev _ _ I l0 L0).
  destruct ((level es l0 =? 77) && negb (top lv) && negb (lv =? 88)) eqn:E77.
  - assert (~ is_top lv) as T by (intros T; apply top_ok in T; rewrite T in E77; cbn in E77; rewrite andb_false_r in E77; discriminate).
    assert (level es l0 = 77 /\ lv <> 88) as [E1 E2] by lia.
    assert (2 <= lv <= 49) as V by (unfold is_top in T; lia).
    apply invalid_parent with (p := l0); auto.
    apply parent_f; auto.
    + unfold is_cond; lia.
    + unfold depth. rewrite E1. cbn. lia.
    + intros j Hj. unfold l0 in Hj. lia.
  - destruct (top lv) eqn:Tl; [apply step_top; [now apply top_ok|exact B]|].
    assert (~ is_top lv) as T by (intros T; apply top_ok in T; congruence).
    destruct (Z.eqb_spec lv 88) as [E88 | N88]; [now apply step_cond|].
    assert (2 <= lv <= 49) as V by (unfold is_top in T; lia).
    pose proof B as (Lc & Cc & Ac). rewrite (iv_lev _ _ I c Lc).
    assert (forall j, (c < j < length es)%nat -> ~ is_cond (level es j) -> lv < depth (level es j)) as Ac'.
    { intros j Hj Hc. elim Hc. now apply Ac. }
    destruct (Z.ltb_spec (level es c) lv) as [H1 | H1]; [now apply step_lower|].
    destruct (Z.eqb_spec (level es c) lv) as [H2 | H2]; [now apply step_same|].
    destruct (Z.eq_dec (level es c) 77) as [H3 | H3].
    + assert (climb f ns c lv = None) as ->.
      { assert (exists k, f = Datatypes.S k) as [k ->] by (exists (length es - 1)%nat; unfold f; lia). cbn [climb]. pose proof (iv_par _ _ I c Lc) as P.
        destruct (n_parent (get ns c)) as [q|]; [|reflexivity].
        destruct P as (_ & P & _). elim P. right. exact H3. }
      apply invalid_parent with (p := c); auto. apply parent_f; auto. rewrite H3. unfold depth. cbn. lia.
    + assert (deeper es c lv) as Dc.
      { intros j Hj Hc. destruct (Nat.eq_dec j c) as [-> | Hn].
        - unfold depth. destruct (Z.eqb_spec (level es c) 77); lia.
        - apply Ac'; [lia|exact Hc]. }
      pose proof (climb_spec es ns I lv V f c Lc Lc Cc H3 Dc) as C.
      destruct (climb f ns c lv) as [p|].
      * destruct C as (C1 & C2 & C3). now apply step_same.
      * destruct C as (p & y & C1 & C2 & C3 & C4 & C5 & C6 & C7).
        apply invalid_parent with (p := p); auto.
        -- apply parent_f; auto. lia.
        -- right. exists y. refine (conj C4 (conj C5 _)). lia.
Qed.
End Step.
