From Verif Require Import Base Names SpecNames NamesThm NamesThm2 NamesThm3 NamesThm4 NamesThm5.
Local Open Scope Z_scope.

(** The program's names. *)
Section Prog.
Variable secs : list (option nat * list entry).
Variable others : list (Z * thing).
Variable g : prog.
Hypothesis Hg : compile secs others = Ok (Some g).
Hypothesis Hlev : forall f es, In (f, es) secs -> forall x, In x es -> fst x <> 66 /\ fst x <> 78.
Hypothesis Hoth : forall n v, In (n, v) others -> forall s i, v <> TItem s i.
Hypothesis Hnd : NoDup others.
(** The name of a file names nothing else. *)
Hypothesis Hfile : forall q f, In (q, TFile f) others ->
  (forall v, In (q, v) others -> v = TFile f) /\
  (forall f' es i, In (f', es) secs -> (i < length es)%nat -> named es i <> q).

Definition file_named (f : option nat) (q : Z) : Prop := exists k, f = Some k /\ In (q, TFile k) others.
Definition means (n : Z) (c : list Z) (v : thing) : Prop :=
  match v with
  | TItem s i => exists f es, nth_error secs s = Some (f, es) /\ (i < length es)%nat /\
                   named es i = n /\ can_mean es (file_named f) i c
  | _ => In (n, v) others /\ c = []
  end.

Lemma prog_words : g_words g = others ++ data_words 0 secs.
Proof.
  unfold compile in Hg. destruct (build_all secs) as [[ss|]| |]; cbn [obind] in Hg; try discriminate.
  now injection Hg as <-.
Qed.
Lemma prog_secs : forall s f es, nth_error secs s = Some (f, es) ->
  exists ns, inv es ns /\ sec g s = (f, ns).
Proof.
  intros s f es H. unfold compile in Hg.
  destruct (build_all secs) as [[ss|]| |] eqn:B; cbn [obind] in Hg; try discriminate.
  destruct (build_all_nth secs ss B s f es H) as (ns & E1 & E2).
  exists ns. injection Hg as <-. split; [|exact E2].
  pose proof (build_inv es (Hlev f es (nth_error_In _ _ H))) as I. now rewrite E1 in I.
Qed.
Lemma items_nodup : forall n, NoDup (items g n).
Proof.
  intros n. unfold items. apply map_snd_nodup. rewrite prog_words.
  assert (forall a b : list (Z * thing), NoDup a -> NoDup b -> (forall x, In x a -> ~ In x b) -> NoDup (a ++ b)) as ND.
  { induction a as [|x a IHa]; intros b Na Nb D; [exact Nb|]. cbn [app]. inversion Na; subst. constructor.
    - rewrite in_app_iff. intros [H | H]; [contradiction|]. apply (D x); [now left|exact H].
    - apply IHa; auto. intros y Hy. apply D. now right. }
  apply ND; [exact Hnd|apply data_words_nodup|]. intros [m v] H1 H2.
  apply data_words_in in H2. destruct H2 as (k & f & es & j & _ & _ & _ & E). exact (Hoth m v H1 _ _ E).
Qed.
Lemma word_in : forall n v, In (n, v) (g_words g) <->
  In (n, v) others \/ exists s f es i, nth_error secs s = Some (f, es) /\ (i < length es)%nat /\ named es i = n /\ v = TItem s i.
Proof. intros n v. rewrite prog_words, in_app_iff, data_words_in. reflexivity. Qed.

Lemma file_items : forall q k, (exists r, items g q = r /\ r = [TFile k]) <-> In (q, TFile k) others.
Proof.
  intros q k. split.
  - intros (r & H & ->). assert (In (TFile k) (items g q)) as I by (rewrite H; now left).
    apply items_in, word_in in I. destruct I as [I | (s & f & es & i & _ & _ & _ & E)]; [exact I|discriminate].
  - intros H. destruct (Hfile q k H) as [F1 F2]. eexists. split; [reflexivity|].
    apply single_list; [apply items_nodup|]. intros y. rewrite items_in, word_in. split.
    + intros [Hy | (s & f & es & i & Hs & L & Hn & _)]; [now apply F1|].
      elim (F2 f es i (nth_error_In _ _ Hs) L Hn).
    + intros ->. now left.
Qed.

Lemma fits_item : forall s f es i c, nth_error secs s = Some (f, es) -> (i < length es)%nat ->
  (left_over g (TItem s i) c = [] <-> can_mean es (file_named f) i c).
Proof.
  intros s f es i c Hs L. destruct (prog_secs s f es Hs) as (ns & I & E).
  unfold left_over. rewrite E. cbn [fst snd]. rewrite by_parents_greedy.
  set (ab := above (length ns) ns (n_parent (get ns i))).
  assert (owners es i ab) as Ho by (apply above_owners; [exact I|rewrite (iv_len _ _ I); exact L|exact L]).
  split.
  - intros H. exists ab. split; [exact Ho|]. destruct (greedy c ab) as [|q [|q' r]] eqn:G.
    + left. now apply greedy_some.
    + right. destruct (greedy_suffix ab c) as (d & Ed & Sd). rewrite G in Ed. exists d, q.
      split; [exact Ed|]. split; [|exact Sd].
      destruct (items g q) as [|[s' i'|k|k] [|x l]] eqn:Ei; try discriminate.
      destruct f as [f'|]; [|discriminate]. destruct (Nat.eqb_spec k f') as [-> | Hn]; [|discriminate].
      exists f'. split; [reflexivity|]. apply file_items. eauto.
    + discriminate.
  - intros (l & Hl & H). rewrite <- (owners_unique _ _ _ Ho _ Hl) in H.
    destruct H as [H | (c' & q & -> & (k & Hk & Hq) & H)].
    + apply greedy_some in H. now rewrite H.
    + apply greedy_some in H. destruct (greedy_app ab c' [q] H) as [-> | (e & Ne & -> & (d & Ed))]; [reflexivity|].
      destruct d as [|a d].
      * cbn [app] in Ed. subst e. apply file_items in Hq. destruct Hq as (r & -> & ->).
        rewrite Hk, Nat.eqb_refl. reflexivity.
      * destruct d, e; try congruence; discriminate.
Qed.

Lemma fits_means : forall n c v, In v (filter (fits g c) (items g n)) <-> means n c v.
Proof.
  intros n c v. rewrite filter_In, items_in, word_in. unfold fits. split.
  - intros ([H | (s & f & es & i & Hs & L & Hn & ->)] & F).
    + destruct v as [s i|k|k].
      * elim (Hoth n _ H s i eq_refl).
      * cbn [left_over] in F. destruct c; [now split|discriminate].
      * cbn [left_over] in F. destruct c; [now split|discriminate].
    + exists f, es. refine (conj Hs (conj L (conj Hn _))). apply (fits_item s f es i c Hs L).
      destruct (left_over g (TItem s i) c); [reflexivity|discriminate].
  - intros H. destruct v as [s i|k|k]; cbn [means] in H.
    + destruct H as (f & es & Hs & L & Hn & Hc). split; [right; exists s, f, es, i; auto|].
      apply (fits_item s f es i c Hs L) in Hc. now rewrite Hc.
    + destruct H as [H ->]. split; [now left|reflexivity].
    + destruct H as [H ->]. split; [now left|reflexivity].
Qed.

Lemma resolve_three : forall n c,
  match resolve g n c with
  | Undefined => forall v, ~ means n c v
  | Found v => means n c v /\ forall w, means n c w -> w = v
  | Ambiguous => exists v w, v <> w /\ means n c v /\ means n c w
  end.
Proof.
  intros n c. unfold resolve. rewrite scan_filter.
  pose proof (three thing (means n c) (filter (fits g c) (items g n)) (NoDup_filter _ (items_nodup n)) (fits_means n c)) as T.
  destruct (filter (fits g c) (items g n)) as [|v [|w r]]; exact T.
Qed.
End Prog.

(** *** Labels *)
Definition labels (l : list proc) : list label := map (fun x => mkLabel (fst x) (snd x)) l.
Lemma lget_nth : forall l i n s, nth_error l i = Some (n, s) -> lget (labels l) i = mkLabel n s.
Proof.
  intros l i n s H. unfold lget, labels. change (mkLabel 0 None) with ((fun x => mkLabel (fst x) (snd x)) (0, @None nat)).
  rewrite map_nth. now rewrite (nth_error_nth _ _ _ H).
Qed.
Definition ownb (ls : list label) (cur : option nat) (u : nat) : bool :=
  match l_section (lget ls u), cur with Some a, Some b => Nat.eqb a b | _, _ => false end.
Definition ofb (ls : list label) (q : Z) (u : nat) : bool :=
  match l_section (lget ls u) with Some b => q =? l_name (lget ls b) | None => false end.
Definition pick (l : list nat) : found :=
  match l with [] => Undefined | [v] => Found (TOther v) | _ => Ambiguous end.

Lemma filter_none : forall (A : Type) (f : A -> bool) l, existsb f l = false -> filter f l = [].
Proof.
  induction l as [|a l IH]; intros H; [reflexivity|]. cbn [existsb filter] in *.
  apply orb_false_iff in H. destruct H as [-> H]. now apply IH.
Qed.
Lemma filter_some : forall (A : Type) (f : A -> bool) l, existsb f l = true -> filter f l <> [].
Proof.
  intros A f l H E. apply existsb_exists in H. destruct H as (x & H1 & H2).
  assert (In x (filter f l)) as I by (apply filter_In; auto). now rewrite E in I.
Qed.
Definition rest_of (cand : option nat) (amb : bool) (l : list nat) : found :=
  match cand with
  | None => pick l
  | Some v => match l with [] => if amb then Ambiguous else Found (TOther v) | _ => Ambiguous end
  end.
Lemma scan_own : forall ls cur vs cand amb, (cand = None -> amb = false) ->
  label_scan ls vs [] cur cand amb =
  if existsb (ownb ls cur) vs then pick (filter (ownb ls cur) vs) else rest_of cand amb vs.
Proof.
  intros ls cur vs. induction vs as [|v r IH]; intros cand amb Ha.
  - cbn [label_scan existsb]. destruct cand; cbn [rest_of pick]; reflexivity.
  - cbn [label_scan existsb filter].
    assert ((match cur, l_section (lget ls v) with Some a, Some b => (a =? b)%nat | _, _ => false end) = ownb ls cur v) as ->.
    { unfold ownb. destruct cur as [a|], (l_section (lget ls v)) as [b|]; try reflexivity. apply Nat.eqb_sym. }
    change (existsb (fun u => match l_section (lget ls u) with
                              | Some a => match cur with Some b => (a =? b)%nat | None => false end
                              | None => false end) r) with (existsb (ownb ls cur) r).
    destruct (ownb ls cur v); cbn [orb].
    + destruct (existsb (ownb ls cur) r) eqn:X.
      * pose proof (filter_some _ _ _ X) as Nf. destruct (filter (ownb ls cur) r); [congruence|reflexivity].
      * now rewrite (filter_none _ _ _ X).
    + destruct cand as [w|]; rewrite IH by congruence.
      * destruct (existsb (ownb ls cur) r) eqn:X; [reflexivity|]. cbn [rest_of]. now destruct r.
      * destruct (existsb (ownb ls cur) r) eqn:X; [reflexivity|]. rewrite (Ha eq_refl). cbn [rest_of pick]. now destruct r.
Qed.
Lemma scan_of : forall ls cur q vs cand amb, (cand = None -> amb = false) ->
  label_scan ls vs [q] cur cand amb = rest_of cand amb (filter (ofb ls q) vs).
Proof.
  intros ls cur q vs. induction vs as [|v r IH]; intros cand amb Ha.
  - cbn [label_scan filter]. now destruct cand.
  - cbn [label_scan filter]. change (match l_section (lget ls v) with Some b => q =? l_name (lget ls b) | None => false end)
      with (ofb ls q v). destruct (ofb ls q v); [|now apply IH].
    destruct cand as [w|]; rewrite IH by congruence; cbn [rest_of pick].
    + now destruct (filter (ofb ls q) r).
    + rewrite (Ha eq_refl). now destruct (filter (ofb ls q) r).
Qed.
Lemma scan_long : forall ls cur a b c vs, label_scan ls vs (a :: b :: c) cur None false = Undefined.
Proof. intros ls cur a b c vs. induction vs as [|v r IH]; [reflexivity|]. exact IH. Qed.

Definition cands (l : list proc) (n : Z) : list nat :=
  filter (fun i => l_name (lget (labels l) i) =? n) (seq 0 (length (labels l))).
Lemma cands_in : forall l n i, In i (cands l n) <-> is_named l n i.
Proof.
  intros l n i. unfold cands. rewrite filter_In, in_seq. replace (length (labels l)) with (length l) by (unfold labels; now rewrite map_length). unfold is_named. split.
  - intros ((_ & L) & H). destruct (nth_error l i) as [[m s]|] eqn:E.
    + rewrite (lget_nth _ _ _ _ E) in H. cbn [l_name] in H. apply Z.eqb_eq in H. subst. eauto.
    + apply nth_error_None in E. lia.
  - intros (s & E). assert (i < length l)%nat as L by (apply nth_error_Some; congruence).
    rewrite (lget_nth _ _ _ _ E). cbn [l_name]. split; [lia|]. apply Z.eqb_refl.
Qed.
Lemma ownb_in : forall l s n i, is_named l n i -> (ownb (labels l) (Some s) i = true <-> lies_in l s i).
Proof.
  intros l s n i (t & E). unfold ownb, lies_in. rewrite (lget_nth _ _ _ _ E). cbn [l_section]. split.
  - intros H. destruct t as [b|]; [|discriminate]. apply Nat.eqb_eq in H. subst. eauto.
  - intros (m & F). rewrite E in F. injection F as -> ->. apply Nat.eqb_refl.
Qed.
Lemma ofb_in : forall l q n i, (forall s, lies_in l s i -> (s < length l)%nat) ->
  is_named l n i -> (ofb (labels l) q i = true <-> of_section l q i).
Proof.
  intros l q n i W (t & E). unfold ofb, of_section, lies_in. rewrite (lget_nth _ _ _ _ E). cbn [l_section]. split.
  - intros H. destruct t as [b|]; [|discriminate].
    assert (b < length l)%nat as L by (apply W; exists n; exact E).
    destruct (nth_error l b) as [[m u]|] eqn:F; [|apply nth_error_None in F; lia].
    rewrite (lget_nth _ _ _ _ F) in H. cbn [l_name] in H. apply Z.eqb_eq in H. subst. eauto.
  - intros (s & u & (m & F) & G). rewrite E in F. injection F as -> ->.
    rewrite (lget_nth _ _ _ _ G). cbn [l_name]. apply Z.eqb_refl.
Qed.

Lemma pick_three : forall l (P : nat -> Prop), NoDup l -> (forall v, In v l <-> P v) ->
  match pick l with
  | Undefined => forall v, ~ P v
  | Found (TOther v) => only P v
  | Found _ => False
  | Ambiguous => several P
  end.
Proof.
  intros l P N H. pose proof (three nat P l N H) as T. destruct l as [|v [|w r]]; exact T.
Qed.
