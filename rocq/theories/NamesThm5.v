(** Resolving qualified names and labels. *)
From Verif Require Import Base Names SpecNames NamesThm NamesThm2 NamesThm3 NamesThm4.
Local Open Scope Z_scope.

Definition fits (g : prog) (c : list Z) (v : thing) : bool :=
  match left_over g v c with [] => true | _ => false end.
Lemma scan_cand : forall g c vs v amb,
  scan g vs c (Some v) amb = if amb || existsb (fits g c) vs then Ambiguous else Found v.
Proof.
  intros g c vs v. induction vs as [|w r IH]; intros amb; cbn [scan existsb].
  - now rewrite orb_false_r.
  - unfold fits at 1. destruct (left_over g w c); rewrite IH; cbn [orb]; [|reflexivity].
    now rewrite orb_true_r.
Qed.
Lemma scan_filter : forall g c vs,
  scan g vs c None false = match filter (fits g c) vs with
                           | [] => Undefined | [v] => Found v | _ => Ambiguous end.
Proof.
  intros g c vs. induction vs as [|w r IH]; cbn [scan filter]; [reflexivity|].
  unfold fits at 1. destruct (left_over g w c) eqn:E; [|exact IH].
  rewrite scan_cand. cbn [orb]. destruct (existsb (fits g c) r) eqn:X.
  - apply existsb_exists in X. destruct X as (x & X1 & X2).
    assert (In x (filter (fits g c) r)) as H by (apply filter_In; auto).
    destruct (filter (fits g c) r); [destruct H|reflexivity].
  - destruct (filter (fits g c) r) as [|x l] eqn:Ef; [reflexivity|].
    assert (In x (filter (fits g c) r)) as H by (rewrite Ef; now left).
    apply filter_In in H. assert (existsb (fits g c) r = true) as Y by (apply existsb_exists; eauto).
    congruence.
Qed.

(** The three results from a list without repetitions. *)
Lemma three : forall (A : Type) (P : A -> Prop) (l : list A), NoDup l -> (forall v, In v l <-> P v) ->
  match l with
  | [] => forall v, ~ P v
  | [v] => P v /\ forall w, P w -> w = v
  | _ => exists v w, v <> w /\ P v /\ P w
  end.
Proof.
  intros A P l N H. destruct l as [|a [|b l]].
  - intros v Hv. apply H in Hv. destruct Hv.
  - split; [apply H; now left|]. intros w Hw. apply H in Hw. destruct Hw as [-> | []]. reflexivity.
  - exists a, b. inversion N as [|? ? N1 N2]; subst. split; [|split; apply H; [now left|now right; left]].
    intros ->. apply N1. now left.
Qed.

Lemma build_all_nth : forall l ss, build_all l = Ok (Some ss) ->
  forall s f es, nth_error l s = Some (f, es) -> exists ns, build es = Ok (Some ns) /\ nth s ss (None, []) = (f, ns).
Proof.
  induction l as [|[f0 es0] l IH]; intros ss H s f es E; [destruct s; discriminate|].
  cbn [build_all] in H. destruct (build es0) as [[ns|]| |] eqn:B; cbn [obind] in H; try discriminate.
  destruct (build_all l) as [[ss'|]| |] eqn:R; cbn [obind] in H; try discriminate.
  injection H as <-. destruct s as [|s]; cbn [nth_error nth] in *.
  - injection E as <- <-. eauto.
  - eapply IH; [reflexivity|eassumption].
Qed.

Lemma sec_words_in : forall es s k n v, In (n, v) (sec_words s k es) <->
  exists i, (i < length es)%nat /\ named es i = n /\ v = TItem s (k + i).
Proof.
  induction es as [|[lv m] es IH]; intros s k n v; cbn [sec_words In length].
  - split; [intros []|intros (i & L & _); lia].
  - rewrite IH. split.
    + intros [H | (i & L & Hn & ->)].
      * injection H as <- <-. exists 0%nat. cbn. split; [lia|]. split; [reflexivity|f_equal; lia].
      * exists (S i). split; [lia|]. split; [exact Hn|f_equal; lia].
    + intros ([|i] & L & Hn & ->).
      * left. cbn in Hn. subst. f_equal. f_equal. lia.
      * right. exists i. split; [lia|]. split; [exact Hn|f_equal; lia].
Qed.
Lemma data_words_in : forall l s n v, In (n, v) (data_words s l) <->
  exists k f es i, nth_error l k = Some (f, es) /\ (i < length es)%nat /\ named es i = n /\ v = TItem (s + k) i.
Proof.
  induction l as [|[f0 es0] l IH]; intros s n v; cbn [data_words].
  - split; [intros []|]. intros ([|k] & f & es & i & H & _); discriminate.
  - rewrite in_app_iff, sec_words_in, IH. split.
    + intros [(i & L & Hn & ->) | (k & f & es & i & H & L & Hn & ->)].
      * exists 0%nat, f0, es0, i. repeat split; auto; f_equal; lia.
      * exists (S k), f, es, i. repeat split; auto; f_equal; lia.
    + intros ([|k] & f & es & i & H & L & Hn & ->); cbn [nth_error] in H.
      * injection H as -> ->. left. exists i. repeat split; auto; f_equal; lia.
      * right. exists k, f, es, i. repeat split; auto; f_equal; lia.
Qed.

Lemma map_snd_nodup : forall (l : list (Z * thing)) n, NoDup l -> NoDup (map snd (filter (fun x => fst x =? n) l)).
Proof.
  intros l n H. induction H as [|[a v] l N1 N2 IH]; cbn [filter map]; [constructor|].
  cbn [fst]. destruct (Z.eqb_spec a n) as [-> | _]; [|exact IH]. cbn [map snd]. constructor; [|exact IH].
  intros H. apply in_map_iff in H. destruct H as ([b w] & E & Hin). cbn [snd] in E. subst w.
  apply filter_In in Hin. destruct Hin as [Hin Hb]. cbn [fst] in Hb. apply Z.eqb_eq in Hb. now subst.
Qed.
Lemma sec_words_nodup : forall es s k, NoDup (sec_words s k es).
Proof.
  induction es as [|[lv m] es IH]; intros s k; cbn [sec_words]; constructor; [|apply IH].
  rewrite sec_words_in. intros (i & _ & _ & H). injection H. lia.
Qed.
Lemma data_words_nodup : forall l s, NoDup (data_words s l).
Proof.
  induction l as [|[f es] l IH]; intros s; cbn [data_words]; [constructor|].
  assert (forall a b : list (Z * thing), NoDup a -> NoDup b -> (forall x, In x a -> ~ In x b) -> NoDup (a ++ b)) as ND.
  { induction a as [|x a IHa]; intros b Na Nb D; [exact Nb|]. cbn [app]. inversion Na; subst. constructor.
    - rewrite in_app_iff. intros [H | H]; [contradiction|]. apply (D x); [now left|exact H].
    - apply IHa; auto. intros y Hy. apply D. now right. }
  apply ND; [apply sec_words_nodup|apply IH|]. intros [n v] H1 H2.
  apply sec_words_in in H1. apply data_words_in in H2.
  destruct H1 as (i & _ & _ & ->). destruct H2 as (k & f' & es' & j & _ & _ & _ & E). injection E. lia.
Qed.

Lemma items_in : forall g n v, In v (items g n) <-> In (n, v) (g_words g).
Proof.
  intros g n v. unfold items. rewrite in_map_iff. split.
  - intros ([a w] & E & H). cbn [snd] in E. subst w. apply filter_In in H. destruct H as [H Hb].
    cbn [fst] in Hb. apply Z.eqb_eq in Hb. now subst.
  - intros H. exists (n, v). split; [reflexivity|]. apply filter_In. split; [exact H|]. apply Z.eqb_refl.
Qed.
Lemma single_list : forall (A : Type) (l : list A) x, NoDup l -> (forall y, In y l <-> y = x) -> l = [x].
Proof.
  intros A [|a [|b l]] x N H.
  - exfalso. apply (proj2 (H x) eq_refl).
  - f_equal. apply H. now left.
  - exfalso. inversion N as [|? ? N1 N2]; subst. apply N1.
    rewrite (proj1 (H a)) by now left. rewrite (proj1 (H b)) by (now right; left). now left.
Qed.
