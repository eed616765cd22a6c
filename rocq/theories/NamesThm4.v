(** Building a section; resolving names. *)
From Verif Require Import Base Names SpecNames NamesThm NamesThm2 NamesThm3.
Local Open Scope Z_scope.

Definition last_of (es : list entry) : option nat :=
  match es with [] => None | _ => Some (length es - 1)%nat end.

Lemma step_all : forall es ns lv nm, inv es ns -> lv <> 66 -> lv <> 78 ->
  match add_field ns (last_of es) lv nm with
  | Ok (Some ns') => inv (es ++ [(lv, nm)]) ns'
  | Ok None => ~ valid (es ++ [(lv, nm)])
  | _ => False
  end.
Proof.
  intros es ns lv nm I N66 N78.
  destruct (negb ((lv =? 77) || (lv =? 88) || ((1 <=? lv) && (lv <=? 49)))) eqn:El.
  - unfold add_field. replace ((lv =? 66) || (lv =? 78)) with false by lia. rewrite El.
    intros V. pose proof (v_level _ V (length es)) as H. rewrite level_app2, app_length in H.
    cbn [length fst] in H. assert (length es < length es + 1)%nat as L by lia. specialize (H L). lia.
  - destruct es as [|x r].
    + cbn [last_of]. unfold add_field. replace ((lv =? 66) || (lv =? 78)) with false by lia. rewrite El.
      assert (ns = []) as ->. { pose proof (iv_len _ _ I) as L. destruct ns; [reflexivity|discriminate]. }
      cbn [app]. destruct (top lv) eqn:T.
      * apply top_ok in T. split; cbn [length].
        -- reflexivity.
        -- intros [|i] L; [reflexivity|lia].
        -- intros [|i] L; [reflexivity|lia].
        -- intros [|i] L; [exact T|lia].
        -- intros [|i] L; [|lia]. cbn. unfold kids. cbn. rewrite andb_false_r. constructor.
        -- intros _. unfold tops. cbn. apply top_ok in T. rewrite T. constructor. constructor.
        -- split.
           ++ intros _. exact T.
           ++ cbn [length]. intros [|i] L; [|lia]. unfold level. cbn. lia.
           ++ intros i p (L & _ & P & _). cbn [length] in L. lia.
           ++ intros i j p (L & _ & P & _). cbn [length] in L. lia.
      * intros V. assert (is_top lv) as H by (apply (v_first _ V); discriminate).
        apply top_ok in H. congruence.
    + apply step_some; auto; [discriminate|lia].
Qed.

Lemma build_from : forall r es ns, inv es ns ->
  (forall x, In x r -> fst x <> 66 /\ fst x <> 78) ->
  match add_fields ns (last_of es) r with
  | Ok (Some ns') => inv (es ++ r) ns'
  | Ok None => ~ valid (es ++ r)
  | _ => False
  end.
Proof.
  induction r as [|[lv nm] r IH]; intros es ns I N; cbn [add_fields].
  - now rewrite app_nil_r.
  - destruct (N (lv, nm)) as [N1 N2]; [now left|]. cbn [fst] in N1, N2.
    pose proof (step_all es ns lv nm I N1 N2) as S.
    destruct (add_field ns (last_of es) lv nm) as [[ns'|]| |]; cbn [obind]; try contradiction.
    + replace (es ++ (lv, nm) :: r) with ((es ++ [(lv, nm)]) ++ r) by now rewrite <- app_assoc.
      replace (Some (length ns)) with (last_of (es ++ [(lv, nm)])).
      2:{ pose proof (iv_len _ _ I) as L. destruct es as [|x l]; [destruct ns; [reflexivity|discriminate]|].
          unfold last_of. cbn [app]. change (x :: l ++ [(lv, nm)]) with ((x :: l) ++ [(lv, nm)]).
          rewrite app_length, L. f_equal. cbn [length]. lia. }
      apply IH; [exact S|]. intros y Hy. apply N. now right.
    + intros V. apply S. apply valid_prefix with (r := r). now rewrite <- app_assoc.
Qed.
Lemma inv_nil : inv [] [].
Proof.
  split; cbn [length]; try (intros; lia); auto; [congruence|].
  split; try (intros; cbn [length] in *; lia).
  - congruence.
  - intros i p (L & _). cbn [length] in L. lia.
  - intros i j p (L & _). cbn [length] in L. lia.
Qed.
Lemma build_inv : forall es, (forall x, In x es -> fst x <> 66 /\ fst x <> 78) ->
  match build es with
  | Ok (Some ns) => inv es ns
  | Ok None => ~ valid es
  | _ => False
  end.
Proof. intros es N. exact (build_from es [] [] inv_nil N). Qed.

Lemma filter_short : forall (A : Type) (f : A -> bool) l, (length (filter f l) <= length l)%nat.
Proof. induction l as [|a l IH]; cbn [filter length]; [lia|]. destruct (f a); cbn [length]; lia. Qed.
Lemma inv_children : forall es ns, inv es ns -> forall p, (p < length es)%nat -> children ns p = kids ns p.
Proof.
  intros es ns I p L. unfold children. apply sisters_chain.
  - now apply (iv_kids _ _ I).
  - unfold kids. etransitivity; [apply filter_short|]. now rewrite seq_length.
Qed.
Lemma inv_records : forall es ns, inv es ns -> es <> [] -> sisters (length ns) ns (Some 0%nat) = tops ns.
Proof.
  intros es ns I N. apply sisters_chain.
  - apply (iv_tops _ _ I). intros H. pose proof (iv_len _ _ I) as L. rewrite H in L. destruct es; [congruence|discriminate].
  - unfold tops. etransitivity; [apply filter_short|]. now rewrite seq_length.
Qed.
Lemma inv_parent : forall es ns, inv es ns -> forall i p, (i < length es)%nat ->
  (n_parent (get ns i) = Some p <-> parent_of es i p).
Proof.
  intros es ns I i p L. pose proof (iv_par _ _ I i L) as P. destruct (n_parent (get ns i)) as [q|]; split; intros H.
  - now injection H as <-.
  - now rewrite (parent_unique _ _ _ _ H P).
  - discriminate.
  - destruct H as (_ & H & _). contradiction.
Qed.

(** *** Qualification *)
(** The names above an item, as by_parents walks them. *)
Fixpoint above (fuel : nat) (ns : list node) (p : option nat) : list Z :=
  match fuel, p with
  | S k, Some i => n_name (get ns i) :: above k ns (n_parent (get ns i))
  | _, _ => []
  end.
Fixpoint greedy (c l : list Z) : list Z :=
  match l with
  | [] => c
  | a :: l' => greedy (match c with q :: r => if q =? a then r else c | [] => [] end) l'
  end.
Lemma by_parents_greedy : forall ns fuel p c, by_parents fuel ns p c = greedy c (above fuel ns p).
Proof.
  intros ns fuel. induction fuel as [|k IH]; intros p c; [reflexivity|].
  destruct p as [i|]; [|reflexivity]. cbn [by_parents above greedy]. apply IH.
Qed.
Lemma greedy_nil : forall l, greedy [] l = [].
Proof. induction l; auto. Qed.
Lemma some_tail : forall a c l, some_of (a :: c) l -> some_of c l.
Proof.
  intros a c l H. remember (a :: c) as d eqn:E. revert a c E.
  induction H as [l | b d l H IH | b d l H IH]; intros a c E.
  - discriminate.
  - injection E as -> ->. now apply some_skip.
  - apply some_skip. eapply IH. exact E.
Qed.
Lemma greedy_some : forall l c, greedy c l = [] <-> some_of c l.
Proof.
  induction l as [|a l IH]; intros c; cbn [greedy].
  - split; intros H; [subst; constructor|now inversion H].
  - destruct c as [|q r].
    + split; intros _; [constructor|apply greedy_nil].
    + destruct (Z.eqb_spec q a) as [-> | Hn]; rewrite IH; split; intros H.
      * now apply some_take.
      * inversion H; subst; [assumption|]. eapply some_tail; eassumption.
      * now apply some_skip.
      * inversion H; subst; [congruence|assumption].
Qed.
Lemma greedy_suffix : forall l c, exists d, c = d ++ greedy c l /\ some_of d l.
Proof.
  induction l as [|a l IH]; intros c; cbn [greedy].
  - exists []. split; [reflexivity|constructor].
  - destruct c as [|q r]; [exists []; split; [now rewrite greedy_nil|constructor]|].
    destruct (Z.eqb_spec q a) as [-> | Hn].
    + destruct (IH r) as (d & E & S). exists (a :: d). split; [cbn [app]; now f_equal|now apply some_take].
    + destruct (IH (q :: r)) as (d & E & S). exists d. split; [exact E|now apply some_skip].
Qed.
Lemma greedy_app : forall l c d, greedy c l = [] -> greedy (c ++ d) l = [] \/ exists e, e <> [] /\ greedy (c ++ d) l = e /\ exists f, d = f ++ e.
Proof.
  intros l c d H. destruct (greedy (c ++ d) l) as [|x r] eqn:E; [now left|right]. exists (x :: r).
  split; [discriminate|]. split; [reflexivity|].
  revert c H E. induction l as [|a l IH]; intros c H E; cbn [greedy] in *.
  - subst c. exists []. exact E.
  - destruct c as [|q c'].
    + cbn [app] in E. clear IH H. destruct (greedy_suffix (a :: l) d) as (f & E1 & _). exists f.
      cbn [greedy] in E1. rewrite E in E1. exact E1.
    + cbn [app] in E. destruct (q =? a); [exact (IH c' H E)|exact (IH (q :: c') H E)].
Qed.

Lemma above_owners : forall es ns, inv es ns -> forall fuel i, (i < fuel)%nat -> (i < length es)%nat ->
  owners es i (above fuel ns (n_parent (get ns i))).
Proof.
  intros es ns I fuel. induction fuel as [|k IH]; intros i Lk L; [lia|].
  pose proof (iv_par _ _ I i L) as P. destruct (n_parent (get ns i)) as [p|]; cbn [above].
  - pose proof (parent_lt _ _ _ P) as Lp. rewrite (iv_name _ _ I p) by lia.
    apply owners_in with (p := p); [exact P|]. apply IH; lia.
  - now apply owners_top.
Qed.
Lemma owners_unique : forall es i l, owners es i l -> forall l', owners es i l' -> l = l'.
Proof.
  intros es i l H. induction H as [i L T | i p l P H IH]; intros l' H'.
  - inversion H' as [? ? T' | ? p' ? P' Q]; subst; [reflexivity|]. destruct P' as (_ & P' & _). contradiction.
  - inversion H' as [? ? T' | ? p' m P' Q]; subst.
    + destruct P as (_ & P & _). contradiction.
    + rewrite <- (parent_unique _ _ _ _ P P') in *. f_equal. now apply IH.
Qed.
