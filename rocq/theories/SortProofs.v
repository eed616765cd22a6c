(** Proofs about the merge sort of FileSort: the queues in memory. *)
From Coq Require Import Sorting.Permutation Sorting.Sorted.
From Verif Require Import Base Field SpecNum SpecCmp Compare MoveAll SpecSort CmpMore Numeric Stdio StdioProofs FileIO FileSort SpecFileSort.

(** Without NATIONAL keys the two comparison functions agree. *)
Lemma file_keys_same : forall m col ks r1 r2, Forall (fun k => key_ok m k r1) ks -> file_keys_compare m col ks r1 r2 = sort_compare m col ks r1 r2.
Proof.
  intros m col. induction ks as [|k ks IH]; intros r1 r2 F; [reflexivity|]. inversion F as [|? ? [_ KO] F']; subst. cbn [file_keys_compare sort_compare].
  destruct (_ || _); [reflexivity|]. destruct (is_numeric_type (a_type (k_attr k))) eqn:N.
  - destruct (numeric_cmp _ _ _); cbn [obind]; auto. destruct (_ =? 0); auto.
  - replace (is_national (a_type (k_attr k))) with false; [|destruct KO as [E|[E|[E|E]]]; rewrite E; reflexivity].
    cbn [obind]. destruct (_ =? 0); auto.
Qed.

Section Order.
Variable K : sortkeys.
Variable size : nat.

Definition good (x : sitem) : Prop := sort_rec K size (it_data x) /\ 0 <= it_unique x < 2 ^ 64.
Definition R (a b : sitem) : Prop :=
  rec_lt (sk_cfg K) (sk_col K) (sk_keys K) (it_data a) (it_data b) \/
  (rec_eq (sk_cfg K) (sk_col K) (sk_keys K) (it_data a) (it_data b) /\ it_unique a < it_unique b).

Lemma rec_lt_eq : forall m col ks r1 r2 r3, rec_lt m col ks r1 r2 -> rec_eq m col ks r2 r3 -> rec_lt m col ks r1 r3.
Proof.
  intros m col. induction ks as [|k ks IH]; cbn [rec_eq rec_lt]; intros r1 r2 r3; [auto|].
  intros [L | (E' & L)] (E & RE).
  - left. destruct (k_asc k); [eapply key_lt_eq; eauto|eapply key_eq_lt; eauto using key_eq_sym].
  - right. split; [eapply key_eq_trans; eauto|eauto].
Qed.
Lemma R_trans : forall a b c, R a b -> R b c -> R a c.
Proof.
  intros a b c [A|[A A']] [B|[B B']].
  - left. eapply rec_lt_trans; eauto.
  - left. eapply rec_lt_eq; eauto.
  - left. eapply rec_eq_lt; eauto.
  - right. split; [eapply rec_eq_trans; eauto|lia].
Qed.

Lemma goes_first_ok : forall a b, good a -> good b -> it_unique a <> it_unique b ->
  exists f, goes_first K a b = Ok f /\ (f = true -> R a b) /\ (f = false -> R b a).
Proof.
  intros a b [[_ A] _] [[_ B] _] U. unfold goes_first. rewrite file_keys_same by exact A.
  destruct (sort_compare_spec (sk_cfg K) (sk_col K) (sk_keys K) (it_data a) (it_data b) A B) as (c & E & L & Q & G).
  rewrite E. cbn [obind]. eexists. split; [reflexivity|]. destruct (Z.eqb_spec c 0) as [-> |NZ].
  - split; intros X; right; (split; [|lia]); [apply Q; auto|apply rec_eq_sym; apply Q; auto].
  - split; intros X; left; [apply L; lia|apply G; lia].
Qed.
Lemma goes_first_size : forall n m u v d e, goes_first K (mkItm n u d) (mkItm m v e) = goes_first K (mkItm 0 u d) (mkItm 0 v e).
Proof. reflexivity. Qed.

(** ** Blocks in queues *)
Fixpoint blk (l : list sitem) : list (sitem * bool) :=
  match l with
  | [] => []
  | [x] => [(x, true)]
  | x :: r => (x, false) :: blk r
  end.
Lemma blk_cons : forall x y r, blk (x :: y :: r) = (x, false) :: blk (y :: r).
Proof. reflexivity. Qed.
Lemma blk_length : forall l, length (blk l) = length l.
Proof. induction l as [|x l IH]; [reflexivity|]. destruct l; [reflexivity|]. rewrite blk_cons. cbn [length] in *. lia. Qed.
Lemma blk_fst : forall l, map fst (blk l) = l.
Proof. induction l as [|x l IH]; [reflexivity|]. destruct l; [reflexivity|]. rewrite blk_cons. cbn [map fst]. now rewrite IH. Qed.
Lemma mark_last_app : forall l p, l <> [] -> mark_last (p ++ map (fun x => (x, false)) l) = p ++ blk l.
Proof.
  intros l p NE. induction p as [|q p IH].
  - cbn [app]. induction l as [|x l IH]; [contradiction|]. destruct l as [|y l]; [reflexivity|].
    rewrite blk_cons. cbn [map mark_last]. cbn [map] in IH. rewrite <- IH by discriminate. reflexivity.
  - cbn [app]. rewrite <- IH. destruct p; cbn [app mark_last]; [|destruct q; reflexivity]. destruct l; [contradiction|]. destruct q; reflexivity.
Qed.

Definition isnil {A} (l : list A) : bool := match l with [] => true | _ => false end.
Definition qof (bs : list (list sitem)) : queue := mkQueue (flat_map blk bs) (length (concat bs)).

Definition distinct (l : list sitem) : Prop := NoDup (map it_unique l).

Lemma distinct_neq : forall a b xs ys, distinct ((a :: xs) ++ b :: ys) -> it_unique a <> it_unique b.
Proof.
  unfold distinct. intros a b xs ys D E. rewrite map_app in D. cbn [map app] in D. inversion D as [|? ? N _]; subst. apply N. rewrite E. apply in_or_app. right. left. reflexivity.
Qed.
Lemma distinct_perm : forall l l', Permutation l l' -> distinct l -> distinct l'.
Proof. unfold distinct. intros l l' P D. eapply Permutation_NoDup; [|exact D]. apply Permutation_map. exact P. Qed.
Lemma distinct_app_l : forall a b, distinct (a ++ b) -> distinct a.
Proof. unfold distinct. intros a b D. rewrite map_app in D. induction (map it_unique a) as [|x l IH]; [constructor|]. cbn [app] in D. inversion D; subst. constructor; auto. intros I. apply H1. apply in_or_app. auto. Qed.
Lemma distinct_app_r : forall a b, distinct (a ++ b) -> distinct b.
Proof. unfold distinct. intros a b D. rewrite map_app in D. induction (map it_unique a) as [|x l IH]; [exact D|]. cbn [app] in D. inversion D; auto. Qed.
Lemma distinct_cons : forall a l, distinct (a :: l) -> distinct l.
Proof. unfold distinct. intros a l D. cbn [map] in D. inversion D; auto. Qed.

Lemma StronglySorted_tl : forall x l, StronglySorted R (x :: l) -> StronglySorted R l /\ Forall (R x) l.
Proof. intros x l S. inversion S; auto. Qed.

(** The first element of a merge comes before everything else. *)
Lemma min_cons : forall x xs y ys zs, StronglySorted R (x :: xs) -> StronglySorted R (y :: ys) -> R x y ->
  Permutation zs (xs ++ y :: ys) -> StronglySorted R zs -> StronglySorted R (x :: zs).
Proof.
  intros x xs y ys zs SX SY XY P SZ. constructor; auto. eapply Permutation_Forall; [apply Permutation_sym; exact P|].
  apply StronglySorted_tl in SX. apply StronglySorted_tl in SY. destruct SX as [_ SX], SY as [_ SY]. apply Forall_app. split; auto. constructor; auto.
  eapply Forall_impl; [|exact SY]. intros z Z. eapply R_trans; eauto.
Qed.

Definition qq (l : list (sitem * bool)) (n : nat) := mkQueue l n.

Lemma merge_blocks_ok : forall fuel xs ys ra rb na nb d,
  (length xs + length ys <= fuel)%nat -> StronglySorted R xs -> StronglySorted R ys -> Forall good xs -> Forall good ys -> distinct (xs ++ ys) ->
  exists zs, merge_blocks fuel K (mkQueue (blk xs ++ ra) (length xs + na)) (mkQueue (blk ys ++ rb) (length ys + nb)) (isnil xs) (isnil ys) d =
    Ok (mkQueue ra na, mkQueue rb nb, mkQueue (q_items d ++ map (fun x => (x, false)) zs) (q_count d + length zs)) /\
    Permutation zs (xs ++ ys) /\ StronglySorted R zs.
Proof.
  induction fuel as [|fuel IH]; intros xs ys ra rb na nb d L SX SY GX GY D.
  - destruct xs, ys; cbn [length] in L; try lia. exists []. split; [|split; [constructor|constructor]].
    cbn [merge_blocks isnil andb blk app length Nat.add map]. rewrite app_nil_r, Nat.add_0_r. destruct d; reflexivity.
  - destruct xs as [|x xs], ys as [|y ys].
    + exists []. split; [|split; [constructor|constructor]]. cbn [merge_blocks isnil andb blk app length Nat.add map]. rewrite app_nil_r, Nat.add_0_r. destruct d; reflexivity.
    + (* only the second *)
      cbn [app] in D. destruct (StronglySorted_tl _ _ SY) as [SY' FY]. inversion GY as [|? ? G1 G2]; subst.
      destruct (IH [] ys ra rb na nb (q_push_last d y)) as (zs & E & P & S); auto; [cbn [length] in *; lia|exact (distinct_cons _ _ D)|].
      exists (y :: zs). split; [|split].
      * cbn [merge_blocks isnil andb obind q_items]. destruct ys as [|y' ys].
        -- cbn [blk app length Nat.add]. cbn [q_count pred orb]. cbn [isnil blk app length Nat.add] in E. rewrite E. cbn [q_push_last q_items q_count map length]. rewrite <- app_assoc, Nat.add_succ_r. reflexivity.
        -- rewrite blk_cons. cbn [app q_count length Nat.add pred orb]. cbn [isnil length Nat.add] in E |- *. rewrite E. cbn [q_push_last q_items q_count map length]. rewrite <- app_assoc, Nat.add_succ_r. reflexivity.
      * cbn [app] in *. constructor. exact P.
      * constructor; auto. eapply Permutation_Forall; [apply Permutation_sym; exact P|exact FY].
    + (* only the first *)
      rewrite app_nil_r in D. destruct (StronglySorted_tl _ _ SX) as [SX' FX]. inversion GX as [|? ? G1 G2]; subst.
      destruct (IH xs [] ra rb na nb (q_push_last d x)) as (zs & E & P & S); auto; [cbn [length] in *; lia|rewrite app_nil_r; exact (distinct_cons _ _ D)|].
      rewrite app_nil_r in P. exists (x :: zs). split; [|split].
      * cbn [merge_blocks isnil andb obind q_items]. destruct xs as [|x' xs].
        -- cbn [blk app length Nat.add]. cbn [q_count pred orb]. cbn [isnil blk app length Nat.add] in E. rewrite E. cbn [q_push_last q_items q_count map length]. rewrite <- app_assoc, Nat.add_succ_r. reflexivity.
        -- rewrite blk_cons. cbn [app q_count length Nat.add pred orb]. cbn [isnil length Nat.add] in E |- *. rewrite E. cbn [q_push_last q_items q_count map length]. rewrite <- app_assoc, Nat.add_succ_r. reflexivity.
      * rewrite app_nil_r. constructor. exact P.
      * constructor; auto. eapply Permutation_Forall; [apply Permutation_sym; exact P|exact FX].
    + destruct (StronglySorted_tl _ _ SX) as [SX' FX]. destruct (StronglySorted_tl _ _ SY) as [SY' FY].
      inversion GX as [|? ? G1 G2]; inversion GY as [|? ? G3 G4]; subst.
      destruct (goes_first_ok x y G1 G3 (distinct_neq _ _ _ _ D)) as (f & EF & F1 & F2).
      assert (HX : exists e r, blk (x :: xs) ++ ra = (x, e) :: r /\ e = isnil xs /\ r = blk xs ++ ra) by (destruct xs; [exists true|exists false]; eexists; repeat split).
      assert (HY : exists e r, blk (y :: ys) ++ rb = (y, e) :: r /\ e = isnil ys /\ r = blk ys ++ rb) by (destruct ys; [exists true|exists false]; eexists; repeat split).
      destruct HX as (ex & rx & HX & -> & ->). destruct HY as (ey & ry & HY & -> & ->).
      cbn [merge_blocks isnil andb obind q_items]. rewrite HX, HY. cbn [q_items]. rewrite EF. cbn [obind].
      destruct f; cbn [negb].
      * destruct (IH xs (y :: ys) ra rb na nb (q_push_last d x)) as (zs & E & P & S); auto; [cbn [length] in *; lia|exact (distinct_cons _ _ D)|].
        exists (x :: zs). split; [|split].
        -- rewrite HY in E. cbn [isnil length Nat.add q_count pred orb] in E |- *. rewrite E. cbn [q_push_last q_items q_count map length]. rewrite <- app_assoc, Nat.add_succ_r. reflexivity.
        -- cbn [app]. constructor. exact P.
        -- eapply min_cons; eauto.
      * destruct (IH (x :: xs) ys ra rb na nb (q_push_last d y)) as (zs & E & P & S); auto.
        { cbn [length] in *. lia. }
        { apply (distinct_cons y). eapply distinct_perm; [|exact D]. apply Permutation_sym. apply (Permutation_middle (x :: xs) ys y). }
        exists (y :: zs). split; [|split].
        -- rewrite HX in E. cbn [isnil length Nat.add q_count pred orb] in E |- *. rewrite E. cbn [q_push_last q_items q_count map length]. rewrite <- app_assoc, Nat.add_succ_r. reflexivity.
        -- eapply Permutation_trans; [apply perm_skip; exact P|]. apply (Permutation_middle (x :: xs) ys y).
        -- apply (min_cons y ys x xs zs); auto. eapply Permutation_trans; [exact P|]. apply Permutation_app_comm.
Qed.


(** ** Passes over the queues *)
Definition sorted_block (l : list sitem) : Prop := l <> [] /\ StronglySorted R l /\ Forall good l.

Lemma qof_cons : forall x A, qof (x :: A) = mkQueue (blk x ++ q_items (qof A)) (length x + q_count (qof A)).
Proof. intros. unfold qof. cbn [flat_map concat q_items q_count]. now rewrite app_length. Qed.
Lemma qof_count0 : forall A, Forall sorted_block A -> (q_count (qof A) =? 0)%nat = isnil A.
Proof. intros A F. destruct A as [|x A]; [reflexivity|]. inversion F as [|? ? [NE _] _]; subst. rewrite qof_cons. destruct x; [contradiction|]. reflexivity. Qed.
Lemma qof_snoc : forall D z, qof (D ++ [z]) = mkQueue (q_items (qof D) ++ blk z) (q_count (qof D) + length z).
Proof. intros. unfold qof. cbn [q_items q_count]. rewrite flat_map_app, concat_app, app_length. cbn [flat_map concat]. now rewrite !app_nil_r. Qed.

Definition hd_block (A : list (list sitem)) : list sitem := match A with [] => [] | x :: _ => x end.
Lemma qof_hd : forall A, qof A = mkQueue (blk (hd_block A) ++ q_items (qof (tl A))) (length (hd_block A) + q_count (qof (tl A))).
Proof. intros [|x A]; [reflexivity|]. apply qof_cons. Qed.
Lemma hd_tl_concat : forall A, concat A = hd_block A ++ concat (tl A).
Proof. intros [|x A]; reflexivity. Qed.
Lemma hd_nil : forall A, Forall sorted_block A -> isnil (hd_block A) = isnil A.
Proof. intros [|x A] F; [reflexivity|]. inversion F as [|? ? [NE _] _]; subst. destruct x; [contradiction|reflexivity]. Qed.
Lemma hd_sorted : forall A, Forall sorted_block A -> StronglySorted R (hd_block A) /\ Forall good (hd_block A) /\ Forall sorted_block (tl A).
Proof. intros [|x A] F; cbn [hd_block tl]; [repeat split; constructor|]. inversion F as [|? ? (_ & S & G) F']; subst. auto. Qed.

Definition bal (sw : bool) (d e : nat) : Prop := if sw then e = S d else d = e.

Lemma merge_pass_ok : forall fuel A B D E sw, (length A + length B <= fuel)%nat ->
  Forall sorted_block A -> Forall sorted_block B -> Forall sorted_block D -> Forall sorted_block E -> distinct (concat A ++ concat B) -> bal sw (length D) (length E) ->
  exists P Q, merge_pass fuel K (qof A) (qof B) (qof D) (qof E) sw = Ok (qof P, qof Q) /\ Forall sorted_block P /\ Forall sorted_block Q /\
    (length P = length Q \/ length P = S (length Q)) /\ (length P + length Q = length D + length E + Nat.max (length A) (length B))%nat /\
    Permutation (concat P ++ concat Q) ((concat A ++ concat B) ++ (concat D ++ concat E)).
Proof.
  induction fuel as [|fuel IH]; intros A B D E sw L FA FB FD FE DI BA.
  - destruct A, B; cbn [length] in L; try lia. cbn [merge_pass qof q_count concat length Nat.eqb andb].
    destruct sw; cbn [bal] in BA.
    + exists E, D. split; [reflexivity|]. cbn [length Nat.max app]. repeat split; auto; try lia. apply Permutation_app_comm.
    + exists D, E. split; [reflexivity|]. cbn [length Nat.max app]. repeat split; auto; try lia.
  - cbn [merge_pass]. rewrite !qof_count0 by assumption. destruct (isnil A && isnil B) eqn:NB.
    + destruct A, B; try discriminate. destruct sw; cbn [bal] in BA.
      * exists E, D. split; [reflexivity|]. cbn [length Nat.max app concat]. repeat split; auto; try lia. apply Permutation_app_comm.
      * exists D, E. split; [reflexivity|]. cbn [length Nat.max app concat]. repeat split; auto; try lia.
    + destruct (hd_sorted A FA) as (SA & GA & FA'). destruct (hd_sorted B FB) as (SB & GB & FB').
      assert (DH : distinct (hd_block A ++ hd_block B)).
      { eapply distinct_app_l. eapply distinct_perm; [|exact DI]. rewrite (hd_tl_concat A), (hd_tl_concat B).
        instantiate (1 := concat (tl A) ++ concat (tl B)). rewrite <- !app_assoc. apply Permutation_app_head. rewrite !app_assoc. apply Permutation_app_tail. apply Permutation_app_comm. }
      destruct (merge_blocks_ok (S (q_count (qof A) + q_count (qof B))) (hd_block A) (hd_block B) (q_items (qof (tl A))) (q_items (qof (tl B))) (q_count (qof (tl A))) (q_count (qof (tl B))) (qof D)) as (zs & EZ & PZ & SZ); auto.
      { rewrite (qof_hd A), (qof_hd B). cbn [q_count]. lia. }
      rewrite <- !qof_hd in EZ. rewrite !hd_nil in EZ by assumption. rewrite EZ. cbn [obind].
      assert (NZ : zs <> []).
      { intros ->. apply Permutation_nil in PZ. apply app_eq_nil in PZ. destruct PZ as [PA PB].
        pose proof (hd_nil A FA) as X. pose proof (hd_nil B FB) as Y. rewrite PA in X. rewrite PB in Y. cbn [isnil] in X, Y. rewrite <- X, <- Y in NB. discriminate. }
      cbn [q_items q_count]. destruct (q_items (qof D) ++ map (fun x => (x, false)) zs) eqn:QE.
      { exfalso. apply app_eq_nil in QE. destruct QE as [_ QE]. apply map_eq_nil in QE. contradiction. }
      rewrite <- QE. rewrite mark_last_app by exact NZ. rewrite <- qof_snoc.
      replace (mkQueue (q_items (qof (tl A))) (q_count (qof (tl A)))) with (qof (tl A)) by reflexivity.
      replace (mkQueue (q_items (qof (tl B))) (q_count (qof (tl B)))) with (qof (tl B)) by reflexivity.
      assert (ZB : sorted_block zs).
      { split; [exact NZ|]. split; [exact SZ|]. eapply Permutation_Forall; [apply Permutation_sym; exact PZ|]. apply Forall_app. auto. }
      destruct (IH (tl A) (tl B) E (D ++ [zs]) (negb sw)) as (P & Q & EP & FP & FQ & BP & LP & PP); auto.
      { destruct A, B; cbn [tl length isnil andb] in *; try discriminate; lia. }
      { apply Forall_app. auto. }
      { eapply (distinct_app_r (hd_block A ++ hd_block B)). eapply distinct_perm; [|exact DI]. rewrite (hd_tl_concat A), (hd_tl_concat B).
        rewrite <- !app_assoc. apply Permutation_app_head. rewrite !app_assoc. apply Permutation_app_tail. apply Permutation_app_comm. }
      { rewrite app_length. cbn [length]. destruct sw; cbn [negb bal] in *; lia. }
      exists P, Q. split; [exact EP|]. split; [exact FP|]. split; [exact FQ|]. split; [exact BP|]. split.
      * rewrite LP, app_length. cbn [length]. destruct A, B; cbn [tl length isnil andb Nat.max] in *; try discriminate; lia.
      * eapply Permutation_trans; [exact PP|]. rewrite (hd_tl_concat A), (hd_tl_concat B), concat_app. cbn [concat]. rewrite app_nil_r.
        assert (PZ' := PZ). clear - PZ'.
        apply Permutation_trans with ((concat (tl A) ++ concat (tl B)) ++ concat E ++ concat D ++ (hd_block A ++ hd_block B)).
        { apply Permutation_app_head. apply Permutation_app_head. apply Permutation_app_head. exact PZ'. }
        generalize (hd_block A) (hd_block B) (concat (tl A)) (concat (tl B)) (concat D) (concat E). intros a b ta tb d e.
        apply Permutation_trans with ((a ++ b) ++ ((ta ++ tb) ++ (d ++ e))).
        { rewrite !app_assoc. apply Permutation_trans with ((a ++ b) ++ (((ta ++ tb) ++ e) ++ d)).
          - rewrite <- (app_assoc _ a b). apply Permutation_app_comm.
          - rewrite <- !app_assoc. do 2 apply Permutation_app_head. do 2 apply Permutation_app_head. apply Permutation_app_comm. }
        rewrite <- !app_assoc. apply Permutation_app_head. rewrite !app_assoc. do 3 apply Permutation_app_tail. apply Permutation_app_comm.
Qed.

(** cob_sort_queues: at most one block is left, in the first queue. *)
Lemma sort_queues_ok : forall fuel A B s2, (length A + length B < fuel)%nat -> (length A = length B \/ length A = S (length B)) ->
  Forall sorted_block A -> Forall sorted_block B -> distinct (concat A ++ concat B) ->
  exists s2' zs, sort_queues fuel K (qof A) (qof B) s2 = Ok (s2', mkQueue (blk zs) (length zs), qof []) /\
    StronglySorted R zs /\ Forall good zs /\ Permutation zs (concat A ++ concat B).
Proof.
  induction fuel as [|fuel IH]; intros A B s2 L BL FA FB DI; [lia|].
  cbn [sort_queues]. rewrite qof_count0 by assumption. destruct B as [|b B].
  - cbn [isnil]. destruct A as [|a [|a' A]]; cbn [length] in BL; try lia.
    + exists s2, []. repeat split; constructor.
    + exists s2, a. inversion FA as [|? ? (NE & S & G) _]; subst. split; [|split; [exact S|split; [exact G|cbn [concat]; rewrite !app_nil_r; reflexivity]]].
      unfold qof. cbn [flat_map concat]. rewrite !app_nil_r. reflexivity.
  - cbn [isnil]. destruct (merge_pass_ok (S (q_count (qof A) + q_count (qof (b :: B)))) A (b :: B) [] [] false) as (P & Q & E & FP & FQ & BP & LP & PP); auto; try reflexivity.
    { assert (X : forall C, Forall sorted_block C -> (length C <= q_count (qof C))%nat).
      { clear. induction C as [|c C IH]; intros F; [cbn [length]; lia|]. inversion F as [|? ? (NE & _) F']; subst. rewrite qof_cons. cbn [q_count length]. specialize (IH F'). destruct c; [contradiction|]. cbn [length]. lia. }
      pose proof (X A FA). pose proof (X _ FB). lia. }
    change empty_queue with (qof []). rewrite E. cbn [obind fst snd]. cbn [concat app] in PP. rewrite app_nil_r in PP.
    destruct (IH P Q (negb s2)) as (s' & zs & E' & S & G & PZ); auto.
    + rewrite LP. cbn [length] in *. lia.
    + eapply distinct_perm; [apply Permutation_sym; exact PP|exact DI].
    + exists s', zs. split; [exact E'|]. split; [exact S|]. split; [exact G|]. eapply Permutation_trans; [exact PZ|exact PP].
Qed.

End Order.
