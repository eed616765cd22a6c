(** SORT with RELEASE and RETURN: C24. *)
From Coq Require Import Sorting.Permutation Sorting.Sorted.
From Verif Require Import Base Field SpecNum Compare SpecCmp SpecSort Numeric MoveAll Stdio FileIO FileSort SpecFileSort SortProofs SortFiles SortHist.

(** ** Every history *)
Theorem C24_history : forall K size cob_sort_memory area (len : option Z) digits os,
  (4 <= cob_sort_memory / (size + 32))%nat ->
  sort_rec K size area -> (forall v, len = Some v -> 0 <= v < 10 ^ digits) ->
  Forall (sort_op_ok K size digits) os -> Z.of_nat (releases os) + 1 < 2 ^ 64 ->
  exists h st, run_sort (sort_init K size cob_sort_memory area (option_map (fun v => mkItem v digits) len)) os = Ok h /\
    sort_steps K size (cob_sort_memory / (size + 32)) (mkS [] None area len 0 0) os st /\
    h_area h = s_area st /\ option_map i_val (h_dep h) = s_len st /\ h_return h = s_return st /\ h_status h = s_status st.
Proof.
  intros K size m area len digits os M A L F N.
  destruct (history_ok K size (m / (size + 32)) digits M os (sort_init K size m area (option_map (fun v => mkItem v digits) len)) (mkS [] None area len 0 0)) as (h & st & E & S & I).
  - left. exists [], [], [], []. split; [|discriminate]. constructor; try reflexivity; try solve [constructor]; try solve [left; auto]; try (cbn [length]; lia).
    + constructor; try reflexivity; auto.
      * cbn. unfold dep_rel. destruct len as [v|]; cbn [option_map]; auto.
      * intros _. constructor.
    + unfold holds, wok, done_of, new_stream. cbn. repeat split; auto.
    + unfold holds, wok, done_of, new_stream. cbn. repeat split; auto.
  - exact F.
  - cbn [s_in length]. lia.
  - exists h, st. split; [exact E|]. split; [exact S|]. apply inv_common in I. destruct I as [c1 c2 c3 c4 c5 c6 c7 c8 c9].
    split; [exact c4|]. split; [|auto]. unfold dep_rel in c6. destruct (h_dep h) as [i|], (s_len st) as [v|]; try contradiction; auto. destruct c6 as [-> _]. reflexivity.
Qed.

(** ** Consequences: release all, then return *)
Theorem C24_permutation : forall K rs out, in_order K rs out -> Permutation rs out.
Proof.
  intros K rs out (idx & P & _ & M). assert (X : Permutation (map Some rs) (map Some out)).
  { rewrite M. assert (Y : map Some rs = map (nth_error rs) (seq 0 (length rs))).
    { clear. induction rs as [|r rs IH]; [reflexivity|]. cbn [map length seq nth_error]. f_equal. rewrite <- seq_shift, map_map. exact IH. }
    rewrite Y. apply Permutation_map. apply Permutation_sym. exact P. }
  clear -X. assert (Y : forall l : list (Z * list Z), flat_map (fun o => match o with Some x => [x] | None => [] end) (map Some l) = l) by (induction l as [|x l IH]; cbn; [reflexivity|now rewrite IH]).
  rewrite <- (Y rs), <- (Y out). apply Permutation_flat_map. exact X.
Qed.
Theorem C24_sorted : forall K rs out, in_order K rs out ->
  StronglySorted (fun a b => rec_lt (sk_cfg K) (sk_col K) (sk_keys K) (snd a) (snd b) \/ rec_eq (sk_cfg K) (sk_col K) (sk_keys K) (snd a) (snd b)) out.
Proof.
  intros K rs out (idx & _ & S & M). revert out M. induction S as [|i idx S IH F]; intros out M.
  - destruct out; [constructor|discriminate].
  - destruct out as [|x out]; [discriminate|]. cbn [map] in M. injection M as NX M. constructor; [apply IH; exact M|].
    clear IH S. revert out M. induction F as [|j idx C F IH]; intros out M; [destruct out; [constructor|discriminate]|].
    destruct out as [|y out]; [discriminate|]. cbn [map] in M. injection M as NY M. constructor; [|apply IH; exact M].
    destruct C as (a & b & NA & NB & C). rewrite NA in NX. rewrite NB in NY. injection NX as ->. injection NY as ->. destruct C as [C|[C _]]; [left; exact C|right; exact C].
Qed.

Section Cycle.
Variables (K : sortkeys) (size memory : nat).
Notation steps := (sort_steps K size memory).

Lemma steps_app : forall xs ys s s'', steps s (xs ++ ys) s'' -> exists s', steps s xs s' /\ steps s' ys s''.
Proof.
  induction xs as [|x xs IH]; intros ys s s'' H; cbn [app] in H.
  - exists s. split; [constructor|exact H].
  - inversion H as [|? ? s1 ? ? S1 S2]; subst. destruct (IH ys s1 s'' S2) as (s' & A & B). exists s'. split; [econstructor; eauto|exact B].
Qed.
Definition put (r : Z * list Z) : list sort_op := [SLen (fst r); SMove (snd r); SRelease].
Definition known (len : option Z) (r : Z * list Z) : Z * list Z := (match len with Some _ => fst r | None => Z.of_nat size end, snd r).

Lemma put_all : forall recs i a l r s st, steps (mkS i None a l r s) (flat_map put recs) st ->
  exists a' l' s', st = mkS (i ++ map (known l) recs) None a' l' r s' /\ (l = None <-> l' = None).
Proof.
  induction recs as [|[n d] recs IH]; intros i a l r s st H.
  - inversion H; subst. exists a, l, s. rewrite app_nil_r. tauto.
  - cbn [flat_map put app fst snd] in H.
    inversion H as [|? ? s1 ? ? S1 H1]; subst. inversion S1; subst. clear S1 H.
    inversion H1 as [|? ? s2 ? ? S2 H2]; subst. inversion S2; subst. clear S2 H1.
    inversion H2 as [|? ? s3 ? ? S3 H3]; subst. clear H2.
    inversion S3; subst; cbn [s_in s_out s_area s_len s_return] in *; [|discriminate].
    apply IH in H3. destruct H3 as (a' & l' & s' & -> & X). exists a', l', s'. split; [|destruct l; [|exact X]].
    + rewrite <- app_assoc. f_equal. cbn [map app]. f_equal. f_equal.
      * unfold known, len_of. cbn [fst snd s_len]. destruct l; reflexivity.
      * apply map_ext. intros q. unfold known. destruct l; reflexivity.
    + rewrite <- X. split; discriminate.
Qed.
Lemma take_all : forall k i out a l r s st, steps (mkS i (Some out) a l r s) (repeat SReturn (S k)) st -> (k <= length out)%nat ->
  s_return st = r /\ match nth_error out k with
  | Some x => s_status st = 0 /\ s_area st = snd x /\ ((length i <= memory)%nat -> l <> None -> s_len st = Some (fst x)) /\ ((memory < length i)%nat -> s_len st = l)
  | None => s_status st = 10
  end.
Proof.
  induction k as [|k IH]; intros i out a l r s st H LK.
  - cbn [repeat] in H. inversion H as [|? ? s1 ? ? S1 H1]; subst. inversion H1; subst. clear H H1.
    inversion S1; subst; cbn [s_in s_out s_area s_len s_return s_status] in *; try discriminate.
    + match goal with E : Some out = Some _ |- _ => injection E as -> end. cbn [nth_error fst snd]. repeat (split; [reflexivity|]). split.
      * intros LE NN. apply Nat.leb_le in LE. rewrite LE. destruct l; [reflexivity|contradiction].
      * intros GT. apply Nat.leb_gt in GT. rewrite GT. destruct l; reflexivity.
    + match goal with E : Some out = Some _ |- _ => injection E as -> end. cbn [nth_error]. auto.
  - change (repeat SReturn (S (S k))) with (SReturn :: repeat SReturn (S k)) in H. inversion H as [|? ? s1 ? ? S1 H1]; subst. clear H.
    inversion S1; subst; cbn [s_in s_out s_area s_len s_return s_status] in *; try discriminate.
    + match goal with E : Some out = Some _ |- _ => injection E as -> end. cbn [nth_error length] in *. apply IH in H1; [|lia]. destruct H1 as [A B]. split; [exact A|].
      destruct (nth_error rest k); [|exact B]. destruct B as (B1 & B2 & B3 & B4). repeat (split; [assumption|]). split.
      * intros LE NN. apply B3; [exact LE|]. destruct l; [discriminate|contradiction].
      * intros GT. rewrite (B4 GT). apply Nat.leb_gt in GT. rewrite GT. destruct l; reflexivity.
    + match goal with E : Some out = Some _ |- _ => injection E as -> end. cbn [length] in LK. lia.
Qed.
End Cycle.

Lemma releases_put : forall recs k, releases (flat_map put recs ++ repeat SReturn k) = length recs.
Proof.
  intros recs k. unfold releases. rewrite filter_app, app_length. assert (X : length (filter (fun o => match o with SRelease => true | _ => false end) (repeat SReturn k)) = 0%nat) by (induction k; cbn; auto).
  rewrite X. induction recs as [|r recs IH]; [reflexivity|]. cbn [flat_map put app filter length]. cbn [Nat.add] in *. rewrite IH. reflexivity.
Qed.

(** Release any records, then RETURN: number [k] (from 0) of the records in order. *)
Theorem C24_cycle : forall K size cob_sort_memory area len digits recs,
  (4 <= cob_sort_memory / (size + 32))%nat ->
  sort_rec K size area -> (forall v, len = Some v -> 0 <= v < 10 ^ digits) ->
  Forall (fun r => 0 <= fst r < 10 ^ digits /\ sort_rec K size (snd r)) recs -> Z.of_nat (length recs) + 1 < 2 ^ 64 ->
  forall k, (k <= length recs)%nat -> exists h out,
    run_sort (sort_init K size cob_sort_memory area (option_map (fun v => mkItem v digits) len)) (flat_map put recs ++ repeat SReturn (S k)) = Ok h /\
    in_order K (map (known size len) recs) out /\ h_return h = 0 /\
    match nth_error out k with
    | Some x => h_status h = 0 /\ h_area h = snd x /\ ((length recs <= cob_sort_memory / (size + 32))%nat -> len <> None -> option_map i_val (h_dep h) = Some (fst x))
    | None => h_status h = 10 /\ k = length recs
    end.
Proof.
  intros K size m area len digits recs M A L F N k KL.
  destruct (C24_history K size m area len digits (flat_map put recs ++ repeat SReturn (S k)) M A L) as (h & st & E & S & EA & ED & ER & ES).
  - apply Forall_app. split.
    + apply Forall_flat_map. eapply Forall_impl; [|exact F]. intros [n d] [X Y]. unfold put. cbn [fst snd] in *. constructor; [exact X|]. constructor; [exact Y|]. constructor; [exact I|constructor].
    + apply Forall_forall. intros o O. apply repeat_spec in O. subst. exact I.
  - rewrite releases_put. exact N.
  - apply steps_app in S. destruct S as (s1 & S1 & S2). apply put_all in S1. destruct S1 as (a' & l' & s' & -> & LN). cbn [app] in S2.
    assert (X : exists out, in_order K (map (known size len) recs) out /\ sort_steps K size (m / (size + 32)) (mkS (map (known size len) recs) (Some out) a' l' 0 s') (repeat SReturn (Datatypes.S k)) st).
    { cbn [repeat] in *. inversion S2 as [|? ? s2 ? ? T1 T2]; subst. inversion T1; subst; cbn [s_in s_out s_area s_len s_return s_status] in *; try discriminate. eexists. split; [eassumption|]. econstructor; eauto. }
    destruct X as (out & O & T). exists h, out. split; [exact E|]. split; [exact O|].
    assert (LO : length out = length recs) by (rewrite <- (map_length (known size len) recs); symmetry; apply Permutation_length; eapply C24_permutation; exact O).
    destruct (take_all _ _ _ _ _ _ _ _ _ _ _ T ltac:(lia)) as [R1 R2]. split; [congruence|].
    destruct (nth_error out k) as [x|] eqn:NX.
    + destruct R2 as (B1 & B2 & B3 & B4). split; [congruence|]. split; [congruence|]. rewrite map_length in B3. intros LE NN. rewrite ED. apply B3; tauto.
    + split; [congruence|]. apply nth_error_None in NX. lia.
Qed.

(** ** What fails *)
(** With more records than fit in memory, RETURN does not set the DEPENDING
    length item: it keeps what the program put there last, whatever record is returned. *)
Theorem C24_length_refuted : forall K size cob_sort_memory area v digits recs,
  (4 <= cob_sort_memory / (size + 32))%nat ->
  sort_rec K size area -> 0 <= v < 10 ^ digits ->
  Forall (fun r => 0 <= fst r < 10 ^ digits /\ sort_rec K size (snd r)) recs -> Z.of_nat (length recs) + 1 < 2 ^ 64 ->
  (cob_sort_memory / (size + 32) < length recs)%nat ->
  forall k, (k < length recs)%nat -> forall w, 0 <= w < 10 ^ digits -> exists h,
    run_sort (sort_init K size cob_sort_memory area (Some (mkItem v digits))) (flat_map put recs ++ [SLen w] ++ repeat SReturn (S k)) = Ok h /\
    h_status h = 0 /\ option_map i_val (h_dep h) = Some w.
Proof.
  intros K size m area v digits recs M A L F N BIG k KL w W.
  destruct (C24_history K size m area (Some v) digits (flat_map put recs ++ [SLen w] ++ repeat SReturn (S k)) M A ltac:(intros ? [= <-]; exact L)) as (h & st & E & S & EA & ED & ER & ES).
  - apply Forall_app. split; [|constructor; [exact W|]].
    + apply Forall_flat_map. eapply Forall_impl; [|exact F]. intros [n d] [X Y]. unfold put. cbn [fst snd] in *. constructor; [exact X|]. constructor; [exact Y|]. constructor; [exact I|constructor].
    + apply Forall_forall. intros o O. apply repeat_spec in O. subst. exact I.
  - assert (X : releases (flat_map put recs ++ [SLen w] ++ repeat SReturn (S k)) = length recs).
    { rewrite <- (releases_put recs (S k)). unfold releases. rewrite !filter_app, !app_length. reflexivity. }
    rewrite X. exact N.
  - apply steps_app in S. destruct S as (s1 & S1 & S2). apply put_all in S1. destruct S1 as (a' & l' & s' & -> & LN). cbn [app] in S2.
    inversion S2 as [|? ? s2 ? ? T1 T2]; subst. inversion T1; subst. clear S2 T1. cbn [s_in s_out s_area s_len s_return s_status] in *.
    destruct l' as [l'|]; [|destruct LN as [_ LN]; discriminate (LN eq_refl)].
    assert (X : exists out, in_order K (map (known size (Some v)) recs) out /\ sort_steps K size (m / (size + 32)) (mkS (map (known size (Some v)) recs) (Some out) a' (Some w) 0 s') (repeat SReturn (Datatypes.S k)) st).
    { cbn [repeat] in *. inversion T2 as [|? ? s2 ? ? T1 T3]; subst. inversion T1; subst; cbn [s_in s_out s_area s_len s_return s_status] in *; try discriminate. eexists. split; [eassumption|]. econstructor; eauto. }
    destruct X as (out & O & T). exists h. split; [exact E|].
    assert (LO : length out = length recs) by (rewrite <- (map_length (known size (Some v)) recs); symmetry; apply Permutation_length; eapply C24_permutation; exact O).
    destruct (take_all _ _ _ _ _ _ _ _ _ _ _ T ltac:(lia)) as [R1 R2]. destruct (nth_error out k) as [x|] eqn:NX; [|apply nth_error_None in NX; lia].
    destruct R2 as (B1 & _ & _ & B4). split; [congruence|]. rewrite ED. apply B4. rewrite map_length. exact BIG.
Qed.

(** A record so large that only one fits in the memory for sorting: the first
    RETURN takes four items from a list that has fewer. *)
Theorem C24_big_record_refuted : forall K size cob_sort_memory area,
  (size + 32 <= cob_sort_memory < 2 * (size + 32))%nat -> length area = size ->
  run_sort (sort_init K size cob_sort_memory area None) [SRelease; SRelease; SReturn] = UB.
Proof.
  intros K size m area M A. assert (MM : (m / (size + 32) = 1)%nat).
  { symmetry. apply (Nat.div_unique m (size + 32) 1 (m - (size + 32))); lia. }
  unfold sort_init. rewrite MM. cbn [run_sort run_sort_op]. unfold release at 1. cbn [h_retrieving h_memory h_q0 h_q1 empty_queue q_count Nat.add Nat.leb h_area h_size obind].
  rewrite A, Nat.ltb_irrefl. cbv zeta. cbn [h_keys h_size h_memory h_unique h_retrieving h_files_used h_dest1 h_q0 h_q1 h_rq h_w0 h_w1 h_b0 h_b1 h_free h_area h_dep h_return h_status empty_queue q_count q_items Nat.leb obind pred].
  unfold release at 1. cbn [h_keys h_size h_memory h_unique h_retrieving h_files_used h_dest1 h_q0 h_q1 h_rq h_w0 h_w1 h_b0 h_b1 h_free h_area h_dep h_return h_status empty_queue q_count q_items Nat.leb Nat.add obind pred sort_queues Nat.eqb length].
  rewrite A, Nat.ltb_irrefl. cbv zeta. cbn [h_keys h_size h_memory h_unique h_retrieving h_files_used h_dest1 h_q0 h_q1 h_rq h_w0 h_w1 h_b0 h_b1 h_free h_area h_dep h_return h_status empty_queue q_count q_items Nat.leb Nat.add obind pred negb].
  unfold sort_return. cbn [h_retrieving obind]. unfold sort_process.
  cbn [h_keys h_size h_memory h_unique h_retrieving h_files_used h_dest1 h_q0 h_q1 h_rq h_w0 h_w1 h_b0 h_b1 h_free h_area h_dep h_return h_status empty_queue q_count q_items Nat.leb Nat.ltb Nat.add obind pred sort_queues Nat.eqb length negb]. reflexivity.
Qed.

(** ** The hypotheses are met *)
(** Descending on a COMP-3 item, then ascending on text; six records of four
    bytes and room for four in memory, so the work files are used. *)
Definition ex_K : sortkeys := mkKeys default_cfg None
  [mkKey false (mkAttr TPacked 3 0 true false false false false false false []) 2 0;
   mkKey true (mkAttr TAlnum 0 0 false false false false false false false []) 2 2].
Definition ex_recs : list (Z * list Z) :=
  [(1, [18;60;65;66]); (2, [18;61;65;67]); (3, [18;60;65;65]); (4, [153;156;90;90]); (5, [18;60;65;65]); (6, [0;13;32;32])].
Definition ex_attr : fattr := mkAttr TPacked 3 0 true false false false false false false [].
Lemma ex_rec_ok : forall neg ds c d l, length ds = 3%nat -> Forall is_dig ds -> l = packed ex_attr neg ds ++ [c; d] -> length (packed ex_attr neg ds) = 2%nat -> sort_rec ex_K 4 l.
Proof.
  intros neg ds c d l L F -> LP. split; [rewrite app_length, LP; reflexivity|].
  constructor; [|constructor; [|constructor]]; (split; [rewrite app_length, LP; cbn; lia|]); cbn [is_numeric_type k_attr a_type].
  - exists (signed_value neg ds). unfold key_field. cbn [k_attr k_size k_off skipn]. rewrite firstn_app, LP, Nat.sub_diag, <- LP, firstn_all, app_nil_r.
    apply (den_packed _ ex_attr neg ds); auto; try discriminate; destruct ds; discriminate || (cbn [length] in *; try lia). cbn. lia.
  - left. reflexivity.
Qed.
Lemma ex_recs_ok : Forall (fun r => 0 <= fst r < 10 ^ 2 /\ sort_rec ex_K 4 (snd r)) ex_recs.
Proof.
  assert (D : forall a b c, 0 <= a <= 9 -> 0 <= b <= 9 -> 0 <= c <= 9 -> Forall is_dig [a; b; c]) by (intros; repeat constructor; assumption || (unfold is_dig; lia)).
  unfold ex_recs. repeat (apply Forall_cons; [split; [cbn [fst]; lia|]|]); [..|constructor]; cbn [snd].
  - apply (ex_rec_ok false [1;2;3] 65 66); try reflexivity. apply D; lia.
  - apply (ex_rec_ok true [1;2;3] 65 67); try reflexivity. apply D; lia.
  - apply (ex_rec_ok false [1;2;3] 65 65); try reflexivity. apply D; lia.
  - apply (ex_rec_ok false [9;9;9] 90 90); try reflexivity. apply D; lia.
  - apply (ex_rec_ok false [1;2;3] 65 65); try reflexivity. apply D; lia.
  - apply (ex_rec_ok true [0;0;0] 32 32); try reflexivity. apply D; lia.
Qed.
(** The areas seen by seven RETURNs. *)
Fixpoint seen (h : sorter) (n : nat) : outcome (list (Z * list Z)) :=
  match n with O => Ok [] | S k => do h' <- sort_return h; do r <- seen h' k; Ok ((h_status h', h_area h') :: r) end.
Example C24_ex : (4 <= 150 / (4 + 32))%nat /\ sort_rec ex_K 4 [18;60;65;66] /\
  (do h <- run_sort (sort_init ex_K 4 150 [18;60;65;66] (Some (mkItem 4 2))) (flat_map put ex_recs); seen h 7) =
  Ok [(0, [153;156;90;90]); (0, [18;60;65;65]); (0, [18;60;65;65]); (0, [18;60;65;66]); (0, [0;13;32;32]); (0, [18;61;65;67]); (10, [18;61;65;67])].
Proof.
  split; [vm_compute; lia|]. split.
  - apply (ex_rec_ok false [1;2;3] 65 66); try reflexivity. repeat constructor; unfold is_dig; lia.
  - vm_compute. reflexivity.
Qed.

Print Assumptions C24_history.
Print Assumptions C24_cycle.
Print Assumptions C24_permutation.
Print Assumptions C24_sorted.
Print Assumptions C24_length_refuted.
Print Assumptions C24_big_record_refuted.
