(** The simulation of SpecFileSort by FileSort. *)
From Coq Require Import Sorting.Permutation Sorting.Sorted.
From Verif Require Import Base Field SpecNum SpecCmp Compare MoveAll SpecSort CmpMore Numeric Stdio StdioProofs FileIO FileSort SpecFileSort SortProofs SortFiles.

Fixpoint items_from (k : Z) (rs : list (Z * list Z)) : list sitem :=
  match rs with [] => [] | (n, d) :: r => mkItm n k d :: items_from (k + 1) r end.
Lemma items_length : forall rs k, length (items_from k rs) = length rs.
Proof. induction rs as [|[n d] rs IH]; intros k; cbn; auto. Qed.
Lemma items_snoc : forall rs k n d, items_from k (rs ++ [(n, d)]) = items_from k rs ++ [mkItm n (k + Z.of_nat (length rs)) d].
Proof.
  induction rs as [|[m e] rs IH]; intros k n d; cbn [app items_from length]; [now rewrite Z.add_0_r|].
  rewrite IH. replace (k + Z.of_nat (S (length rs))) with (k + 1 + Z.of_nat (length rs)) by lia. reflexivity.
Qed.
Lemma items_nth : forall rs k i a, nth_error rs i = Some a -> nth_error (items_from k rs) i = Some (mkItm (fst a) (k + Z.of_nat i) (snd a)).
Proof.
  induction rs as [|[m e] rs IH]; intros k i a N; destruct i as [|i]; try discriminate; cbn [nth_error items_from] in *.
  - injection N as <-. cbn [fst snd]. replace (k + Z.of_nat 0) with k by lia. reflexivity.
  - rewrite (IH _ _ _ N). replace (k + Z.of_nat (S i)) with (k + 1 + Z.of_nat i) by lia. reflexivity.
Qed.
Lemma items_in : forall rs k x, In x (items_from k rs) -> k <= it_unique x /\
  nth_error rs (Z.to_nat (it_unique x - k)) = Some (it_size x, it_data x).
Proof.
  induction rs as [|[m e] rs IH]; intros k x I; [contradiction|]. cbn [items_from] in I. destruct I as [<-|I].
  - cbn [it_unique it_size it_data]. split; [lia|]. replace (Z.to_nat (k - k)) with 0%nat by lia. reflexivity.
  - destruct (IH _ _ I) as [A B]. split; [lia|]. replace (Z.to_nat (it_unique x - k)) with (S (Z.to_nat (it_unique x - (k + 1)))) by lia. exact B.
Qed.
Lemma items_unique : forall rs k, map it_unique (items_from k rs) = map (fun i => k + Z.of_nat i) (seq 0 (length rs)).
Proof.
  induction rs as [|[m e] rs IH]; intros k; [reflexivity|]. cbn [items_from map length seq it_unique]. f_equal; [lia|].
  rewrite IH, <- seq_shift, map_map. apply map_ext. intros. lia.
Qed.
Lemma items_distinct : forall rs k, distinct (items_from k rs).
Proof.
  intros rs k. unfold distinct. rewrite items_unique. apply FinFun.Injective_map_NoDup; [intros a b; lia|apply seq_NoDup].
Qed.

Section Sim.
Variable K : sortkeys.
Variable size memory : nat.
Variable digits : Z.
Hypothesis MEM : (4 <= memory)%nat.
Let good := good K size.
Let R := R K.

Lemma R_irrefl : forall x, good x -> ~ R x x.
Proof.
  intros x [[_ G] _] [L|[_ L]]; [|lia].
  destruct (sort_compare_spec (sk_cfg K) (sk_col K) (sk_keys K) (it_data x) (it_data x) G G) as (c & _ & A & _ & B). apply A in L as X. apply B in L as Y. lia.
Qed.

(** A sorted permutation is the specified order. *)
Lemma sorted_in_order : forall rs zs, Permutation zs (items_from 0 rs) -> StronglySorted R zs ->
  in_order K rs (map (fun x => (it_size x, it_data x)) zs).
Proof.
  intros rs zs P S. exists (map (fun x => Z.to_nat (it_unique x)) zs).
  assert (NTH : forall x, In x zs -> 0 <= it_unique x /\ nth_error rs (Z.to_nat (it_unique x)) = Some (it_size x, it_data x)).
  { intros x I. destruct (items_in rs 0 x (Permutation_in _ P I)) as [A B]. rewrite Z.sub_0_r in B. auto. }
  split; [|split].
  - eapply Permutation_trans; [apply Permutation_map; exact P|]. rewrite <- (map_map it_unique Z.to_nat), items_unique, map_map.
    rewrite (map_ext _ (fun i => i)) by (intros; lia). rewrite map_id. reflexivity.
  - clear P. induction S as [|x zs S IH F]; [constructor|]. cbn [map]. constructor; [apply IH; intros; apply NTH; right; auto|].
    rewrite Forall_forall in F |- *. intros j J. apply in_map_iff in J. destruct J as (y & <- & Y). destruct (NTH x (or_introl eq_refl)) as [UX NX]. destruct (NTH y (or_intror Y)) as [UY NY].
    exists (it_size x, it_data x), (it_size y, it_data y). split; [exact NX|]. split; [exact NY|]. cbn [snd]. destruct (F y Y) as [L|[E L]]; [left; exact L|right; split; [exact E|lia]].
  - rewrite !map_map. apply map_ext_in. intros x I. symmetry. apply NTH. exact I.
Qed.

Definition single (x : sitem) : list sitem := [x].
Lemma concat_single : forall l, concat (map single l) = l.
Proof. induction l as [|x l IH]; cbn [map concat single app]; auto. now rewrite IH. Qed.

Definition dep_rel (it : option item) (l : option Z) : Prop :=
  match it, l with
  | None, None => True
  | Some i, Some v => i = mkItem v digits /\ 0 <= v < 10 ^ digits
  | _, _ => False
  end.
Definition lens_ok (l : option Z) (rs : list (Z * list Z)) : Prop := l <> None -> Forall (fun r => 0 <= fst r < 10 ^ digits) rs.

Record common (h : sorter) (st : sstate) : Prop := {
  cm_keys : h_keys h = K; cm_size : h_size h = size; cm_mem : h_memory h = memory;
  cm_area : h_area h = s_area st; cm_rec : sort_rec K size (s_area st);
  cm_dep : dep_rel (h_dep h) (s_len st); cm_lens : lens_ok (s_len st) (s_in st);
  cm_ret : h_return h = s_return st; cm_status : h_status h = s_status st }.

Record collecting (h : sorter) (st : sstate) (A B : list sitem) (F0 F1 : list (list sitem)) : Prop := {
  co_common : common h st; co_out : s_out st = None; co_ret : h_retrieving h = false;
  co_unique : h_unique h = Z.of_nat (length (s_in st));
  co_q0 : h_q0 h = qof (map single A); co_q1 : h_q1 h = qof (map single B);
  co_bal : length A = length B \/ length A = S (length B);
  co_room : (length A + length B <= memory)%nat;
  co_w0 : holds (h_w0 h) F0; co_w1 : holds (h_w1 h) F1;
  co_run0 : Forall (run_ok K size) F0; co_run1 : Forall (run_ok K size) F1;
  co_few : (length F0 + length F1 <= length (concat F0 ++ concat F1))%nat;
  co_good : Forall good (items_from 0 (s_in st));
  co_perm : Permutation ((A ++ B) ++ (concat F0 ++ concat F1)) (items_from 0 (s_in st));
  co_files : (h_files_used h = false /\ F0 = [] /\ F1 = []) \/
    (h_files_used h = true /\ (1 <= length F0)%nat /\ (if h_dest1 h then length F0 = S (length F1) else length F0 = length F1) /\
     (4 <= h_free h + (length A + length B))%nat /\ (memory <= length (concat F0 ++ concat F1))%nat) }.

(** The order of what is left to return. *)
Record delivering (h : sorter) (st : sstate) (zs : list sitem) : Prop := {
  de_common : common h st; de_ret : h_retrieving h = true;
  de_out : s_out st = Some (map (fun x => (it_size x, it_data x)) zs);
  de_good : Forall good zs;
  de_lens : lens_ok (s_len st) (map (fun x => (it_size x, it_data x)) zs);
  de_state : (h_files_used h = false /\ map fst (q_items (h_rq h)) = zs /\ (length (s_in st) <= memory)%nat) \/
    (h_files_used h = true /\ (memory < length (s_in st))%nat /\ StronglySorted R zs /\ exists xs ys rx ry, src xs rx (h_b0 h) (w_str (h_w0 h)) /\ src ys ry (h_b1 h) (w_str (h_w1 h)) /\
       StronglySorted R xs /\ StronglySorted R ys /\ distinct (xs ++ ys) /\ Permutation zs (xs ++ ys)) }.

Lemma single_blocks : forall l, Forall good l -> Forall (sorted_block K size) (map single l).
Proof.
  intros l F. induction F as [|x l G F IH]; [constructor|]. cbn [map]. constructor; auto. split; [discriminate|]. split; [repeat constructor|]. constructor; [exact G|constructor].
Qed.
Lemma len_single : forall l, length (map single l) = length l.
Proof. intros. apply map_length. Qed.

Lemma write_items_ok : forall l w, wok (w_str w) -> wok (w_str (write_items w l)) /\ w_count (write_items w l) = w_count w /\
  done_of (w_str (write_items w l)) = done_of (w_str w) ++ flat_map ib (map fst l).
Proof.
  unfold write_items. induction l as [|[x e] l IH]; intros w W; cbn [fold_left map flat_map fst]; [rewrite app_nil_r; auto|].
  destruct (fwrite_done (w_str w) (item_bytes (it_unique x) (it_data x)) W) as [W' D].
  destruct (IH (wf_write w (item_bytes (it_unique x) (it_data x))) W') as (A & B & C). split; [exact A|]. split; [exact B|].
  rewrite C. cbn [wf_write w_str]. rewrite D, <- app_assoc. reflexivity.
Qed.
Lemma write_block_ok : forall w F q, holds w F -> Z.of_nat (length F) + 1 < 2 ^ 64 -> holds (write_block w q) (F ++ [map fst (q_items q)]).
Proof.
  intros w F q (W & D & C) L. destruct (write_items_ok (q_items q) w W) as (A & B & E). apply end_block_holds; auto; [rewrite E, D; reflexivity|congruence].
Qed.

(** Sorting what is in memory. *)
Lemma memory_sort : forall h st A B F0 F1, collecting h st A B F0 F1 ->
  exists s2 zs q1, sort_queues (S (q_count (h_q0 h) + q_count (h_q1 h))) (h_keys h) (h_q0 h) (h_q1 h) false = Ok (s2, mkQueue (blk zs) (length zs), q1) /\
    run_ok K size zs /\ Permutation zs (A ++ B).
Proof.
  intros h st A B F0 F1 C. pose proof (co_common _ _ _ _ _ _ C) as CM. rewrite (cm_keys _ _ CM), (co_q0 _ _ _ _ _ _ C), (co_q1 _ _ _ _ _ _ C).
  assert (GA : Forall good (A ++ B)).
  { pose proof (co_good _ _ _ _ _ _ C) as G. eapply Permutation_Forall in G; [|apply Permutation_sym; exact (co_perm _ _ _ _ _ _ C)]. apply Forall_app in G. tauto. }
  apply Forall_app in GA. destruct GA as [GA GB].
  destruct (sort_queues_ok K size (S (q_count (qof (map single A)) + q_count (qof (map single B)))) (map single A) (map single B) false) as (s2 & zs & E & S & G & P).
  - unfold qof. cbn [q_count]. rewrite !concat_single, !len_single. lia.
  - rewrite !len_single. exact (co_bal _ _ _ _ _ _ C).
  - apply single_blocks; auto.
  - apply single_blocks; auto.
  - rewrite !concat_single. pose proof (items_distinct (s_in st) 0) as D. eapply distinct_perm in D; [|apply Permutation_sym; exact (co_perm _ _ _ _ _ _ C)]. eapply distinct_app_l; eauto.
  - rewrite !concat_single in P. exists s2, zs, (qof []). split; [exact E|]. split; [split; auto|exact P].
Qed.

Lemma files_count : forall h st A B F0 F1, collecting h st A B F0 F1 -> (length A + length B + (length F0 + length F1) <= length (s_in st))%nat.
Proof.
  intros h st A B F0 F1 C. pose proof (Permutation_length (co_perm _ _ _ _ _ _ C)) as L. rewrite items_length in L. rewrite !app_length in L. pose proof (co_few _ _ _ _ _ _ C) as F. rewrite app_length in F. lia.
Qed.

(** The first RETURN. *)
Lemma process_ok : forall h st A B F0 F1, collecting h st A B F0 F1 -> (h_files_used h = true -> 1 <= length A)%nat -> Z.of_nat (length (s_in st)) + 1 < 2 ^ 64 ->
  exists h1 zs, sort_process h = Ok (Some h1) /\ Permutation zs (items_from 0 (s_in st)) /\ StronglySorted R zs /\
    delivering h1 (mkS (s_in st) (Some (map (fun x => (it_size x, it_data x)) zs)) (s_area st) (s_len st) (s_return st) (s_status st)) zs.
Proof.
  intros h st A B F0 F1 C NA NW. pose proof (co_common _ _ _ _ _ _ C) as CM.
  destruct (memory_sort _ _ _ _ _ _ C) as (s2 & zs & q1 & E & [SZ GZ] & PZ). unfold sort_process. rewrite E. cbn [obind].
  assert (LENS : forall zs, Permutation zs (items_from 0 (s_in st)) -> lens_ok (s_len st) (map (fun x => (it_size x, it_data x)) zs)).
  { intros l P NN. pose proof (cm_lens _ _ CM NN) as F. rewrite Forall_forall in F |- *. intros r RI. apply in_map_iff in RI. destruct RI as (x & <- & X).
    apply (Permutation_in _ P) in X. apply items_in in X. destruct X as [_ X]. apply nth_error_In in X. exact (F _ X). }
  destruct (co_files _ _ _ _ _ _ C) as [(FU & -> & ->)|(FU & L1 & DB & FR & MM0)]; rewrite FU; cbn [negb].
  - assert (P : Permutation zs (items_from 0 (s_in st))).
    { eapply Permutation_trans; [exact PZ|]. pose proof (co_perm _ _ _ _ _ _ C) as P. cbn [concat app] in P. rewrite app_nil_r in P. exact P. }
    eexists _, zs. split; [reflexivity|]. split; [exact P|]. split; [exact SZ|].
    destruct CM as [c1 c2 c3 c4 c5 c6 c7 c8 c9]. constructor; [constructor; cbn; auto|reflexivity|reflexivity| | |].
    + exact GZ.
    + apply LENS. exact P.
    + left. cbn. split; [reflexivity|]. split; [apply blk_fst|]. pose proof (Permutation_length P) as L. rewrite items_length in L. apply Permutation_length in PZ. rewrite app_length in PZ. pose proof (co_room _ _ _ _ _ _ C). lia.
  - set (w0 := if h_dest1 h then h_w0 h else write_block (h_w0 h) (mkQueue (blk zs) (length zs))).
    set (w1 := if h_dest1 h then write_block (h_w1 h) (mkQueue (blk zs) (length zs)) else h_w1 h).
    pose proof (files_count _ _ _ _ _ _ C) as FC. specialize (NA FU).
    assert (MM : (memory < length (s_in st))%nat) by (pose proof (Permutation_length (co_perm _ _ _ _ _ _ C)) as L; rewrite items_length, app_length, (app_length A) in L; lia).
    assert (HH : exists G0 G1, holds w0 G0 /\ holds w1 G1 /\ Forall (run_ok K size) G0 /\ Forall (run_ok K size) G1 /\ (length G0 = length G1 \/ length G0 = S (length G1)) /\ (1 <= length G1)%nat /\
       Permutation (concat G0 ++ concat G1) (items_from 0 (s_in st)) /\ (length G0 <= S (length F0))%nat).
    { pose proof (co_perm _ _ _ _ _ _ C) as P0. subst w0 w1. destruct (h_dest1 h).
      - exists F0, (F1 ++ [zs]). split; [exact (co_w0 _ _ _ _ _ _ C)|]. split.
        { pose proof (write_block_ok (h_w1 h) F1 (mkQueue (blk zs) (length zs)) (co_w1 _ _ _ _ _ _ C) ltac:(lia)) as W. cbn [q_items] in W. rewrite blk_fst in W. exact W. }
        split; [exact (co_run0 _ _ _ _ _ _ C)|]. split; [apply Forall_app; split; [exact (co_run1 _ _ _ _ _ _ C)|constructor; [split; auto|constructor]]|].
        rewrite app_length. cbn [length]. split; [lia|]. split; [lia|]. split; [|lia].
        rewrite concat_app. cbn [concat]. rewrite app_nil_r. eapply Permutation_trans; [|exact P0]. rewrite app_assoc. eapply Permutation_trans; [apply Permutation_app_comm|]. apply Permutation_app_tail. exact PZ.
      - exists (F0 ++ [zs]), F1. split.
        { pose proof (write_block_ok (h_w0 h) F0 (mkQueue (blk zs) (length zs)) (co_w0 _ _ _ _ _ _ C) ltac:(lia)) as W. cbn [q_items] in W. rewrite blk_fst in W. exact W. }
        split; [exact (co_w1 _ _ _ _ _ _ C)|].
        split; [apply Forall_app; split; [exact (co_run0 _ _ _ _ _ _ C)|constructor; [split; auto|constructor]]|]. split; [exact (co_run1 _ _ _ _ _ _ C)|].
        rewrite app_length. cbn [length]. split; [lia|]. split; [lia|]. split; [|lia].
        rewrite concat_app. cbn [concat]. rewrite app_nil_r. eapply Permutation_trans; [|exact P0]. rewrite <- app_assoc.
        eapply Permutation_trans; [apply Permutation_app_comm|]. rewrite <- app_assoc. eapply Permutation_trans; [apply Permutation_app_tail; exact PZ|]. apply Permutation_app_head. apply Permutation_app_comm. }
    destruct HH as (G0 & G1 & H0 & H1 & R0 & R1 & BL & L2 & PG & LG).
    destruct (Nat.ltb_spec (h_free h + length (q_items (mkQueue (blk zs) (length zs))))%nat 4) as [X|_].
    { exfalso. cbn [q_items] in X. rewrite blk_length in X. apply Permutation_length in PZ. rewrite app_length in PZ. lia. }
    destruct (holds_rewind w0 G0 H0) as (r0 & RW0). destruct (holds_rewind w1 G1 H1) as (r1 & RW1).
    destruct H0 as ([A0 _] & _ & C0), H1 as ([A1 _] & _ & C1).
    destruct (files_merge_ok K size (S (Z.to_nat (w_count w0))) G0 G1 (wf_rewind w0) (wf_rewind w1) (mkW new_stream 0) (mkW new_stream 0) r0 r1) as (a' & b' & x & y & rx & ry & EM & [SX GX] & [SY GY] & RX & RY & PXY); auto; try reflexivity.
    { rewrite C0, Nat2Z.id. lia. }
    { eapply distinct_perm; [apply Permutation_sym; exact PG|apply items_distinct]. }
    { lia. }
    rewrite (cm_keys _ _ CM), (cm_size _ _ CM). rewrite EM. cbn [obind].
    destruct (read_block K size (w_str a') x rx GX RX) as (ha & sa & ERA & _ & _ & SRA). rewrite ERA.
    destruct (read_block K size (w_str b') y ry GY RY) as (hb & sb & ERB & _ & _ & SRB). rewrite ERB.
    (* the merged order *)
    assert (DXY : distinct (x ++ y)) by (eapply distinct_perm; [apply Permutation_sym; eapply Permutation_trans; [exact PXY|exact PG]|apply items_distinct]).
    destruct (merge_blocks_ok K size (length x + length y) x y [] [] 0%nat 0%nat empty_queue (le_n _) SX SY GX GY DXY) as (out & _ & PO & SO).
    assert (P : Permutation out (items_from 0 (s_in st))) by (eapply Permutation_trans; [exact PO|]; eapply Permutation_trans; eauto).
    eexists _, out. split; [reflexivity|]. split; [exact P|]. split; [exact SO|].
    destruct CM as [c1 c2 c3 c4 c5 c6 c7 c8 c9]. constructor; [constructor; cbn; auto|reflexivity|reflexivity| | |].
    + eapply Permutation_Forall; [apply Permutation_sym; exact P|exact (co_good _ _ _ _ _ _ C)].
    + apply LENS. exact P.
    + right. cbn [h_files_used h_b0 h_b1 h_w0 h_w1 w_str s_in]. split; [reflexivity|]. split; [exact MM|]. split; [exact SO|]. exists x, y, rx, ry.
      split; [exact SRA|]. split; [exact SRB|]. split; [exact SX|]. split; [exact SY|]. split; [exact DXY|]. exact PO.
Qed.

Lemma good_sub : forall h st A B F0 F1, collecting h st A B F0 F1 -> Forall good (A ++ B) /\ Forall good (concat F0 ++ concat F1).
Proof.
  intros h st A B F0 F1 C. pose proof (co_good _ _ _ _ _ _ C) as G. eapply Permutation_Forall in G; [|apply Permutation_sym; exact (co_perm _ _ _ _ _ _ C)]. apply Forall_app in G. exact G.
Qed.

(** Putting one more record in the queues. *)
Definition spilled (h : sorter) (q : queue) : sorter :=
  let dest1 := if h_files_used h then h_dest1 h else false in
  mkSort (h_keys h) (h_size h) (h_memory h) (h_unique h) false true (negb dest1)
         empty_queue empty_queue (h_rq h)
         (if dest1 then h_w0 h else write_block (h_w0 h) q) (if dest1 then write_block (h_w1 h) q else h_w1 h)
         None None (h_free h + length (q_items q)) (h_area h) (h_dep h) (h_return h) (h_status h).

Lemma spill_ok : forall h st A B F0 F1 zs, collecting h st A B F0 F1 -> (memory <= length A + length B)%nat -> Z.of_nat (length (s_in st)) + 1 < 2 ^ 64 ->
  run_ok K size zs -> Permutation zs (A ++ B) -> exists G0 G1, collecting (spilled h (mkQueue (blk zs) (length zs))) st [] [] G0 G1.
Proof.
  intros h st A B F0 F1 zs C FULL NW RZ PZ. pose proof (co_common _ _ _ _ _ _ C) as CM. pose proof (files_count _ _ _ _ _ _ C) as FC.
  pose proof (Permutation_length PZ) as LZ. rewrite app_length in LZ.
  assert (CM' : common (spilled h (mkQueue (blk zs) (length zs))) st) by (destruct CM; constructor; auto).
  pose proof (co_perm _ _ _ _ _ _ C) as P0. pose proof (co_few _ _ _ _ _ _ C) as FEW. rewrite app_length in FEW.
  destruct (if h_files_used h then h_dest1 h else false) eqn:DD.
  - exists F0, (F1 ++ [zs]). assert (DE : h_files_used h = true /\ h_dest1 h = true) by (destruct (h_files_used h); [auto|discriminate]). destruct DE as [FU DE].
    destruct (co_files _ _ _ _ _ _ C) as [(X & _)|(_ & L1 & DB & FR & MM0)]; [congruence|]. rewrite DE in DB.
    constructor; auto; unfold spilled; cbv zeta; rewrite ?DD; cbn [h_unique h_retrieving h_q0 h_q1 h_w0 h_w1 h_files_used h_dest1 h_free negb q_items].
    + exact (co_out _ _ _ _ _ _ C).
    + exact (co_unique _ _ _ _ _ _ C).
    + cbn [length]. lia.
    + exact (co_w0 _ _ _ _ _ _ C).
    + pose proof (write_block_ok (h_w1 h) F1 (mkQueue (blk zs) (length zs)) (co_w1 _ _ _ _ _ _ C) ltac:(lia)) as W. cbn [q_items] in W. rewrite blk_fst in W. exact W.
    + exact (co_run0 _ _ _ _ _ _ C).
    + apply Forall_app. split; [exact (co_run1 _ _ _ _ _ _ C)|constructor; [exact RZ|constructor]].
    + rewrite concat_app, !app_length. cbn [concat]. rewrite app_nil_r. cbn [length]. lia.
    + exact (co_good _ _ _ _ _ _ C).
    + cbn [app]. rewrite concat_app. cbn [concat]. rewrite app_nil_r. eapply Permutation_trans; [|exact P0]. rewrite app_assoc. eapply Permutation_trans; [apply Permutation_app_comm|]. apply Permutation_app_tail. exact PZ.
    + right. split; [reflexivity|]. split; [exact L1|]. split; [rewrite app_length; cbn [length]; lia|]. split; [rewrite blk_length; lia|].
      rewrite concat_app, !app_length. cbn [concat]. rewrite app_nil_r. lia.
  - exists (F0 ++ [zs]), F1.
    assert (EQL : length F0 = length F1).
    { destruct (co_files _ _ _ _ _ _ C) as [(X & -> & ->)|(FU & L1 & DB & FR & MM0)]; [reflexivity|]. rewrite FU in DD. rewrite DD in DB. exact DB. }
    constructor; auto; unfold spilled; cbv zeta; rewrite ?DD; cbn [h_unique h_retrieving h_q0 h_q1 h_w0 h_w1 h_files_used h_dest1 h_free negb q_items].
    + exact (co_out _ _ _ _ _ _ C).
    + exact (co_unique _ _ _ _ _ _ C).
    + cbn [length]. lia.
    + pose proof (write_block_ok (h_w0 h) F0 (mkQueue (blk zs) (length zs)) (co_w0 _ _ _ _ _ _ C) ltac:(lia)) as W. cbn [q_items] in W. rewrite blk_fst in W. exact W.
    + exact (co_w1 _ _ _ _ _ _ C).
    + apply Forall_app. split; [exact (co_run0 _ _ _ _ _ _ C)|constructor; [exact RZ|constructor]].
    + exact (co_run1 _ _ _ _ _ _ C).
    + rewrite concat_app, !app_length. cbn [concat]. rewrite app_nil_r. cbn [length]. lia.
    + exact (co_good _ _ _ _ _ _ C).
    + cbn [app]. rewrite concat_app. cbn [concat]. rewrite app_nil_r. eapply Permutation_trans; [|exact P0]. rewrite <- app_assoc.
      eapply Permutation_trans; [apply Permutation_app_comm|]. rewrite <- app_assoc. eapply Permutation_trans; [apply Permutation_app_tail; exact PZ|]. apply Permutation_app_head. apply Permutation_app_comm.
    + right. split; [reflexivity|]. rewrite app_length. cbn [length]. split; [lia|]. split; [lia|]. split; [rewrite blk_length; lia|].
      rewrite concat_app, !app_length. cbn [concat]. rewrite app_nil_r. lia.
Qed.

Definition added (st : sstate) : sstate := mkS (s_in st ++ [(len_of size st, s_area st)]) None (s_area st) (s_len st) (s_return st) 0.
Definition put_rec (h : sorter) : sorter :=
  let q := (mkItm (match h_dep h with Some d => i_val d | None => Z.of_nat (h_size h) end) (h_unique h) (firstn (h_size h) (h_area h)), true) in
  let put (z : queue) := mkQueue (q :: q_items z) (S (q_count z)) in
  let first := (q_count (h_q0 h) <=? q_count (h_q1 h))%nat in
  mkSort (h_keys h) (h_size h) (h_memory h) ((h_unique h + 1) mod 2 ^ 64) false (h_files_used h) (h_dest1 h)
    (if first then put (h_q0 h) else h_q0 h) (if first then h_q1 h else put (h_q1 h))
    (h_rq h) (h_w0 h) (h_w1 h) None None (pred (h_free h)) (h_area h) (h_dep h) (h_return h) 0.

Lemma put_ok : forall h st A B F0 F1, collecting h st A B F0 F1 -> (length A + length B < memory)%nat -> Z.of_nat (length (s_in st)) + 1 < 2 ^ 64 ->
  exists A' B', collecting (put_rec h) (added st) A' B' F0 F1 /\ (1 <= length A')%nat.
Proof.
  intros h st A B F0 F1 C ROOM NW. pose proof (co_common _ _ _ _ _ _ C) as CM. destruct CM as [c1 c2 c3 c4 c5 c6 c7 c8 c9].
  set (x := mkItm (len_of size st) (Z.of_nat (length (s_in st))) (s_area st)).
  assert (EX : mkItm (match h_dep h with Some d => i_val d | None => Z.of_nat (h_size h) end) (h_unique h) (firstn (h_size h) (h_area h)) = x).
  { unfold x. rewrite c4, c2, (co_unique _ _ _ _ _ _ C). destruct c5 as [LA _]. rewrite <- LA, firstn_all. f_equal. unfold len_of, dep_rel in *.
    destruct (h_dep h) as [i|], (s_len st) as [v|]; try contradiction; [destruct c6 as [-> _]; reflexivity|rewrite LA; reflexivity]. }
  assert (IN : items_from 0 (s_in (added st)) = items_from 0 (s_in st) ++ [x]) by (unfold added; cbn [s_in]; rewrite items_snoc; reflexivity).
  assert (GX : good x) by (split; [exact c5|cbn [it_unique]; unfold x; cbn [it_unique]; lia]).
  assert (CM' : common (put_rec h) (added st)).
  { constructor; auto; try reflexivity. unfold added, lens_ok in *. cbn [s_len s_in]. intros NN. apply Forall_app. split; [exact (c7 NN)|]. constructor; [|constructor].
    cbn [fst]. unfold len_of, dep_rel in *. destruct (h_dep h), (s_len st); try contradiction. tauto. }
  assert (QC : forall l : list sitem, q_count (qof (map single l)) = length l) by (intros l; unfold qof; cbn [q_count]; now rewrite concat_single).
  assert (QP : forall l, mkQueue ((x, true) :: q_items (qof (map single l))) (S (q_count (qof (map single l)))) = qof (map single (x :: l))) by (intros l; reflexivity).
  assert (UQ : (h_unique h + 1) mod 2 ^ 64 = Z.of_nat (length (s_in (added st)))).
  { rewrite (co_unique _ _ _ _ _ _ C). unfold added. cbn [s_in]. rewrite app_length. cbn [length]. rewrite Z.mod_small by lia. lia. }
  assert (GD : Forall good (items_from 0 (s_in (added st)))) by (rewrite IN; apply Forall_app; split; [exact (co_good _ _ _ _ _ _ C)|constructor; [exact GX|constructor]]).
  assert (PM : forall L, Permutation L (x :: (A ++ B)) -> Permutation (L ++ (concat F0 ++ concat F1)) (items_from 0 (s_in (added st)))).
  { intros L PL. rewrite IN. eapply Permutation_trans; [apply Permutation_app_tail; exact PL|]. cbn [app]. eapply Permutation_trans; [apply perm_skip; exact (co_perm _ _ _ _ _ _ C)|]. apply Permutation_cons_append. }
  pose proof (co_files _ _ _ _ _ _ C) as CF.
  destruct (Nat.leb_spec (length A) (length B)) as [LE|GT].
  - assert (BL : length A = length B) by (destruct (co_bal _ _ _ _ _ _ C); lia).
    assert (FIRST : (q_count (qof (map single A)) <=? q_count (qof (map single B)))%nat = true) by (rewrite !QC; apply Nat.leb_le; exact LE).
    exists (x :: A), B. split; [|cbn [length]; lia].
    constructor; auto; try reflexivity; unfold put_rec; cbv zeta; rewrite ?EX, ?(co_q0 _ _ _ _ _ _ C), ?(co_q1 _ _ _ _ _ _ C), ?FIRST;
      cbn [h_unique h_retrieving h_q0 h_q1 h_w0 h_w1 h_files_used h_dest1 h_free length]; auto.
    all: try solve [exact (co_w0 _ _ _ _ _ _ C) | exact (co_w1 _ _ _ _ _ _ C) | exact (co_run0 _ _ _ _ _ _ C) | exact (co_run1 _ _ _ _ _ _ C) | exact (co_few _ _ _ _ _ _ C) | destruct (co_bal _ _ _ _ _ _ C); lia].
    destruct CF as [CF|(U & L1 & DB & FR & MM0)]; [left; exact CF|right]. repeat (split; [solve [auto|lia]|]). auto.
  - assert (FIRST : (q_count (qof (map single A)) <=? q_count (qof (map single B)))%nat = false) by (rewrite !QC; apply Nat.leb_gt; exact GT).
    exists A, (x :: B). split; [|lia].
    constructor; auto; try reflexivity; unfold put_rec; cbv zeta; rewrite ?EX, ?(co_q0 _ _ _ _ _ _ C), ?(co_q1 _ _ _ _ _ _ C), ?FIRST;
      cbn [h_unique h_retrieving h_q0 h_q1 h_w0 h_w1 h_files_used h_dest1 h_free length]; auto.
    all: try solve [exact (co_w0 _ _ _ _ _ _ C) | exact (co_w1 _ _ _ _ _ _ C) | exact (co_run0 _ _ _ _ _ _ C) | exact (co_run1 _ _ _ _ _ _ C) | exact (co_few _ _ _ _ _ _ C) | destruct (co_bal _ _ _ _ _ _ C); lia | apply PM; apply Permutation_sym; apply Permutation_middle].
    destruct CF as [CF|(U & L1 & DB & FR & MM0)]; [left; exact CF|right]. repeat (split; [solve [auto|lia]|]). auto.
Qed.

Lemma release_ok : forall h st A B F0 F1, collecting h st A B F0 F1 -> Z.of_nat (length (s_in st)) + 1 < 2 ^ 64 ->
  exists h' A' B' G0 G1, release h = Ok h' /\ collecting h' (added st) A' B' G0 G1 /\ (1 <= length A')%nat.
Proof.
  intros h st A B F0 F1 C NW. pose proof (co_common _ _ _ _ _ _ C) as CM.
  assert (LA : length (h_area h) = h_size h) by (rewrite (cm_area _ _ CM), (cm_size _ _ CM); apply (cm_rec _ _ CM)).
  assert (QC : forall l : list sitem, q_count (qof (map single l)) = length l) by (intros l; unfold qof; cbn [q_count]; now rewrite concat_single).
  unfold release. rewrite (co_ret _ _ _ _ _ _ C). cbv zeta.
  destruct (Nat.leb_spec (h_memory h) (q_count (h_q0 h) + q_count (h_q1 h))%nat) as [FULL|ROOM].
  - destruct (memory_sort _ _ _ _ _ _ C) as (s2 & zs & q1 & E & RZ & PZ). rewrite E. cbn [obind].
    rewrite (co_q0 _ _ _ _ _ _ C), (co_q1 _ _ _ _ _ _ C), !QC, (cm_mem _ _ CM) in FULL.
    destruct (spill_ok _ _ _ _ _ _ _ C FULL NW RZ PZ) as (G0 & G1 & C').
    destruct (put_ok _ _ _ _ _ _ C' ltac:(cbn [length]; lia) NW) as (A' & B' & C2 & L2).
    rewrite LA, Nat.ltb_irrefl. eexists _, A', B', G0, G1. split; [reflexivity|]. split; [exact C2|exact L2].
  - rewrite (co_q0 _ _ _ _ _ _ C), (co_q1 _ _ _ _ _ _ C), !QC, (cm_mem _ _ CM) in ROOM.
    destruct (put_ok _ _ _ _ _ _ C ROOM NW) as (A' & B' & C2 & L2).
    cbn [obind]. rewrite LA, Nat.ltb_irrefl. eexists _, A', B', F0, F1. split; [reflexivity|]. split; [exact C2|exact L2].
Qed.

(** RETURN *)
Definition orec (x : sitem) : Z * list Z := (it_size x, it_data x).
Definition taken (st : sstate) (x : sitem) (rest : list sitem) : sstate :=
  mkS (s_in st) (Some (map orec rest)) (it_data x) (put_len (length (s_in st) <=? memory)%nat (s_len st) (it_size x)) (s_return st) 0.
Definition at_end (st : sstate) : sstate := mkS (s_in st) (Some []) (s_area st) (s_len st) (s_return st) 10.

Lemma min_unique : forall z zs m l, StronglySorted R (z :: zs) -> Permutation (z :: zs) (m :: l) -> Forall (R m) l -> good m -> z = m /\ Permutation zs l.
Proof.
  intros z zs m l S P F G. assert (E : z = m).
  { assert (I : In z (m :: l)) by (eapply Permutation_in; [exact P|left; reflexivity]). destruct I as [->|I]; [reflexivity|].
    assert (J : In m (z :: zs)) by (eapply Permutation_in; [apply Permutation_sym; exact P|left; reflexivity]). destruct J as [->|J]; [reflexivity|].
    exfalso. inversion S as [|? ? S' F']; subst. rewrite Forall_forall in F, F'. apply (R_irrefl m G). exact (R_trans K _ _ _ (F _ I) (F' _ J)). }
  subst m. split; [reflexivity|]. eapply Permutation_cons_inv; exact P.
Qed.

Lemma merge_min : forall z zs x xs y ys, StronglySorted R (z :: zs) -> Permutation (z :: zs) ((x :: xs) ++ y :: ys) -> StronglySorted R (x :: xs) -> StronglySorted R (y :: ys) ->
  good x -> R x y -> z = x /\ Permutation zs (xs ++ y :: ys).
Proof.
  intros z zs x xs y ys SZ P SX SY G XY. apply (min_unique z zs x (xs ++ y :: ys)); auto.
  destruct (StronglySorted_tl _ _ _ SX) as [_ FX]. destruct (StronglySorted_tl _ _ _ SY) as [_ FY]. apply Forall_app. split; [exact FX|]. constructor; [exact XY|].
  eapply Forall_impl; [|exact FY]. intros w W. exact (R_trans K _ _ _ XY W).
Qed.

Lemma return_ok : forall h st zs, delivering h st zs ->
  exists h', sort_return h = Ok h' /\
    match zs with [] => delivering h' (at_end st) [] | x :: r => delivering h' (taken st x r) r end.
Proof.
  intros h st zs D. pose proof (de_common _ _ _ D) as CM. pose proof CM as [c1 c2 c3 c4 c5 c6 c7 c8 c9].
  assert (AREA : forall d, length d = size -> d ++ skipn (h_size h) (h_area h) = d).
  { intros d _. rewrite c2, c4. rewrite skipn_all2 by (destruct c5 as [-> _]; auto). apply app_nil_r. }
  unfold sort_return. rewrite (de_ret _ _ _ D). cbn [obind].
  pose proof (de_good _ _ _ D) as GD. pose proof (de_lens _ _ _ D) as LD. pose proof (de_out _ _ _ D) as OD.
  destruct (de_state _ _ _ D) as [(FU & QI & MM)|(FU & MM & SZ & xs & ys & rx & ry & SA & SB & SX & SY & DI & PZ)]; rewrite FU.
  - destruct (q_items (h_rq h)) as [|[x e] q] eqn:QE; cbn [map fst] in QI; subst zs.
    + eexists. split; [reflexivity|]. constructor; [constructor; assumption || reflexivity|exact (de_ret _ _ _ D)|reflexivity|constructor|intros _; constructor|]. left. cbn [set_sort_status h_files_used h_rq at_end s_in]. rewrite QE. auto.
    + eexists. split; [reflexivity|]. destruct (proj1 (Forall_cons_iff _ _ _) GD) as [[[GL GK] GU] GD'].
      rewrite AREA by (rewrite GL; auto).
      constructor; cbn [h_retrieving taken s_out]; [|reflexivity|reflexivity|exact GD'| |].
      * constructor; cbn [h_keys h_size h_memory h_area h_dep h_return h_status taken s_area s_len s_in s_return s_status]; auto.
        -- split; [exact GL|exact GK].
        -- unfold dep_rel in *. destruct (h_dep h) as [i|], (s_len st) as [v|]; try contradiction; auto. cbn [put_len]. destruct c6 as [-> V].
           assert (LX : 0 <= it_size x < 10 ^ digits) by (assert (LN : Some v <> None) by discriminate; specialize (LD LN); cbn [map] in LD; apply Forall_inv in LD; exact LD).
           rewrite (proj2 (Nat.leb_le _ _) MM). unfold item_set. cbn [i_digits]. rewrite Z.abs_eq, Z.mod_small by lia. auto.
        -- unfold lens_ok in *. intros NN. apply c7. destruct (s_len st); [discriminate|contradiction].
      * unfold lens_ok, taken in *. cbn [s_len]. intros NN. assert (X : s_len st <> None) by (destruct (s_len st); [discriminate|contradiction]). specialize (LD X). cbn [map] in LD. exact (Forall_inv_tail LD).
      * left. cbn [h_files_used h_rq q_items]. split; [reflexivity|]. split; [reflexivity|exact MM].
  - assert (GXY : Forall good (xs ++ ys)) by (eapply Permutation_Forall; [exact PZ|exact GD]). apply Forall_app in GXY. destruct GXY as [GX GY].
    assert (FIT : (length (s_in st) <=? memory)%nat = false) by (apply Nat.leb_gt; exact MM).
    assert (DEL : forall z zs' w0 w1 b0 b1 xs' ys', zs = z :: zs' -> Permutation zs' (xs' ++ ys') -> StronglySorted R xs' -> StronglySorted R ys' -> distinct (xs' ++ ys') ->
      src xs' rx b0 (w_str w0) -> src ys' ry b1 (w_str w1) ->
      delivering (mkSort (h_keys h) (h_size h) (h_memory h) (h_unique h) true true (h_dest1 h) (h_q0 h) (h_q1 h) (h_rq h) w0 w1 b0 b1 (h_free h) (it_data z) (h_dep h) (h_return h) 0) (taken st z zs') zs').
    { intros z zs' w0 w1 b0 b1 xs' ys' EZ PZ' SX' SY' DI' A B. rewrite EZ in *. destruct (proj1 (Forall_cons_iff _ _ _) GD) as [[[GL GK] GU] GD']. constructor; cbn [h_retrieving taken s_out]; [|reflexivity|reflexivity|exact GD'| |].
      - constructor; cbn [h_keys h_size h_memory h_area h_dep h_return h_status taken s_area s_len s_in s_return s_status]; auto.
        + split; [exact GL|exact GK].
        + rewrite FIT. destruct (s_len st); exact c6.
        + unfold lens_ok in *. intros NN. apply c7. destruct (s_len st); [discriminate|contradiction].
      - unfold lens_ok, taken in *. cbn [s_len]. intros NN. assert (X : s_len st <> None) by (destruct (s_len st); [discriminate|contradiction]). specialize (LD X). cbn [map] in LD. exact (Forall_inv_tail LD).
      - right. cbn [h_files_used h_b0 h_b1 h_w0 h_w1 s_in taken]. split; [reflexivity|]. split; [exact MM|]. split; [exact (proj1 (StronglySorted_tl _ _ _ SZ))|]. exists xs', ys', rx, ry. repeat (split; [assumption|]). assumption. }
    destruct xs as [|x xs], ys as [|y ys].
    + destruct SA as [EA SA], SB as [EB SB]. rewrite EA, EB. cbn [app] in PZ. apply Permutation_sym, Permutation_nil in PZ. subst zs. cbn [obind].
      eexists. split; [reflexivity|]. constructor; [constructor; assumption || reflexivity|exact (de_ret _ _ _ D)|reflexivity|constructor|intros _; constructor|]. right. split; [exact FU|]. split; [exact MM|]. split; [constructor|].
      exists [], [], rx, ry. split; [split; auto|]. split; [split; auto|]. split; [constructor|]. split; [constructor|]. split; constructor.
    + destruct SA as [EA SA], SB as [EB SB]. rewrite EA, EB. cbn [app] in *. cbn [obind hold].
      destruct zs as [|z zs]; [apply Permutation_nil in PZ; discriminate|].
      destruct (StronglySorted_tl _ _ _ SY) as [SY' FY]. destruct (proj1 (Forall_cons_iff _ _ _) GY) as [G1 G2].
      destruct (min_unique z zs y ys SZ PZ FY G1) as [-> PZ'].
      destruct (src_next K size y ys ry (w_str (h_w1 h)) G2 SB) as (hd & s' & ER & _ & _ & SR). rewrite <- c2 in ER; rewrite ER, AREA by (destruct G1 as [[? _] _]; auto).
      eexists. split; [reflexivity|]. apply (DEL y zs (h_w0 h) (mkW s' (w_count (h_w1 h))) None hd [] ys); solve [auto | constructor | exact (distinct_cons _ _ DI) | split; auto].
    + destruct SA as [EA SA], SB as [EB SB]. rewrite EA, EB. rewrite app_nil_r in *. cbn [obind hold].
      destruct zs as [|z zs]; [apply Permutation_nil in PZ; discriminate|].
      destruct (StronglySorted_tl _ _ _ SX) as [SX' FX]. destruct (proj1 (Forall_cons_iff _ _ _) GX) as [G1 G2].
      destruct (min_unique z zs x xs SZ PZ FX G1) as [-> PZ'].
      destruct (src_next K size x xs rx (w_str (h_w0 h)) G2 SA) as (hd & s' & ER & _ & _ & SR). rewrite <- c2 in ER; rewrite ER, AREA by (destruct G1 as [[? _] _]; auto).
      eexists. split; [reflexivity|]. apply (DEL x zs (mkW s' (w_count (h_w0 h))) (h_w1 h) hd None xs []); solve [auto | rewrite app_nil_r; auto | constructor | rewrite app_nil_r; exact (distinct_cons _ _ DI) | split; auto].
    + pose proof SA as SA0. pose proof SB as SB0. destruct SA as [EA SA], SB as [EB SB].
      destruct (StronglySorted_tl _ _ _ SX) as [SX' FX]. destruct (StronglySorted_tl _ _ _ SY) as [SY' FY].
      destruct (proj1 (Forall_cons_iff _ _ _) GX) as [G1 G2]. destruct (proj1 (Forall_cons_iff _ _ _) GY) as [G3 G4].
      destruct zs as [|z zs]; [apply Permutation_nil in PZ; discriminate|].
      destruct (goes_first_ok K size x y G1 G3 (distinct_neq _ _ _ _ DI)) as (f & EF & F1 & F2).
      rewrite EA, EB. cbn [hold]. rewrite gf_hold, c1, EF. cbn [obind]. destruct f; cbn [negb hold].
      * destruct (merge_min z zs x xs y ys SZ PZ SX SY G1 (F1 eq_refl)) as [-> PZ'].
        destruct (src_next K size x xs rx (w_str (h_w0 h)) G2 SA) as (hd & s' & ER & _ & _ & SR). rewrite <- c2 in ER; rewrite ER, AREA by (destruct G1 as [[? _] _]; auto).
        eexists. split; [reflexivity|]. rewrite <- c1. apply (DEL x zs (mkW s' (w_count (h_w0 h))) (h_w1 h) hd (hold y) xs (y :: ys)); solve [auto | exact (distinct_cons _ _ DI) | split; auto].
      * assert (PZ2 : Permutation (z :: zs) ((y :: ys) ++ x :: xs)) by (eapply Permutation_trans; [exact PZ|apply Permutation_app_comm]).
        destruct (merge_min z zs y ys x xs SZ PZ2 SY SX G3 (F2 eq_refl)) as [-> PZ'].
        destruct (src_next K size y ys ry (w_str (h_w1 h)) G4 SB) as (hd & s' & ER & _ & _ & SR). rewrite <- c2 in ER; rewrite ER, AREA by (destruct G3 as [[? _] _]; auto).
        eexists. split; [reflexivity|]. rewrite <- c1. apply (DEL y zs (h_w0 h) (mkW s' (w_count (h_w1 h))) (hold x) hd (x :: xs) ys); try solve [auto | split; auto].
        -- eapply Permutation_trans; [exact PZ'|]. apply Permutation_app_comm.
        -- eapply distinct_perm in DI; [|apply Permutation_app_comm]. cbn [app] in DI. apply distinct_cons in DI. eapply distinct_perm; [|exact DI]. apply (Permutation_app_comm ys (x :: xs)).
Qed.

(** Any history. *)
Definition inv (h : sorter) (st : sstate) : Prop :=
  (exists A B F0 F1, collecting h st A B F0 F1 /\ (h_files_used h = true -> (1 <= length A)%nat)) \/ exists zs, delivering h st zs.
Lemma inv_common : forall h st, inv h st -> common h st.
Proof. intros h st [(A & B & F0 & F1 & C & _)|(zs & D)]; [exact (co_common _ _ _ _ _ _ C)|exact (de_common _ _ _ D)]. Qed.

Lemma return_inv : forall h st zs, delivering h st zs -> exists h' st', sort_return h = Ok h' /\ sort_step K size memory st SReturn st' /\ inv h' st' /\ s_in st' = s_in st.
Proof.
  intros h st zs D. destruct (return_ok h st zs D) as (h' & E & D'). pose proof (de_out _ _ _ D) as O. destruct zs as [|x r].
  - exists h', (at_end st). split; [exact E|]. split; [apply st_end; exact O|]. split; [right; eauto|reflexivity].
  - exists h', (taken st x r). split; [exact E|]. split; [apply (st_next K size memory st (it_size x) (it_data x)); exact O|]. split; [right; eauto|reflexivity].
Qed.

Lemma op_inv : forall h st o, inv h st -> sort_op_ok K size digits o -> Z.of_nat (length (s_in st)) + 1 < 2 ^ 64 ->
  exists h' st', run_sort_op h o = Ok h' /\ sort_step K size memory st o st' /\ inv h' st' /\ length (s_in st') = (length (s_in st) + match o, s_out st with SRelease, None => 1 | _, _ => 0 end)%nat.
Proof.
  intros h st o I OK NW. pose proof (inv_common _ _ I) as CM. pose proof CM as [c1 c2 c3 c4 c5 c6 c7 c8 c9].
  destruct o as [d|n| |].
  - eexists _, _. split; [reflexivity|]. split; [apply st_move|]. split; [|cbn [s_in]; lia]. destruct I as [(A & B & F0 & F1 & [] & NA)|(zs & [])].
    + left. exists A, B, F0, F1. split; [|exact NA]. constructor; auto. constructor; auto.
    + right. exists zs. constructor; auto. constructor; auto.
  - eexists _, _. split; [reflexivity|]. split; [apply st_len|]. split; [|cbn [s_in]; lia].
    assert (DR : dep_rel match h_dep h with Some d => Some (item_set d n) | None => None end match s_len st with Some _ => Some n | None => None end).
    { unfold dep_rel in *. cbn [sort_op_ok] in OK. destruct (h_dep h), (s_len st); try contradiction; auto. destruct c6 as [-> V]. unfold item_set. cbn [i_digits]. rewrite Z.abs_eq, Z.mod_small by lia. auto. }
    assert (LR : forall rs, lens_ok (s_len st) rs -> lens_ok (match s_len st with Some _ => Some n | None => None end) rs).
    { intros rs L NN. apply L. destruct (s_len st); [discriminate|contradiction]. }
    destruct I as [(A & B & F0 & F1 & [] & NA)|(zs & [])].
    + left. exists A, B, F0, F1. split; [|exact NA]. constructor; auto. constructor; auto.
    + right. exists zs. constructor; auto. constructor; auto.
  - destruct I as [(A & B & F0 & F1 & C & NA)|(zs & D)].
    + destruct (release_ok _ _ _ _ _ _ C NW) as (h' & A' & B' & G0 & G1 & E & C' & L). exists h', (added st). split; [exact E|]. split; [apply st_release; exact (co_out _ _ _ _ _ _ C)|].
      split; [left; exists A', B', G0, G1; auto|]. rewrite (co_out _ _ _ _ _ _ C). unfold added. cbn [s_in]. rewrite app_length. reflexivity.
    + pose proof (de_out _ _ _ D) as O. eexists _, _. split; [cbn [run_sort_op]; unfold release; rewrite (de_ret _ _ _ D); reflexivity|]. split; [apply (st_late K size memory st _ O)|].
      split; [|rewrite O; cbn [s_in]; lia]. right. exists zs. destruct D. constructor; auto. constructor; auto.
  - assert (LEN : forall st', s_in st' = s_in st -> length (s_in st') = (length (s_in st) + 0)%nat) by (intros st' ->; lia).
    destruct I as [(A & B & F0 & F1 & C & NA)|(zs & D)].
    + destruct (process_ok _ _ _ _ _ _ C NA NW) as (h1 & zs & E & P & S & D).
      destruct (return_inv _ _ _ D) as (h' & st' & E' & ST & I' & SI). exists h', st'. split; [|split; [|split]]; [|eapply st_first; [exact (co_out _ _ _ _ _ _ C)| |exact ST]|exact I'|exact (LEN st' SI)].
      * cbn [run_sort_op]. unfold sort_return in *. rewrite (co_ret _ _ _ _ _ _ C), E. cbn [obind]. rewrite (de_ret _ _ _ D) in E'. cbn [obind] in E'. exact E'.
      * apply sorted_in_order; auto.
    + destruct (return_inv _ _ _ D) as (h' & st' & E' & ST & I' & SI). exists h', st'. repeat (split; [assumption|]). exact (LEN st' SI).
Qed.

Lemma history_ok : forall os h st, inv h st -> Forall (sort_op_ok K size digits) os -> Z.of_nat (length (s_in st) + releases os) + 1 < 2 ^ 64 ->
  exists h' st', run_sort h os = Ok h' /\ sort_steps K size memory st os st' /\ inv h' st'.
Proof.
  induction os as [|o os IH]; intros h st I F NW.
  - exists h, st. split; [reflexivity|]. split; [constructor|exact I].
  - destruct (proj1 (Forall_cons_iff _ _ _) F) as [F1 F2].
    assert (RL : releases (o :: os) = (match o with SRelease => 1 | _ => 0 end + releases os)%nat) by (unfold releases; destruct o; reflexivity).
    rewrite RL in NW. destruct (op_inv h st o I F1 ltac:(lia)) as (h1 & st1 & E & S & I1 & L1).
    destruct (IH h1 st1 I1 F2) as (h2 & st2 & E2 & S2 & I2). { destruct o, (s_out st); lia. }
    exists h2, st2. split; [cbn [run_sort]; rewrite E; exact E2|]. split; [econstructor; eauto|exact I2].
Qed.
End Sim.
