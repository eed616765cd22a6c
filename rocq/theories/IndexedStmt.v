(** The statements on indexed files. *)
From Coq Require Import Permutation Sorted.
From Verif Require Import Base FileIO Indexed SpecIndexed IndexedDb IndexedInv IndexedOps IndexedPos IndexedState IndexedRead.
Local Open Scope Z_scope.

Ltac xs := cbn [x_desc x_area x_size x_dep x_open x_ne x_eof x_bof x_first x_done x_disk x_isam x_status
  xset_area xset_dep xset_open xset_flags xset_first xset_done xset_disk xset_isam xret].
Ltac xsin H := cbn [x_desc x_area x_size x_dep x_open x_ne x_eof x_bof x_first x_done x_disk x_isam x_status
  xset_area xset_dep xset_open xset_flags xset_first xset_done xset_disk xset_isam xret] in H.

Definition opened (m : open_mode) : Prop := m = Input \/ m = InOut \/ m = Output \/ m = Extend.

Record good (d : fdesc) (f : ixf) : Prop := mkGood {
  g_desc : x_desc f = d;
  g_area : length (x_area f) = d_max d;
  g_size : (d_min d <= x_size f <= d_max d)%nat;
  g_shape : match x_isam f with
            | Some p => x_ne f = false /\ opened (x_open f) /\ dbs_ok d (p_dbs p) /\ arr_ok d p
            | None => (x_open f = Closed \/ x_open f = Locked \/ (x_open f = Input /\ x_ne f = true)) /\
                      forall l, x_disk f = Some l -> dbs_ok d l
            end;
  g_done : x_done f = true -> exists p r, x_isam f = Some p /\ p_key p = slice (prime d) r /\
             rec_at (the_db p 0) (slice (prime d) r) = Some r }.

Lemma good_isam d f p : good d f -> x_isam f = Some p ->
  x_ne f = false /\ opened (x_open f) /\ dbs_ok d (p_dbs p) /\ arr_ok d p.
Proof. intros G E. assert (H := g_shape _ _ G). now rewrite E in H. Qed.

(** What a file operation on the open file leaves. *)
Lemma good_upd d f p p' a n st ne eof bof first done dep de op di : good d f -> x_isam f = Some p ->
  x_desc f = de -> x_open f = op -> x_ne f = ne ->
  length a = d_max d -> (d_min d <= n <= d_max d)%nat -> dbs_ok d (p_dbs p') -> arr_ok d p' ->
  (done = true -> exists r, p_key p' = slice (prime d) r /\ rec_at (the_db p' 0) (slice (prime d) r) = Some r) ->
  good d (mkIx de a n dep op ne eof bof first done di (Some p') st).
Proof.
  intros G E <- <- <- LA LN DB AR DN. destruct (good_isam d f p G E) as (N & O & _ & _).
  split; xs; auto.
  - apply G.
  - intro D. destruct (DN D) as (r & R1 & R2). exists p', r. auto.
Qed.

Lemma empties_ok d : dbs_ok d (map (fun _ : kspec => []) (d_keys d)) \/ d_keys d = [].
Proof.
  destruct (d_keys d) as [|s ks] eqn:E; auto. left. cbn [map dbs_ok]. rewrite E. cbn [tl]. split.
  - split; [constructor|intros e []|intros e []].
  - clear. induction ks; cbn [map]; constructor; auto.
    split; [constructor|intros e []|discriminate|constructor|intros _ e []].
Qed.
Lemma empties_views (ks : list kspec) : views (map (fun _ => []) ks) = map (fun _ => []) ks.
Proof.
  destruct ks as [|s ks]; auto. cbn [map views]. f_equal. rewrite map_map. reflexivity.
Qed.

Lemma indexed_open_ok d area dbs : d_keys d <> [] -> dbs_ok d dbs ->
  let p := indexed_open d area dbs in
  arr_ok d p /\ p_dbs p = dbs /\ p_ki p = 0%nat /\ p_last p = None /\
  match nth 0 (views dbs) [] with
  | [] => p_data p = None
  | r :: _ => p_data p <> None /\ (desc_ok d -> positioned d p r)
  end.
Proof.
  intros N DB p. unfold p, indexed_open.
  destruct dbs as [|l0 alts]; [destruct DB|]. cbn [nth views].
  assert (NL : (0 < length (d_keys d))%nat) by (destruct (d_keys d); [easy|cbn; lia]).
  destruct l0 as [|e l0]; cbn [db_first map].
  - unfold arr_ok. cbn [p_lrk p_lrp p_ldup p_ki p_dbs p_last p_data]. rewrite map_length, !repeat_length. auto 10.
  - unfold arr_ok. cbn [p_lrk p_lrp p_ldup p_ki p_dbs p_last p_data got set_pdata set_pkey set_pos].
    rewrite lset_length, map_length, !repeat_length. split; auto. split; auto. split; auto. split; auto.
    split; [discriminate|]. intro OK. exists e. split.
    + unfold at_ent, the_db. cbn [p_lrk p_lrp p_ldup p_ki p_dbs set_pos got set_pdata set_pkey nth c_ent fst snd].
      split; [left; auto|]. split; [apply nth_lset; rewrite map_length; auto|]. split; [|congruence].
      intro D. exfalso. destruct OK as (_ & D0 & _). unfold prime in D0. congruence.
    + reflexivity.
Qed.

(** ** OPEN *)
Definition emptied (d : fdesc) : list (list record) := map (fun _ => []) (d_keys d).

Lemma open_stmt c d f m : desc_ok d -> good d f -> opened m ->
  exists f', x_ex_open c f m = Ok f' /\ good d f' /\
  match x_open f with
  | Closed =>
    (x_status f' = 35 /\ x_open f' = Closed /\ content f' = content f) \/
    ((x_status f' = 0 \/ x_status f' = 5) /\ x_open f' = m /\ x_first f' = 2 /\
     ((x_disk f = None /\ m = Input /\ x_isam f' = None /\ content f' = content f) \/
      exists p, x_isam f' = Some p /\ p_last p = None /\ p_ki p = 0%nat /\ x_eof f' = false /\ x_bof f' = false /\
        (match by_key f' 0 with [] => p_data p = None | r :: _ => p_data p <> None /\ positioned d p r end) /\
        content f' = (match m, x_disk f with Output, _ => emptied d | _, Some _ => content f | _, None => emptied d end)))
  | _ => (x_status f' = 38 \/ x_status f' = 41) /\ x_open f' = x_open f /\ content f' = content f /\ x_isam f' = x_isam f
  end.
Proof.
  intros OK G OM. unfold x_ex_open.
  assert (SH := g_shape _ _ G). assert (GD := g_desc _ _ G). assert (GA := g_area _ _ G). assert (GS := g_size _ _ G).
  assert (DN := good_upd d f).
  assert (SAME : forall st, exists f', xret st (xset_done false f) = Ok f' /\ good d f' /\
     x_status f' = st /\ x_open f' = x_open f /\ content f' = content f /\ x_isam f' = x_isam f).
  { intro st. unfold xret. eexists. split; [reflexivity|]. split; [split; xs; auto; discriminate|]. auto. }
  xs. destruct (x_open f) eqn:XO;
    try (destruct (SAME 41) as (f' & E1 & G' & S1 & S2 & S3 & S4); exists f'; rewrite S1, S2, S3, S4; split; [exact E1|auto 10]; fail);
    try (destruct (SAME 38) as (f' & E1 & G' & S1 & S2 & S3 & S4); exists f'; rewrite S1, S2, S3, S4; split; [exact E1|auto 10]; fail).
  clear SAME DN.
  assert (IN : x_isam f = None).
  { destruct (x_isam f); auto. destruct SH as (_ & O & _). unfold opened in O; try rewrite XO in O. destruct O as [X|[X|[X|X]]]; discriminate. }
  rewrite IN in SH. destruct SH as [_ SH].
  rewrite GD.
  destruct ((match x_disk f with None => true | Some _ => false end &&
     negb (match m with Output => true | InOut => io_creates c | Extend => io_ext_creates c | _ => false end) &&
     negb (d_optional d))) eqn:MISS.
  - unfold xret. eexists. split; [reflexivity|]. xs. split.
    + split; xs; auto; try discriminate; rewrite IN; auto.
    + left. unfold content. xs. auto.
  - set (dbs := match m, x_disk f with
                | Output, _ => Some (map (fun _ => []) (d_keys d))
                | _, Some l => Some l
                | (InOut | Extend), None => Some (map (fun _ => []) (d_keys d))
                | _, None => None
                end).
    assert (EO : dbs_ok d (map (fun _ : kspec => []) (d_keys d))).
    { destruct (empties_ok d) as [X|X]; auto. destruct OK as [Y _]. congruence. }
    assert (CASE : (dbs = None /\ m = Input /\ x_disk f = None) \/
       exists l, dbs = Some l /\ dbs_ok d l /\
         views l = (match m, x_disk f with Output, _ => emptied d | _, Some _ => content f | _, None => emptied d end)).
    { unfold dbs, content. rewrite IN. destruct OM as [-> | [-> | [-> | ->]]]; destruct (x_disk f) as [l|] eqn:XD; auto;
        right; eexists; (split; [reflexivity|]); split; auto; apply empties_views. }
    destruct CASE as [(E1 & -> & E3)|(l & E1 & DBL & VL)].
    + rewrite E1. rewrite E3 in MISS. cbn [andb negb] in MISS. apply negb_false_iff in MISS. rewrite MISS.
      unfold xret. eexists. split; [reflexivity|]. xs. split.
      * split; xs; auto; try discriminate; rewrite IN; auto.
      * right. split; [auto|]. split; [auto|]. split; [auto|]. left. unfold content. xs. rewrite IN. auto.
    + rewrite E1. unfold xret. eexists. split; [reflexivity|]. xs.
      destruct (indexed_open_ok d (x_area f) l) as (A1 & A2 & A3 & A4 & A5); auto.
      { apply OK. }
      split.
      * split; xs; auto; try discriminate; rewrite A2; unfold opened in *; auto 10.
      * right. split. { destruct (d_optional d && match x_disk f with None => true | Some _ => false end); auto. }
        split; auto. split; auto. right. eexists. split; [reflexivity|].
        split; auto. split; auto. split; auto. split; auto. unfold by_key, content. xs. rewrite A2. split; auto.
        destruct (nth 0 (views l) []); auto. destruct A5 as [A5 A6]. auto.
Qed.

(** ** CLOSE *)
Lemma close_stmt d f o : good d f -> x_open f <> Locked ->
  exists f', x_ex_close f o = Ok f' /\ good d f' /\ content f' = content f /\ x_isam f' = None /\
    match x_open f with
    | Closed => x_status f' = 42 /\ x_open f' = Closed
    | _ => x_status f' = 0 /\ x_open f' = (match o with CloseLock => Locked | _ => Closed end)
    end.
Proof.
  intros G NL. unfold x_ex_close. assert (SH := g_shape _ _ G). xs.
  destruct (x_isam f) as [p|] eqn:XI.
  - destruct SH as (N & O & DB & AR).
    assert (NC : forall A (a b : A), match x_open f with Closed => a | _ => b end = b).
    { intros A a b. destruct O as [->|[->|[->| ->]]]; reflexivity. }
    rewrite NC, N. unfold with_isam. xs. rewrite XI. unfold xret. eexists. split; [reflexivity|]. xs. rewrite NC.
    split; [split; xs; try apply G|].
    + split; [destruct o; auto|]. intros l X. injection X as <-. exact DB.
    + discriminate.
    + unfold content. xs. rewrite XI. auto.
  - destruct SH as [[O|[O|[O N]]] SD]; [|congruence|].
    + rewrite O. unfold xret. eexists. split; [reflexivity|]. split; [split; xs; try apply G; try discriminate; rewrite XI; auto|].
      unfold content. xs. rewrite XI. auto.
    + rewrite O, N. unfold xret. eexists. split; [reflexivity|]. split; [split; xs; try apply G; try discriminate|].
      * rewrite XI. split; auto. destruct o; auto.
      * unfold content. xs. rewrite XI. auto.
Qed.
