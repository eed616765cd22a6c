(** Theorems C64: SEARCH and SEARCH ALL. *)
From Coq Require Import QArith.
From Verif Require Import Base BaseFacts Field Sign Decimal SpecNum Numeric PackedInt P_Int P_Num Move MoveAll.
From Verif Require Import Compute SpecCompute ComputeProofs Compare SpecCmp CmpProofs ExprParse P_Expr Cond SpecCond CondProofs P_Cond Search SpecSearch SearchProofs.
Local Open Scope Z_scope.

(** C64.  SEARCH ALL on a table of [n] entries in the order of its keys, with a
    WHEN phrase that gives values to the first keys, terminates, reads no entry
    outside the table, changes no item, and ends with an entry that matches all
    of the values, or AT END if no entry does. *)
Theorem C64_search_all : forall m debug alpha col vals t whens n s,
  (col <> None -> alpha = true) -> cmp_history (cpack s) -> t_min t = 1 -> 0 <= n <= t_max t ->
  when_ok (t_keys t) whens -> keys_comparable (citems s) vals m (t_keys t) whens n -> sorted_table (citems s) vals col (t_keys t) n ->
  exists r, search_all m debug alpha col t whens n s = Ok r /\
    match r with
    | AtEnd s' => citems s' = citems s /\ forall i, 1 <= i <= n -> ~ entry_matches (citems s) vals col (t_keys t) whens i
    | FoundAt i s' => citems s' = citems s /\ 1 <= i <= n /\ entry_matches (citems s) vals col (t_keys t) whens i
    end.
Proof.
  intros m debug alpha col vals t whens n s HC H T1 N W K S.
  destruct (search_all_ok m debug alpha col vals (citems s) HC t whens n s eq_refl H ltac:(lia) ltac:(lia) W K S) as (r & E & P).
  exists r. split; [exact E|]. rewrite T1 in P. exact P.
Qed.
Print Assumptions C64_search_all.

(** With OCCURS t_min TO ..., only the entries from t_min on are searched. *)
Theorem C64_search_all_min : forall m debug alpha col vals t whens n s,
  (col <> None -> alpha = true) -> cmp_history (cpack s) -> 1 <= t_min t <= n + 1 -> n <= t_max t ->
  when_ok (t_keys t) whens -> keys_comparable (citems s) vals m (t_keys t) whens n -> sorted_table (citems s) vals col (t_keys t) n ->
  exists r, search_all m debug alpha col t whens n s = Ok r /\
    match r with
    | AtEnd s' => citems s' = citems s /\ forall i, t_min t <= i <= n -> ~ entry_matches (citems s) vals col (t_keys t) whens i
    | FoundAt i s' => citems s' = citems s /\ t_min t <= i <= n /\ entry_matches (citems s) vals col (t_keys t) whens i
    end.
Proof.
  intros m debug alpha col vals t whens n s HC H T1 N W K S.
  exact (search_all_ok m debug alpha col vals (citems s) HC t whens n s eq_refl H T1 N W K S).
Qed.
Print Assumptions C64_search_all_min.

(** SEARCH from index [i]: it stops at the first entry from [i] on for which one
    of the WHEN conditions is true, with the first such condition; if there is
    none the index ends beyond the table. *)
Theorem C64_search_serial : forall m debug alpha col nibble_c names vals whens n i var s,
  (col <> None -> alpha = true) -> cmp_history (cpack s) ->
  (forall j, i <= j <= n -> Forall (ready (citems s) vals m col names) (whens j)) ->
  exists r, search_stmt m debug alpha col nibble_c names whens n i var s = Ok r /\
    match r with
    | SerialEnd j v s' => j = Z.max i (n + 1) /\ citems s' = citems s /\
        forall q, i <= q <= n -> no_when (citems s) vals col names (whens q)
    | SerialAt j v k s' => i <= j <= n /\ citems s' = citems s /\ when_is (citems s) vals col names (whens j) k /\
        forall q, i <= q < j -> no_when (citems s) vals col names (whens q)
    end.
Proof.
  intros m debug alpha col nibble_c names vals whens n i var s HC H F. unfold search_stmt.
  destruct (serial_ok m debug alpha col nibble_c names vals (citems s) HC (S (Z.to_nat (n + 1 - i))) whens n i var s eq_refl H F ltac:(lia) ltac:(lia)) as (r & E & P).
  exists r. split; [exact E|]. destruct r; tauto.
Qed.
Print Assumptions C64_search_serial.

(** A VARYING item that is not an index of the table ends with the value of the
    index, unless the search stops at the entry where it began; COBOL counts it
    up from the value it had. *)
Theorem C64_varying : forall m debug alpha col nibble_c names vals whens n i var s,
  (col <> None -> alpha = true) -> cmp_history (cpack s) ->
  (forall j, i <= j <= n -> Forall (ready (citems s) vals m col names) (whens j)) ->
  exists r, search_stmt m debug alpha col nibble_c names whens n i var s = Ok r /\
    match r with SerialEnd j v _ | SerialAt j v _ _ => v = if j =? i then var else j end.
Proof.
  intros m debug alpha col nibble_c names vals whens n i var s HC H F. unfold search_stmt.
  destruct (serial_ok m debug alpha col nibble_c names vals (citems s) HC (S (Z.to_nat (n + 1 - i))) whens n i var s eq_refl H F ltac:(lia) ltac:(lia)) as (r & E & P).
  exists r. split; [exact E|]. destruct r; tauto.
Qed.
Print Assumptions C64_varying.

(** ** Example: two keys, the second descending; two one-byte items searched
    for, holding any bytes. *)
Definition ch (c : Z) : field := mkField alnum_attr [c].
Definition ex_items (x y : Z) : list field := map ch [65; 57; 65; 53; 66; 55] ++ [ch x; ch y].
Definition key1 : tkey := mkTkey true (fun i => OText (Z.to_nat (2 * (i - 1)))).
Definition key2 : tkey := mkTkey false (fun i => OText (Z.to_nat (2 * (i - 1) + 1))).
Definition ex_table : table := mkTable 1 3 [key1; key2].
Definition ex_when : list (nat * svalue) := [(0%nat, SVal (OText 6)); (1%nat, SVal (OText 7))].
Lemma ex_text_item : forall x y k, (k < 8)%nat -> text_item (ex_items x y) k.
Proof. intros x y k K. do 8 (destruct k as [|k]; [split; [cbn; lia|exact I]|]). lia. Qed.
Lemma ex_lt : forall a b, a < b -> text_lt None [a] [b].
Proof. intros a b L. exists 0%nat. split; [intros j J; lia|exact L]. Qed.
Lemma ex_eq : forall a, text_eq None [a] [a].
Proof. intros a i. reflexivity. Qed.
Lemma ex_sorted : forall x y vals, sorted_table (ex_items x y) vals None (t_keys ex_table) 3.
Proof.
  intros x y vals i j I1 IJ J3. assert (E : (i = 1 /\ j = 2) \/ (i = 1 /\ j = 3) \/ (i = 2 /\ j = 3)) by lia.
  destruct E as [[-> ->]|[[-> ->]|[-> ->]]].
  - right. split; [apply cp_eq; apply ex_eq|]. left. apply cp_gt. apply ex_lt. lia.
  - left. apply cp_lt. apply ex_lt. lia.
  - left. apply cp_lt. apply ex_lt. lia.
Qed.
Example C64_ex : forall m x y, exists r,
  search_all m false false None ex_table ex_when 3 (start_state (ex_items x y)) = Ok r /\
  match r with
  | AtEnd _ => ~ (x = 65 /\ y = 57) /\ ~ (x = 65 /\ y = 53) /\ ~ (x = 66 /\ y = 55)
  | FoundAt i _ => (i = 1 /\ x = 65 /\ y = 57) \/ (i = 2 /\ x = 65 /\ y = 53) \/ (i = 3 /\ x = 66 /\ y = 55)
  end.
Proof.
  intros m x y.
  assert (LE : forall i, 1 <= i <= 3 -> (Z.to_nat (2 * (i - 1)) < 8)%nat /\ (Z.to_nat (2 * (i - 1) + 1) < 8)%nat) by (intros; lia).
  destruct (C64_search_all m false false None (fun _ => 0) ex_table ex_when 3 (start_state (ex_items x y))) as (r & E & P).
  - intros X. now contradiction X.
  - apply ch_start.
  - reflexivity.
  - cbn. lia.
  - split; [repeat constructor; cbn; intuition lia|]. split.
    + intros k v [H|[H|[]]]; injection H as <- <-; (split; [cbn; lia|eexists; reflexivity]).
    + intros k j [<- |[<- |[]]] L; cbn [fst] in L |- *; [lia|]. left. cbn [fst]. lia.
  - intros k z v i NX IW L. destruct (LE i L). destruct IW as [H1|[H1|[]]]; injection H1 as <- <-; injection NX as <-.
    + split; [exact I|]. split; [exact I|]. cbn [key1 tk_asc tk_item]. apply ca_text; apply ex_text_item; [assumption|lia].
    + split; [exact I|]. split; [exact I|]. cbn [key2 tk_asc tk_item]. apply ca_text; apply ex_text_item; [lia|assumption].
  - apply ex_sorted.
  - exists r. split; [exact E|].
    assert (EQ : forall a b, text_eq None [a] [b] -> b = a) by (intros a b T; symmetry; exact (T 0%nat)).
    assert (MA : forall i, entry_matches (citems (start_state (ex_items x y))) (fun _ => 0) None (t_keys ex_table) ex_when i ->
      1 <= i <= 3 -> (i = 1 /\ x = 65 /\ y = 57) \/ (i = 2 /\ x = 65 /\ y = 53) \/ (i = 3 /\ x = 66 /\ y = 55)).
    { intros i M L. destruct (M 0%nat (OText 6) ltac:(now left)) as (z & NZ & O1). injection NZ as <-.
      destruct (M 1%nat (OText 7) ltac:(right; now left)) as (z & NZ & O2). injection NZ as <-.
      inversion O1 as [? ? ? ? ? ? X|? ? ?|i1 j1 T1 E1 E2|? ? ?]; [discriminate X|]. inversion O2 as [? ? ? ? ? ? X|? ? ?|i2 j2 T2 E3 E4|? ? ?]; [discriminate X|]. subst.
      assert (C : i = 1 \/ i = 2 \/ i = 3) by lia. destruct C as [-> |[-> | ->]]; apply EQ in T1, T2; tauto. }
    assert (AM : forall i, (i = 1 /\ x = 65 /\ y = 57) \/ (i = 2 /\ x = 65 /\ y = 53) \/ (i = 3 /\ x = 66 /\ y = 55) ->
      entry_matches (citems (start_state (ex_items x y))) (fun _ => 0) None (t_keys ex_table) ex_when i).
    { intros i C k v [H|[H|[]]]; injection H as <- <-; (eexists; split; [reflexivity|]);
      destruct C as [(-> & -> & ->)|[(-> & -> & ->)|(-> & -> & ->)]]; apply cp_eq; apply ex_eq. }
    destruct r as [s'|i s'].
    + destruct P as [_ P]. split; [|split]; intros [Hx Hy]; [apply (P 1)|apply (P 2)|apply (P 3)]; try lia; apply AM; tauto.
    + destruct P as (_ & L & M). now apply MA.
Qed.

(** SEARCH with two WHEN phrases, for any byte searched for. *)
Definition ex_whens2 (i : Z) : list tree :=
  [TRel RGt (TLeaf (tk_item key1 i)) (TLeaf (OText 6)); TRel RLt (TLeaf (tk_item key2 i)) (TLeaf (OText 7))].
Example C64_ex_serial : forall m x y j, 1 <= j <= 3 -> Forall (ready (ex_items x y) (fun _ => 0) m None no_names) (ex_whens2 j).
Proof.
  intros m x y j J. constructor; [|constructor; [|constructor]]; apply ca_text; apply ex_text_item; lia.
Qed.

(** ** Refuted *)

(** SEARCH ... VARYING N WHEN KEY (I) = X, with N = 10 and I = 1 at the start: it
    stops at entry 3, two entries on, and N is 3, not 12. *)
Definition ex_whens (i : Z) : list tree := [TRel REq (TLeaf (tk_item key1 i)) (TLeaf (OText 6))].
Theorem C64_varying_refuted : forall m,
  search_stmt m false false None false no_names ex_whens 3 1 10 (start_state (ex_items 66 0)) = Ok (SerialAt 3 3 0 (start_state (ex_items 66 0))).
Proof. intros m. vm_compute. reflexivity. Qed.
Print Assumptions C64_varying_refuted.

(** OCCURS 2 TO 3: the first entry is never found, though it matches. *)
Theorem C64_occurs_min_refuted : forall m,
  search_all m false false None (mkTable 2 3 [key1; key2]) ex_when 3 (start_state (ex_items 65 57)) = Ok (AtEnd (start_state (ex_items 65 57))) /\
  sorted_table (ex_items 65 57) (fun _ => 0) None [key1; key2] 3 /\ entry_matches (ex_items 65 57) (fun _ => 0) None [key1; key2] ex_when 1.
Proof.
  intros m. split; [vm_compute; reflexivity|]. split; [apply ex_sorted|].
  intros k v [H|[H|[]]]; injection H as <- <-; (eexists; split; [reflexivity|]); apply cp_eq; apply ex_eq.
Qed.
Print Assumptions C64_occurs_min_refuted.

(** OCCURS 0 TO 3 with one entry that is greater than the value: the storage in
    front of the table is read. *)
Theorem C64_occurs_zero_refuted : forall m,
  search_all m false false None (mkTable 0 3 [key1; key2]) ex_when 1 (start_state (ex_items 48 48)) = UB.
Proof. intros m. vm_compute. reflexivity. Qed.
Print Assumptions C64_occurs_zero_refuted.

(** WHEN KEY = X AND KEY = Y: only the second equation is tested. *)
Theorem C64_same_key_refuted : forall m,
  search_all m false false None (mkTable 1 3 [key1]) [(0%nat, SVal (OText 6)); (0%nat, SVal (OText 7))] 3 (start_state (ex_items 90 66)) =
    Ok (FoundAt 3 (start_state (ex_items 90 66))) /\
  forall i, ~ entry_matches (ex_items 90 66) (fun _ => 0) None [key1] [(0%nat, SVal (OText 6)); (0%nat, SVal (OText 7))] i \/ i < 1 \/ 3 < i.
Proof.
  intros m. split; [vm_compute; reflexivity|]. intros i. destruct (Z_lt_dec i 1); [now right; left|]. destruct (Z_lt_dec 3 i); [now right; right|]. left.
  intros M. destruct (M 0%nat (OText 6) ltac:(now left)) as (z & NZ & O1). injection NZ as <-.
  inversion O1 as [? ? ? ? ? ? X|? ? ?|i1 j1 T1 E1 E2|? ? ?]; [discriminate X|]. subst.
  assert (C : i = 1 \/ i = 2 \/ i = 3) by lia. destruct C as [-> |[-> | ->]]; specialize (T1 0%nat); discriminate T1.
Qed.
Print Assumptions C64_same_key_refuted.

(** WHEN KEY = an index: the comparison does not set the variable that decides
    on which side to go on; it has no value then. *)
Definition num_key : tkey := mkTkey true (fun i => ONum (ERef (Z.to_nat (i - 1)))).
Definition num_items : list field := [a999 [48; 48; 49]; a999 [48; 48; 50]; a999 [48; 48; 51]].
Theorem C64_index_refuted :
  search_all default_cfg false false None (mkTable 1 3 [num_key]) [(0%nat, SIndex 3)] 3 (start_state num_items) = UB.
Proof. vm_compute. reflexivity. Qed.
Print Assumptions C64_index_refuted.
