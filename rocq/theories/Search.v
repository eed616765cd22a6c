(** SEARCH and SEARCH ALL as cobc compiles them: cobc/typeck.c 6447-6555
    (search_set_keys, cb_build_search_all), cobc/codegen.c 2113-2250
    (output_occurs, output_search_whens, output_search_all), and the value of
    ret that output_cond saves (1406-1510). *)
From Verif Require Import Base Field Sign Decimal Numeric PackedInt Move MoveAll Compare Compute ExprParse Cond.

(** A table: OCCURS t_min TO t_max, the entries' keys in the order of the KEY
    phrases: ascending?, and the key item of entry i (numbered from 1). *)
Record tkey := mkTkey { tk_asc : bool; tk_item : Z -> operand }.
Record table := mkTable { t_min : Z; t_max : Z; t_keys : list tkey }.

(** A value a key is compared with: an operand, or an index (an index-name or
    an item of usage INDEX, here the int it holds). *)
Inductive svalue := SVal (o : operand) | SIndex (n : Z).

(** search_set_keys, typeck.c 6447-6493, on the equations of the WHEN phrase
    joined by AND: keys[k].val, the last equation of a key counting. *)
Definition set_keys (whens : list (nat * svalue)) : nat -> option svalue :=
  fold_left (fun g e => fun k => if (k =? fst e)%nat then Some (snd e) else g k) whens (fun _ => None).

(** cb_build_search_all, 6495-6527: the tests in the order of the keys. *)
Fixpoint tests_from (g : nat -> option svalue) (k : nat) (ks : list tkey) : list (tkey * svalue) :=
  match ks with
  | [] => []
  | x :: r => match g k with Some v => (x, v) :: tests_from g (S k) r | None => tests_from g (S k) r end
  end.
Definition tests (t : table) (whens : list (nat * svalue)) : list (tkey * svalue) := tests_from (set_keys whens) 0 (t_keys t).

Section Search.
Variables (m : cfg) (debug alpha : bool) (col : option (list Z)).

(** A comparison of two operands as in Cond: the int that is compared with 0. *)
Definition compare_operands (s : cst) (x y : operand) : outcome (Z * cst) :=
  match expr_of (TLeaf x), expr_of (TLeaf y), x, y with
  | Some a, Some b, _, _ => rel_num m debug alpha col s a b
  | _, _, OText i, OText j => rel_text m debug alpha col s i j
  | _, _, _, _ => NotModelled
  end.

(** One test at entry [i]: (whether it is 0, ret afterwards).  The difference
    with an index is an expression, not a call: ret is not assigned. *)
Definition test_key (s : cst) (i : Z) (kv : tkey * svalue) (ret : option Z) : outcome (bool * option Z * cst) :=
  let key := tk_item (fst kv) i in
  match snd kv with
  | SVal v =>
      do r <- (if tk_asc (fst kv) then compare_operands s key v else compare_operands s v key);
      Ok (fst r =? 0, Some (fst r), snd r)
  | SIndex n =>
      match key with
      | ONum e => do r <- leaf_int m s e; Ok (fst r - n =? 0, ret, snd r)
      | _ => NotModelled
      end
  end.
Fixpoint test_all (s : cst) (i : Z) (ts : list (tkey * svalue)) (ret : option Z) : outcome (bool * option Z * cst) :=
  match ts with
  | [] => Ok (true, ret, s)
  | kv :: r =>
      do x <- test_key s i kv ret;
      let '(b, ret', s') := x in
      if b then test_all s' i r ret' else Ok (false, ret', s')
  end.

(** The statement ended at AT END, or with the WHEN statements at an entry. *)
Inductive search_result := AtEnd (s : cst) | FoundAt (i : Z) (s : cst).

(** The loop of output_search_all.  UB: an entry outside the table is read, or
    ret has no value. *)
Fixpoint search_all_loop (fuel : nat) (t : table) (ts : list (tkey * svalue)) (head tail : Z) (ret : option Z) (s : cst) : outcome search_result :=
  match fuel with
  | O => NotModelled   (* fuel used up: never, see P_Search *)
  | S g =>
      if tail - 1 <=? head then Ok (AtEnd s)
      else
        let i := Z.quot (head + tail) 2 in
        if (i <? 1) || (t_max t <? i) then UB
        else
          do x <- test_all s i ts ret;
          let '(b, ret', s') := x in
          if b then Ok (FoundAt i s')
          else match ret' with
               | None => UB
               | Some r => if r <? 0 then search_all_loop g t ts i tail ret' s' else search_all_loop g t ts head i ret' s'
               end
  end.
(** [n]: the current number of entries (output_occurs: the DEPENDING ON item, or
    t_max). *)
Definition search_all (t : table) (whens : list (nat * svalue)) (n : Z) (s : cst) : outcome search_result :=
  search_all_loop (Z.to_nat (n + 3)) t (tests t whens) (t_min t - 1) (n + 1) None s.

(** The loop of output_search_whens: [whens i] are the conditions of the WHEN
    phrases for entry [i], an if-else chain; [var]: what a VARYING item that is
    not an index of the table holds (it is set to the index, 2168-2170).  The
    result is AtEnd, or the entry and the number of the WHEN phrase. *)
Variables (nibble_c : bool) (names : nat -> name88).
Fixpoint first_when (k : nat) (ws : list tree) (s : cst) : outcome (option nat * cst) :=
  match ws with
  | [] => Ok (None, s)
  | w :: r => do b <- eval m debug alpha col nibble_c names w s;
              if fst b then Ok (Some k, snd b) else first_when (S k) r (snd b)
  end.
Inductive serial_result := SerialEnd (i var : Z) (s : cst) | SerialAt (i var : Z) (k : nat) (s : cst).
Fixpoint search_serial (fuel : nat) (whens : Z -> list tree) (n : Z) (i var : Z) (s : cst) : outcome serial_result :=
  match fuel with
  | O => NotModelled   (* fuel used up: never, see P_Search *)
  | S g =>
      if n <? i then Ok (SerialEnd i var s)
      else
        do r <- first_when 0 (whens i) s;
        match fst r with
        | Some k => Ok (SerialAt i var k (snd r))
        | None => search_serial g whens n (i + 1) (i + 1) (snd r)
        end
  end.
(** SEARCH from index [i]. *)
Definition search_stmt (whens : Z -> list tree) (n i var : Z) (s : cst) : outcome serial_result :=
  search_serial (S (Z.to_nat (n + 1 - i))) whens n i var s.
End Search.
