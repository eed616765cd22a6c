(** SORT of a file: libcob/fileio.c 5605-6320 (sort_cmps, unique_copy,
    cob_file_sort_compare, cob_new_item, cob_get_temp_file, cob_sort_queues, cob_read_item,
    cob_write_block, cob_file_sort_process, cob_file_sort_submit,
    cob_file_sort_retrieve, cob_file_sort_init, cob_file_release,
    cob_file_return).
    Simplifications: the work files never fail to open or to be written; the
    linked lists are Coq lists and the list of free items is its length
    (items are interchangeable: every field is set before it is read). *)
From Verif Require Import Base Field Numeric Compare MoveAll Stdio FileIO.

(** sort_cmps and the keys part of cob_file_sort_compare, fileio.c 5605-5665.
    UB: a key outside the record.  alnum_cmps (common.c 585-607) is the same
    loop as sort_cmps. *)
Fixpoint file_keys_compare (m : cfg) (col : option (list Z)) (ks : list skey) (r1 r2 : list Z) : outcome Z :=
  match ks with
  | [] => Ok 0
  | k :: rest =>
    if (length r1 <? k_off k + k_size k)%nat || (length r2 <? k_off k + k_size k)%nat then UB
    else
      do c <- (if is_numeric_type (a_type (k_attr k)) then numeric_cmp m (key_field k r1) (key_field k r2)
               else Ok (alnum_cmps col (fd (key_field k r1)) (fd (key_field k r2))));
      if c =? 0 then file_keys_compare m col rest r1 r2
      else Ok (if k_asc k then c else - c)
  end.

(** The keys of the sort file: module switches, collating sequence, keys. *)
Record sortkeys := mkKeys { sk_cfg : cfg; sk_col : option (list Z); sk_keys : list skey }.

(** struct cobitem, fileio.c 166-173. *)
Record sitem := mkItm { it_size : Z; it_unique : Z; it_data : list Z }.

(** cob_file_sort_compare (a, b) < 0, fileio.c 5639-5671. *)
Definition goes_first (K : sortkeys) (a b : sitem) : outcome bool :=
  do c <- file_keys_compare (sk_cfg K) (sk_col K) (sk_keys K) (it_data a) (it_data b);
  Ok (if c =? 0 then it_unique a <? it_unique b else c <? 0).

(** struct memory_struct: the items with their end_of_block flags, and count. *)
Record queue := mkQueue { q_items : list (sitem * bool); q_count : nat }.
Definition empty_queue := mkQueue [] 0.
Definition q_push_last (q : queue) (i : sitem) : queue := mkQueue (q_items q ++ [(i, false)]) (S (q_count q)).
(** last->end_of_block = 1 *)
Fixpoint mark_last (l : list (sitem * bool)) : list (sitem * bool) :=
  match l with
  | [] => []
  | [(i, _)] => [(i, true)]
  | x :: r => x :: mark_last r
  end.

(** The inner loop of cob_sort_queues, fileio.c 5797-5825: merge of one block
    of each source queue to the destination.  Taking from an empty queue is
    undefined (NULL). *)
Fixpoint merge_blocks (fuel : nat) (K : sortkeys) (a b : queue) (ea eb : bool) (d : queue) : outcome (queue * queue * queue) :=
  if ea && eb then Ok (a, b, d) else
  match fuel with
  | O => NotModelled
  | S fuel' =>
    do move <- (if ea then Ok true else if eb then Ok false else
                match q_items a, q_items b with
                | (x, _) :: _, (y, _) :: _ => do f <- goes_first K x y; Ok (negb f)
                | _, _ => UB
                end);
    if move then
      match q_items b with
      | [] => UB
      | (y, e) :: r => merge_blocks fuel' K a (mkQueue r (pred (q_count b))) ea (eb || e) (q_push_last d y)
      end
    else
      match q_items a with
      | [] => UB
      | (x, e) :: r => merge_blocks fuel' K (mkQueue r (pred (q_count a))) b (ea || e) eb (q_push_last d x)
      end
  end.

(** The for loop, fileio.c 5789-5828; [d] is the current destination, [e] the other one; they are swapped ([destination ^= 1]) after each block. *)
Fixpoint merge_pass (fuel : nat) (K : sortkeys) (a b d e : queue) (swapped : bool) : outcome (queue * queue) :=
  if (q_count a =? 0)%nat && (q_count b =? 0)%nat then Ok (if swapped then (e, d) else (d, e)) else
  match fuel with
  | O => NotModelled
  | S fuel' =>
    do r <- merge_blocks (S (q_count a + q_count b)) K a b (q_count a =? 0)%nat (q_count b =? 0)%nat d;
    let '(a, b, d) := r in
    match q_items d with
    | [] => UB
    | _ => merge_pass fuel' K a b e (mkQueue (mark_last (q_items d)) (q_count d)) (negb swapped)
    end
  end.

(** cob_sort_queues, fileio.c 5777-5831.  [p] is the source pair of queues,
    [source2] tells whether it is queues 2 and 3; the result is the source
    pair at the end. *)
Fixpoint sort_queues (fuel : nat) (K : sortkeys) (a b : queue) (source2 : bool) : outcome (bool * queue * queue) :=
  if (q_count b =? 0)%nat then Ok (source2, a, b) else
  match fuel with
  | O => NotModelled
  | S fuel' =>
    do r <- merge_pass (S (q_count a + q_count b)) K a b empty_queue empty_queue false;
    sort_queues fuel' K (fst r) (snd r) (negb source2)
  end.

(** A work file: stream and count of blocks (size_t). *)
Record wfile := mkW { w_str : stream; w_count : Z }.
Definition new_stream : stream := mkStream [] 0 false.
Definition wf_write (w : wfile) (bs : list Z) : wfile := mkW (fwrite (w_str w) bs) (w_count w).
Definition wf_end_block (w : wfile) : wfile := mkW (fwrite (w_str w) [1]) ((w_count w + 1) mod 2 ^ 64).
Definition wf_dec (w : wfile) : wfile := mkW (w_str w) ((w_count w - 1) mod 2 ^ 64).
Definition wf_rewind (w : wfile) : wfile := mkW (set_pos (w_str w) 0) (w_count w).
(** One item as written: block_byte (0), unique, item. *)
Definition item_bytes (u : Z) (d : list Z) : list Z := 0 :: le_enc 8 u ++ d.

(** The item held for a work file while merging; None: end_of_block. *)
Definition held := option (Z * list Z).

(** cob_read_item, fileio.c 5833-5847; [None]: a short read (COBSORTFILEERR). *)
Definition read_item (size : nat) (s : stream) : option (held * stream) :=
  match getc s with
  | (Some 0, s) =>
    let '(bs, s) := fread s (8 + size) in
    if (length bs =? 8 + size)%nat then Some (Some (le_dec (firstn 8 bs), skipn 8 bs), s) else None
  | (_, s) => Some (None, s)
  end.

(** The state of a sort: struct cobsort and the sort file's record area,
    DEPENDING item and SORT-RETURN register. *)
Record sorter := mkSort {
  h_keys : sortkeys; h_size : nat; h_memory : nat;
  h_unique : Z; h_retrieving : bool; h_files_used : bool; h_dest1 : bool;
  h_q0 : queue; h_q1 : queue;              (* queues 0 and 1 before process *)
  h_rq : queue;                            (* queue[retrieval_queue] *)
  h_w0 : wfile; h_w1 : wfile;              (* files 0 and 1; the source pair when retrieving *)
  h_b0 : held; h_b1 : held;                (* items held for them *)
  h_free : nat;                            (* items in the free list *)
  h_area : list Z; h_dep : option item; h_return : Z; h_status : Z }.

(** cob_write_block, fileio.c 5849-5873: the number of items freed. *)
Definition write_items (w : wfile) (l : list (sitem * bool)) : wfile :=
  fold_left (fun w x => wf_write w (item_bytes (it_unique (fst x)) (it_data (fst x)))) l w.
Definition write_block (w : wfile) (q : queue) : wfile := wf_end_block (write_items w (q_items q)).

(** The merge of two blocks of the work files, fileio.c 5949-5978. *)
Fixpoint merge_files (fuel : nat) (K : sortkeys) (size : nat) (a b : wfile) (ha hb : held) (d : wfile)
  : outcome (option (wfile * wfile * wfile)) :=
  match ha, hb with
  | None, None => Ok (Some (a, b, d))
  | _, _ =>
    match fuel with
    | O => NotModelled
    | S fuel' =>
      do move <- (match ha, hb with
                  | None, _ => Ok true
                  | _, None => Ok false
                  | Some x, Some y => do f <- goes_first K (mkItm 0 (fst x) (snd x)) (mkItm 0 (fst y) (snd y)); Ok (negb f)
                  end);
      if move then
        match hb with
        | None => UB
        | Some (u, x) =>
          let d := wf_write d (item_bytes u x) in
          match read_item size (w_str b) with
          | None => Ok None
          | Some (hb, s) => merge_files fuel' K size a (mkW s (w_count b)) ha hb d
          end
        end
      else
        match ha with
        | None => UB
        | Some (u, x) =>
          let d := wf_write d (item_bytes u x) in
          match read_item size (w_str a) with
          | None => Ok None
          | Some (ha, s) => merge_files fuel' K size (mkW s (w_count a)) b ha hb d
          end
        end
    end
  end.

(** One pass, fileio.c 5940-5984: while blocks are left in the first source
    file. *)
Fixpoint files_pass (fuel : nat) (K : sortkeys) (size : nat) (a b d e : wfile) (swapped : bool)
  : outcome (option (wfile * wfile * wfile * wfile)) :=
  if w_count a <=? 0 then Ok (Some (a, b, if swapped then e else d, if swapped then d else e)) else
  match fuel with
  | O => NotModelled
  | S fuel' =>
    match read_item size (w_str a) with
    | None => Ok None
    | Some (ha, sa) =>
      let a := mkW sa (w_count a) in
      match (if 0 <? w_count b then read_item size (w_str b) else Some (None, w_str b)) with
      | None => Ok None
      | Some (hb, sb) =>
        let b := mkW sb (w_count b) in
        do r <- merge_files (S (length (s_bytes (w_str a)) + length (s_bytes (w_str b)))) K size a b ha hb d;
        match r with
        | None => Ok None
        | Some (a, b, d) => files_pass fuel' K size (wf_dec a) (wf_dec b) e (wf_end_block d) (negb swapped)
        end
      end
    end
  end.

(** The while loop of cob_file_sort_process, fileio.c 5937-5992: the source
    pair and the other pair change roles after each pass. *)
Definition reset_count (w : wfile) : wfile := mkW (w_str w) 0.
Fixpoint files_merge (fuel : nat) (K : sortkeys) (size : nat) (a b d e : wfile) : outcome (option (wfile * wfile)) :=
  if w_count a <=? 1 then Ok (Some (a, b)) else
  match fuel with
  | O => NotModelled
  | S fuel' =>
    do r <- files_pass (Z.to_nat (w_count a)) K size a b (reset_count d) (reset_count e) false;
    match r with
    | None => Ok None
    | Some (a, b, d, e) => files_merge fuel' K size (wf_rewind d) (wf_rewind e) (wf_rewind a) (wf_rewind b)
    end
  end.

Definition set_sort_status (st : Z) (h : sorter) : sorter :=
  mkSort (h_keys h) (h_size h) (h_memory h) (h_unique h) (h_retrieving h) (h_files_used h) (h_dest1 h)
    (h_q0 h) (h_q1 h) (h_rq h) (h_w0 h) (h_w1 h) (h_b0 h) (h_b1 h) (h_free h) (h_area h) (h_dep h) (h_return h) st.
(** The error branch of cob_file_release / cob_file_return: SORT-RETURN 16, status 30. *)
Definition sort_failed (h : sorter) : sorter :=
  mkSort (h_keys h) (h_size h) (h_memory h) (h_unique h) (h_retrieving h) (h_files_used h) (h_dest1 h)
    (h_q0 h) (h_q1 h) (h_rq h) (h_w0 h) (h_w1 h) (h_b0 h) (h_b1 h) (h_free h) (h_area h) (h_dep h) 16 30.

(** cob_file_sort_process, fileio.c 5895-5993.  None: COBSORTFILEERR. *)
Definition sort_process (h : sorter) : outcome (option sorter) :=
  let K := h_keys h in
  do r <- sort_queues (S (q_count (h_q0 h) + q_count (h_q1 h))) K (h_q0 h) (h_q1 h) false;
  let '(_, q, _) := r in
  if negb (h_files_used h) then
    Ok (Some (mkSort K (h_size h) (h_memory h) (h_unique h) true false (h_dest1 h)
      empty_queue empty_queue q (h_w0 h) (h_w1 h) None None (h_free h) (h_area h) (h_dep h) (h_return h) (h_status h)))
  else
    let w0 := if h_dest1 h then h_w0 h else write_block (h_w0 h) q in
    let w1 := if h_dest1 h then write_block (h_w1 h) q else h_w1 h in
    let free := (h_free h + length (q_items q))%nat in
    if (free <? 4)%nat then UB else
    do r <- files_merge (S (Z.to_nat (w_count w0))) K (h_size h) (wf_rewind w0) (wf_rewind w1) (mkW new_stream 0) (mkW new_stream 0);
    match r with
    | None => Ok None
    | Some (a, b) =>
      match read_item (h_size h) (w_str a) with
      | None => Ok None
      | Some (ha, sa) =>
        match read_item (h_size h) (w_str b) with
        | None => Ok None
        | Some (hb, sb) =>
          Ok (Some (mkSort K (h_size h) (h_memory h) (h_unique h) true true (h_dest1 h)
            empty_queue empty_queue empty_queue (mkW sa (w_count a)) (mkW sb (w_count b)) ha hb (free - 4) (h_area h) (h_dep h) (h_return h) (h_status h)))
        end
      end
    end.

(** RELEASE: cob_file_release and cob_file_sort_submit, fileio.c 5995-6067,
    6264-6285. *)
Definition release (h : sorter) : outcome sorter :=
  if h_retrieving h then Ok (sort_failed h) else
  let K := h_keys h in
  do h1 <-
    (if (h_memory h <=? q_count (h_q0 h) + q_count (h_q1 h))%nat then
       let dest1 := if h_files_used h then h_dest1 h else false in
       do r <- sort_queues (S (q_count (h_q0 h) + q_count (h_q1 h))) K (h_q0 h) (h_q1 h) false;
       let '(_, q, _) := r in
       Ok (mkSort K (h_size h) (h_memory h) (h_unique h) false true (negb dest1)
         empty_queue empty_queue (h_rq h)
         (if dest1 then h_w0 h else write_block (h_w0 h) q) (if dest1 then write_block (h_w1 h) q else h_w1 h)
         None None (h_free h + length (q_items q)) (h_area h) (h_dep h) (h_return h) (h_status h))
     else Ok h);
  if (length (h_area h) <? h_size h)%nat then UB else
  let q := (mkItm (match h_dep h with Some d => i_val d | None => Z.of_nat (h_size h) end) (h_unique h) (firstn (h_size h) (h_area h)), true) in
  let put (z : queue) := mkQueue (q :: q_items z) (S (q_count z)) in
  let first := (q_count (h_q0 h1) <=? q_count (h_q1 h1))%nat in
  Ok (mkSort K (h_size h) (h_memory h) ((h_unique h + 1) mod 2 ^ 64) false (h_files_used h1) (h_dest1 h1)
    (if first then put (h_q0 h1) else h_q0 h1) (if first then h_q1 h1 else put (h_q1 h1))
    (h_rq h1) (h_w0 h1) (h_w1 h1) None None (pred (h_free h1)) (h_area h) (h_dep h) (h_return h) 0).

(** RETURN: cob_file_return and cob_file_sort_retrieve, fileio.c 6069-6122,
    6287-6316. *)
Definition sort_return (h : sorter) : outcome sorter :=
  do p <- (if h_retrieving h then Ok (Some h) else sort_process h);
  match p with
  | None => Ok (sort_failed h)
  | Some h =>
    if h_files_used h then
      do move <- (match h_b0 h, h_b1 h with
                  | None, None => Ok None
                  | None, Some _ => Ok (Some true)
                  | Some _, None => Ok (Some false)
                  | Some x, Some y => do f <- goes_first (h_keys h) (mkItm 0 (fst x) (snd x)) (mkItm 0 (fst y) (snd y)); Ok (Some (negb f))
                  end);
      match move with
      | None => Ok (set_sort_status 10 h)
      | Some mv =>
        match (if mv then h_b1 h else h_b0 h) with
        | None => UB
        | Some (_, d) =>
          let area := d ++ skipn (h_size h) (h_area h) in
          match read_item (h_size h) (w_str (if mv then h_w1 h else h_w0 h)) with
          | None => Ok (sort_failed h)
          | Some (hd, s) =>
            Ok (mkSort (h_keys h) (h_size h) (h_memory h) (h_unique h) true true (h_dest1 h)
              (h_q0 h) (h_q1 h) (h_rq h)
              (if mv then h_w0 h else mkW s (w_count (h_w0 h))) (if mv then mkW s (w_count (h_w1 h)) else h_w1 h)
              (if mv then h_b0 h else hd) (if mv then hd else h_b1 h)
              (h_free h) area (h_dep h) (h_return h) 0)
          end
        end
      end
    else
      match q_items (h_rq h) with
      | [] => Ok (set_sort_status 10 h)
      | (x, _) :: r =>
        Ok (mkSort (h_keys h) (h_size h) (h_memory h) (h_unique h) true false (h_dest1 h)
          (h_q0 h) (h_q1 h) (mkQueue r (q_count (h_rq h))) (h_w0 h) (h_w1 h) None None (S (h_free h))
          (it_data x ++ skipn (h_size h) (h_area h))
          (match h_dep h with Some d => Some (item_set d (it_size x)) | None => None end) (h_return h) 0)
      end
  end.

(** cob_file_sort_init, fileio.c 6199-6228; sizeof (struct cobitem) is 32. *)
Definition sort_init (K : sortkeys) (size : nat) (cob_sort_memory : nat) (area : list Z) (dep : option item) : sorter :=
  mkSort K size (cob_sort_memory / (size + 32)) 0 false false false empty_queue empty_queue empty_queue
    (mkW new_stream 0) (mkW new_stream 0) None None 0 area dep 0 0.

(** A program's statements during a sort. *)
Inductive sort_op := SMove (d : list Z) | SLen (n : Z) | SRelease | SReturn.
Definition run_sort_op (h : sorter) (o : sort_op) : outcome sorter :=
  let upd a d := mkSort (h_keys h) (h_size h) (h_memory h) (h_unique h) (h_retrieving h) (h_files_used h) (h_dest1 h)
    (h_q0 h) (h_q1 h) (h_rq h) (h_w0 h) (h_w1 h) (h_b0 h) (h_b1 h) (h_free h) a d (h_return h) (h_status h) in
  match o with
  | SMove d => Ok (upd d (h_dep h))
  | SLen n => Ok (upd (h_area h) (match h_dep h with Some d => Some (item_set d n) | None => None end))
  | SRelease => release h
  | SReturn => sort_return h
  end.
Fixpoint run_sort (h : sorter) (os : list sort_op) : outcome sorter :=
  match os with
  | [] => Ok h
  | o :: r => do h' <- run_sort_op h o; run_sort h' r
  end.
