(** INDEXED files: libcob/fileio.c 322-400 and 1964-3700, the branch compiled
    with WITH_DB and USE_DB41 (the default of configure), without a Berkeley DB
    environment (bdb_env == NULL: no record locks), and the statements on top of
    it, fileio.c 3849-4553.

    Berkeley DB is modelled by what its documentation promises for B-trees: a
    database is the list of its entries in key order, duplicates in the order
    in which they were put; [get], [c_get], [put], [del] and [c_del] are
    functions on that list.  The memory that p->key and p->data point to is
    modelled by its value.  Errors of the storage medium are not modelled. *)
From Verif Require Import Base FileIO.
Local Open Scope Z_scope.

(** ** Berkeley DB *)

(** The default B-tree comparison: bytes, then length. *)
Fixpoint bcmp (a b : list Z) : comparison :=
  match a, b with
  | [], [] => Eq
  | [], _ :: _ => Lt
  | _ :: _, [] => Gt
  | x :: a', y :: b' => match x ?= y with Eq => bcmp a' b' | c => c end
  end.
Definition beq (a b : list Z) : bool := match bcmp a b with Eq => true | _ => false end.
Definition blt (a b : list Z) : bool := match bcmp a b with Lt => true | _ => false end.

(** An entry: key, data, and the duplicate number that fileio.c appends to the
    data of alternate keys WITH DUPLICATES (4 bytes behind the record key; kept
    as a separate number here, which does not wrap around; 0 elsewhere). *)
Definition dat := (list Z * Z)%type.
Definition ent := (list Z * dat)%type.
Definition db := list ent.
Definition e_key (e : ent) : list Z := fst e.
Definition e_prim (e : ent) : list Z := fst (snd e).
Definition e_dup (e : ent) : Z := snd (snd e).

(** A positioned cursor: the entries before (nearest first), the entry, the
    entries behind. *)
Definition cursor := (list ent * ent * list ent)%type.
Definition c_ent (c : cursor) : ent := snd (fst c).

Fixpoint db_find (q : list Z -> bool) (pre : list ent) (l : db) : option cursor :=
  match l with
  | [] => None
  | e :: r => if q (e_key e) then Some (pre, e, r) else db_find q (e :: pre) r
  end.
(** DB_SET_RANGE: the first entry whose key is not less. *)
Definition db_set_range (k : list Z) (l : db) : option cursor := db_find (fun x => negb (blt x k)) [] l.
(** DB_SET, DB->get: the first entry with this key. *)
Definition db_set (k : list Z) (l : db) : option cursor := db_find (fun x => beq x k) [] l.
Definition db_first (l : db) : option cursor :=
  match l with [] => None | e :: r => Some ([], e, r) end.
Definition db_last (l : db) : option cursor :=
  match rev l with [] => None | e :: r => Some (r, e, []) end.
Definition c_next (c : cursor) : option cursor :=
  let '(pre, e, post) := c in match post with [] => None | x :: r => Some (e :: pre, x, r) end.
Definition c_prev (c : cursor) : option cursor :=
  let '(pre, e, post) := c in match pre with [] => None | x :: r => Some (r, x, e :: post) end.
(** DB_NEXT_NODUP: the next entry with another key. *)
Definition c_next_nodup (c : cursor) : option cursor :=
  let '(pre, e, post) := c in db_find (fun x => negb (beq x (e_key e))) (e :: pre) post.
(** Insertion behind all entries with the same key. *)
Fixpoint db_insert (e : ent) (l : db) : db :=
  match l with
  | [] => [e]
  | x :: r => if blt (e_key e) (e_key x) then e :: l else x :: db_insert e r
  end.
(** DB->del: all entries with the key. *)
Definition db_del (k : list Z) (l : db) : db := filter (fun e => negb (beq (e_key e) k)) l.
(** c_del at a cursor. *)
Definition c_del (c : cursor) : db := let '(pre, e, post) := c in rev pre ++ post.

(** ** The file *)

(** A key: offset and length in the record, WITH DUPLICATES. *)
Record kspec := mkK { k_off : nat; k_len : nat; k_dup : bool }.
(** cob_file: what the program declares.  The first key is the RECORD KEY. *)
Record fdesc := mkDesc {
  d_keys : list kspec; d_access : access_mode; d_optional : bool; d_min : nat; d_max : nat }.

(** The bytes of a key in a record (or in the record area). *)
Definition slice (s : kspec) (r : list Z) : list Z := firstn (k_len s) (skipn (k_off s) r).
Definition kspec0 : kspec := mkK 0 0 false.
Definition key_spec (d : fdesc) (i : nat) : kspec := nth i (d_keys d) kspec0.
Definition prime (d : fdesc) : kspec := key_spec d 0.

(** struct indexed_file, fileio.c 350-369 (temp_key and rewrite_sec_key are
    local to the functions here). *)
Record isam := mkIsam {
  p_dbs : list db;              (* db *)
  p_ki : nat;                   (* key_index *)
  p_last : option (list Z);     (* last_key *)
  p_lrk : list (list Z);        (* last_readkey[i] *)
  p_lrp : list (list Z);        (* last_readkey[nkeys + i] *)
  p_ldup : list Z;              (* last_dupno *)
  p_key : list Z;               (* key *)
  p_data : option dat }.        (* data; None: NULL *)

Definition set_dbs v p := mkIsam v (p_ki p) (p_last p) (p_lrk p) (p_lrp p) (p_ldup p) (p_key p) (p_data p).
Definition set_ki v p := mkIsam (p_dbs p) v (p_last p) (p_lrk p) (p_lrp p) (p_ldup p) (p_key p) (p_data p).
Definition set_last v p := mkIsam (p_dbs p) (p_ki p) v (p_lrk p) (p_lrp p) (p_ldup p) (p_key p) (p_data p).
Definition set_pos k q n p := mkIsam (p_dbs p) (p_ki p) (p_last p) k q n (p_key p) (p_data p).
Definition set_pkey v p := mkIsam (p_dbs p) (p_ki p) (p_last p) (p_lrk p) (p_lrp p) (p_ldup p) v (p_data p).
Definition set_pdata v p := mkIsam (p_dbs p) (p_ki p) (p_last p) (p_lrk p) (p_lrp p) (p_ldup p) (p_key p) v.

Definition the_db (p : isam) (i : nat) : db := nth i (p_dbs p) [].
(** DB_SEQ: a successful call sets p->key and p->data, a failing one nothing. *)
Definition got (p : isam) (c : option cursor) : isam :=
  match c with
  | Some c => set_pdata (Some (snd (c_ent c))) (set_pkey (e_key (c_ent c)) p)
  | None => p
  end.

(** Assignment to an element of an array. *)
Fixpoint lset {A} (i : nat) (v : A) (l : list A) : list A :=
  match l, i with
  | [], _ => []
  | _ :: r, O => v :: r
  | x :: r, S j => x :: lset j v r
  end.

(** Saving the position, fileio.c 2362-2375 and 3126-3136; [e] is the entry of
    the index in use. *)
Definition save_pos (d : fdesc) (p : isam) (e : ent) : isam :=
  let i := p_ki p in
  if (i =? 0)%nat then set_pos (lset 0 (e_key e) (p_lrk p)) (p_lrp p) (p_ldup p) p
  else set_pos (lset i (e_key e) (p_lrk p)) (lset i (e_prim e) (p_lrp p))
               (if k_dup (key_spec d i) then lset i (e_dup e) (p_ldup p) else p_ldup p) p.

(** Going from the entry of an alternate key to the record, fileio.c 2318-2327
    and 3077-3094; [None]: no such record. *)
Definition to_record (p : isam) (e : ent) : option isam * isam :=
  if (p_ki p =? 0)%nat then (Some p, p)
  else
    let p := set_pkey (e_prim e) p in
    match db_set (e_prim e) (the_db p 0) with
    | Some c => let p := set_pdata (Some (snd (c_ent c))) p in (Some p, p)
    | None => (None, p)
    end.

(** indexed_open, fileio.c 2106-2147 (after the databases were opened). *)
Definition indexed_open (d : fdesc) (area : list Z) (dbs : list db) : isam :=
  let n := length (d_keys d) in
  let p := mkIsam dbs 0 None (map (fun s => repeat 0 (k_len s)) (d_keys d))
             (repeat (repeat 0 (k_len (prime d))) n) (repeat 0 n) (slice (prime d) area) None in
  match db_first (nth 0 dbs []) with
  | Some c => let p := got p (Some c) in
              set_pos (lset 0 (e_key (c_ent c)) (p_lrk p)) (p_lrp p) (p_ldup p) p
  | None => p
  end.

(** ** START and READ with a key: indexed_start_internal, fileio.c 2219-2387 *)

(** The index of the key that starts at this place of the record. *)
Fixpoint lookup (ks : list kspec) (off i : nat) : option nat :=
  match ks with
  | [] => None
  | s :: r => if (k_off s =? off)%nat then Some i else lookup r off (S i)
  end.

Definition starts (k kv : list Z) : bool := beq (firstn (length kv) k) kv.

(** while (ret == 0 && memcmp (...) == 0) ret = DB_SEQ (..., DB_NEXT); the
    second component is the last entry met. *)
Fixpoint skip_eq (kv : list Z) (pre : list ent) (e : ent) (post : list ent) : option cursor * cursor :=
  if starts (e_key e) kv then
    match post with
    | [] => (None, (pre, e, []))
    | x :: r => skip_eq kv (e :: pre) x r
    end
  else (Some (pre, e, post), (pre, e, post)).

(** The cursor found, and the one whose entry p->key and p->data were last set
    from. *)
Definition start_cursor (l : db) (dup : bool) (c : cond) (kv : list Z)
  : option cursor * option cursor :=
  let r := db_set_range kv l in
  let orelse := fun (x y : option cursor) => match x with Some _ => x | None => y end in
  match c with
  | EQ => match r with
          | Some x => (if starts (e_key (c_ent x)) kv then Some x else None, r)
          | None => (None, None)
          end
  | LT => match r with
          | None => (db_last l, db_last l)
          | Some x => (c_prev x, orelse (c_prev x) r)
          end
  | LE => match r with
          | None => (db_last l, db_last l)
          | Some x =>
            if negb (starts (e_key (c_ent x)) kv) then (c_prev x, orelse (c_prev x) r)
            else if dup then
              match c_next_nodup x with
              | None => (db_last l, db_last l)
              | Some y => (c_prev y, orelse (c_prev y) (Some y))
              end
            else (r, r)
          end
  | GT => match r with
          | None => (None, None)
          | Some (pre, e, post) => let '(x, y) := skip_eq kv pre e post in (x, Some y)
          end
  | GE => (r, r)
  end.

Definition start_internal (d : fdesc) (p : isam) (c : cond) (off : nat) (kv : list Z)
  : outcome (Z * isam) :=
  match lookup (d_keys d) off 0 with
  | None => UB
  | Some i =>
    let p := set_pkey kv (set_ki i p) in
    let '(cur, met) := start_cursor (the_db p i) (k_dup (key_spec d i)) c kv in
    let p := got p met in
    match cur with
    | None => Ok (23, p)
    | Some x =>
      match to_record p (c_ent x) with
      | (None, p) => Ok (23, p)
      | (Some p, _) => Ok (0, save_pos d p (c_ent x))
      end
    end
  end.

(** f->record->size = p->data.size; memcpy (f->record->data, ...). *)
Definition deliver (p : isam) (area : list Z) : list Z * nat :=
  match p_data p with
  | Some (b, _) => (b ++ skipn (length b) area, length b)
  | None => (area, 0%nat)
  end.

(** ** READ NEXT and READ PREVIOUS: indexed_read_next, fileio.c 2879-3160 *)
Inductive dir := DNext | DPrev | DFirst | DLast.

(** while (ret == 0 && same key && dupno < last_dupno) DB_NEXT, 2933-2943 and
    3000-3011. *)
Fixpoint skip_dup (k : list Z) (n : Z) (pre : list ent) (e : ent) (post : list ent)
  : option cursor * cursor :=
  if beq (e_key e) k && (e_dup e <? n) then
    match post with
    | [] => (None, (pre, e, []))
    | x :: r => skip_dup k n (e :: pre) x r
    end
  else (Some (pre, e, post), (pre, e, post)).

(** Does the record of the saved position still exist? 2924-2967. *)
Definition still_there (d : fdesc) (p : isam) : bool * isam :=
  let i := p_ki p in
  let k := nth i (p_lrk p) [] in
  let n := nth i (p_ldup p) 0 in
  let prim := nth i (p_lrp p) [] in
  let p := set_pkey k p in
  match db_set k (the_db p i) with
  | None => (false, p)
  | Some (pre, e, post) =>
    let p := got p (Some (pre, e, post)) in
    if (i =? 0)%nat then (true, p)
    else
      let '(x, met) :=
        if k_dup (key_spec d i) then skip_dup k n pre e post
        else (Some (pre, e, post), (pre, e, post)) in
      let p := got p (Some met) in
      let found :=
        match x with
        | None => false
        | Some c =>
          let e := c_ent c in
          (if k_dup (key_spec d i) then beq (e_key e) k && (e_dup e =? n) else true) && beq prim (e_prim e)
        end in
      if found then
        let p := set_pkey prim p in
        match db_set prim (the_db p 0) with
        | Some c => (true, set_pdata (Some (snd (c_ent c))) p)
        | None => (false, p)
        end
      else (false, p)
  end.

(** The cursor to read from, 2983-3072: [None] is AT END. *)
Definition next_cursor (d : fdesc) (p : isam) (nx : dir) : option cursor :=
  let i := p_ki p in
  let l := the_db p i in
  let k := nth i (p_lrk p) [] in
  let n := nth i (p_ldup p) 0 in
  match nx with
  | DFirst => db_first l
  | DLast => db_last l
  | _ =>
    let prev := match nx with DPrev => true | _ => false end in
    match db_set_range k l with
    | None => if prev then db_last l else None
    | Some (pre, e, post) =>
      if beq (e_key e) k then
        if negb (i =? 0)%nat && k_dup (key_spec d i) then
          match skip_dup k n pre e post with
          | (None, _) => if prev then db_last l else None
          | (Some c, _) =>
            if beq (e_key (c_ent c)) k && (e_dup (c_ent c) =? n)
            then (if prev then c_prev c else c_next c)
            else (if prev then c_prev c else Some c)
          end
        else if prev then c_prev (pre, e, post) else c_next (pre, e, post)
      else if prev then c_prev (pre, e, post) else Some (pre, e, post)
    end
  end.

(** The result: status, the file, and the record area with its size. *)
Definition indexed_read_next (d : fdesc) (p : isam) (area : list Z) (size : nat)
    (prev eof bof : bool) (first : Z) : Z * isam * list Z * nat :=
  let nx := if prev then (if eof then DLast else DPrev) else if bof then DFirst else DNext in
  if negb (first =? 0) &&
     (match p_data p with None => true | _ => false end
      || (first =? 2) && match nx with DPrev => true | _ => false end)
  then (10, p, area, size)
  else
    let '(there, p) := if first =? 0 then (false, p) else still_there d p in
    if there then let '(a, n) := deliver p area in (0, p, a, n)
    else
      match next_cursor d p nx with
      | None => (10, p, area, size)
      | Some c =>
        let p := got p (Some c) in
        match to_record p (c_ent c) with
        | (None, p) => (23, p, area, size)
        | (Some p, _) =>
          let p := save_pos d p (c_ent c) in
          let '(a, n) := deliver p area in (0, p, a, n)
        end
      end.

(** ** WRITE: fileio.c 3164-3392 *)

(** get_dupno, 3165-3193. *)
Fixpoint last_dup (k : list Z) (n : Z) (l : list ent) : Z :=
  match l with
  | [] => n
  | e :: r => if beq (e_key e) k then last_dup k (e_dup e) r else n
  end.
Definition get_dupno (k : list Z) (l : db) : Z :=
  match db_set_range k l with
  | Some (pre, e, post) => last_dup k 0 (e :: post) + 1
  | None => 1
  end.

(** check_alt_keys, 3195-3218: is the record refused, the key and data left in
    p->key and p->data. *)
Fixpoint check_alt (rewrite : bool) (prim area : list Z) (ks : list kspec) (dbs : list db) (p : isam)
  : bool * isam :=
  match ks, dbs with
  | s :: ks', l :: dbs' =>
    if k_dup s then check_alt rewrite prim area ks' dbs' p
    else
      let p := set_pkey (slice s area) p in
      match db_set (slice s area) l with
      | Some c =>
        let p := set_pdata (Some (snd (c_ent c))) p in
        if rewrite then
          if negb (beq (e_prim (c_ent c)) prim) then (true, p) else check_alt rewrite prim area ks' dbs' p
        else (true, p)
      | None => check_alt rewrite prim area ks' dbs' p
      end
  | _, _ => (false, p)
  end.

(** Secondary keys, 3273-3313: [upds] tells which are to be written.  On a
    failing put the keys behind it are not written. *)
Fixpoint write_secs (prim area : list Z) (ks : list kspec) (dbs : list db) (upds : list bool)
  : bool * list db :=
  match ks, dbs, upds with
  | s :: ks', l :: dbs', u :: upds' =>
    if negb u then
      let '(b, r) := write_secs prim area ks' dbs' upds' in (b, l :: r)
    else
      let k := slice s area in
      if k_dup s then
        let '(b, r) := write_secs prim area ks' dbs' upds' in
        (b, db_insert (k, (prim, get_dupno k l)) l :: r)
      else
        match db_set k l with
        | Some _ => (false, l :: dbs')
        | None => let '(b, r) := write_secs prim area ks' dbs' upds' in
                  (b, db_insert (k, (prim, 0)) l :: r)
        end
  | _, _, _ => (true, dbs)
  end.

(** indexed_write_internal, 3221-3337; p->key is set by the caller if there is
    only one key. *)
Definition write_internal (d : fdesc) (p : isam) (area : list Z) (size : nat) (rewrite : bool) (upds : list bool)
  : Z * isam :=
  let prim := slice (prime d) area in
  let alts := tl (d_keys d) in
  let '(refused, p) :=
    if (1 <? length (d_keys d))%nat && negb rewrite then
      let '(b, p) := check_alt false prim area alts (tl (p_dbs p)) p in
      (b, if b then p else set_pkey prim p)
    else (false, p) in
  if refused then (22, p)
  else
    match db_set (p_key p) (the_db p 0) with
    | Some c => (22, set_pdata (Some (snd (c_ent c))) p)
    | None =>
      let rec := firstn size area in
      let l0 := db_insert (p_key p, (rec, 0)) (the_db p 0) in
      let '(ok, secs) := write_secs prim area alts (tl (p_dbs p)) upds in
      let p := set_pdata (Some (prim, 0)) (set_dbs (l0 :: secs) p) in
      (if ok then 0 else 22, p)
    end.

(** indexed_write, 3371-3391. *)
Definition indexed_write (d : fdesc) (p : isam) (area : list Z) (size : nat) : Z * isam :=
  let prim := slice (prime d) area in
  let p := set_pkey prim p in
  let low := match p_last p, d_access d with
             | Some k, AccSequential => match bcmp k prim with Gt => true | _ => false end
             | _, _ => false
             end in
  if low then (21, p)
  else write_internal d (set_last (Some prim) p) area size false (map (fun _ => true) (tl (d_keys d))).

(** ** DELETE and REWRITE: fileio.c 3394-3697 *)

(** Deleting the entries of one record among the duplicates, 3478-3500. *)
Fixpoint sweep (k prim : list Z) (l : list ent) : list ent :=
  match l with
  | [] => []
  | e :: r => if beq (e_key e) k then
                if beq (e_prim e) prim then sweep k prim r else e :: sweep k prim r
              else l
  end.
Definition del_dup (k prim : list Z) (l : db) : db :=
  match db_set_range k l with
  | Some (pre, e, post) => rev pre ++ sweep k prim (e :: post)
  | None => l
  end.

(** Secondary keys of the record [old], 3461-3506; the booleans are
    rewrite_sec_key. *)
Fixpoint del_secs (rewrite : bool) (prim old area : list Z) (ks : list kspec) (dbs : list db)
  : list bool * list db :=
  match ks, dbs with
  | s :: ks', l :: dbs' =>
    let '(us, r) := del_secs rewrite prim old area ks' dbs' in
    let k := slice s old in
    if rewrite && beq k (slice s area) then (false :: us, l :: r)
    else (true :: us, (if k_dup s then del_dup k prim l else db_del k l) :: r)
  | _, _ => ([], dbs)
  end.

(** indexed_delete_internal, 3395-3521.  In sequential access the result of the
    search is not tested: with p->key of a record that is not there, c_del fails
    without effect; the alternate keys would be taken from stale memory. *)
Definition delete_internal (d : fdesc) (p : isam) (area : list Z) (rewrite : bool)
  : outcome (Z * isam * list bool) :=
  let seq := match d_access d with AccSequential => true | _ => false end in
  let p := if seq then p else set_pkey (slice (prime d) area) p in
  match db_set (p_key p) (the_db p 0) with
  | None =>
    if negb seq then Ok (23, p, [])
    else if (1 <? length (d_keys d))%nat then UB
    else Ok (0, p, [])
  | Some c =>
    let old := fst (snd (c_ent c)) in
    let '(us, secs) := del_secs rewrite (p_key p) old area (tl (d_keys d)) (tl (p_dbs p)) in
    Ok (0, set_pdata (Some (old, 0)) (set_dbs (c_del c :: secs) p), us)
  end.

(** indexed_delete, 3527-3562. *)
Definition indexed_delete (d : fdesc) (p : isam) (area : list Z) : outcome (Z * isam) :=
  do r <- delete_internal d p area false; let '(st, p, _) := r in Ok (st, p).

(** indexed_rewrite, 3646-3697. *)
Definition indexed_rewrite (d : fdesc) (p : isam) (area : list Z) (size : nat) : outcome (Z * isam) :=
  let prim := slice (prime d) area in
  let '(refused, p) := check_alt true prim area (tl (d_keys d)) (tl (p_dbs p)) p in
  if refused then Ok (22, p)
  else
    do r <- delete_internal d p area true;
    let '(st, p, us) := r in
    if st =? 0 then
      if (length area <? size)%nat then UB
      else Ok (write_internal d (set_pkey prim p) area size true us)
    else Ok (st, p).

(** ** The statements: fileio.c 3849-4553 (as in FileIO.v) *)
Record ixf := mkIx {
  x_desc : fdesc; x_area : list Z; x_size : nat; x_dep : option item;
  x_open : open_mode; x_ne : bool; x_eof : bool; x_bof : bool; x_first : Z; x_done : bool;
  x_disk : option (list db);        (* the databases of the closed file *)
  x_isam : option isam;             (* f->file *)
  x_status : Z }.

Definition xset_area a n f := mkIx (x_desc f) a n (x_dep f) (x_open f) (x_ne f) (x_eof f) (x_bof f) (x_first f) (x_done f) (x_disk f) (x_isam f) (x_status f).
Definition xset_dep v f := mkIx (x_desc f) (x_area f) (x_size f) v (x_open f) (x_ne f) (x_eof f) (x_bof f) (x_first f) (x_done f) (x_disk f) (x_isam f) (x_status f).
Definition xset_open v f := mkIx (x_desc f) (x_area f) (x_size f) (x_dep f) v (x_ne f) (x_eof f) (x_bof f) (x_first f) (x_done f) (x_disk f) (x_isam f) (x_status f).
Definition xset_flags a b c f := mkIx (x_desc f) (x_area f) (x_size f) (x_dep f) (x_open f) a b c (x_first f) (x_done f) (x_disk f) (x_isam f) (x_status f).
Definition xset_first v f := mkIx (x_desc f) (x_area f) (x_size f) (x_dep f) (x_open f) (x_ne f) (x_eof f) (x_bof f) v (x_done f) (x_disk f) (x_isam f) (x_status f).
Definition xset_done v f := mkIx (x_desc f) (x_area f) (x_size f) (x_dep f) (x_open f) (x_ne f) (x_eof f) (x_bof f) (x_first f) v (x_disk f) (x_isam f) (x_status f).
Definition xset_disk v f := mkIx (x_desc f) (x_area f) (x_size f) (x_dep f) (x_open f) (x_ne f) (x_eof f) (x_bof f) (x_first f) (x_done f) v (x_isam f) (x_status f).
Definition xset_isam v f := mkIx (x_desc f) (x_area f) (x_size f) (x_dep f) (x_open f) (x_ne f) (x_eof f) (x_bof f) (x_first f) (x_done f) (x_disk f) v (x_status f).
Definition xret st f := Ok (mkIx (x_desc f) (x_area f) (x_size f) (x_dep f) (x_open f) (x_ne f) (x_eof f) (x_bof f) (x_first f) (x_done f) (x_disk f) (x_isam f) st).

Definition with_isam {A} (f : ixf) (k : isam -> outcome A) : outcome A :=
  match x_isam f with Some p => k p | None => UB end.

(** cob_ex_open, 3849-4111, with indexed_open, 1964-2104: OUTPUT removes the
    databases; DB_CREATE creates them for OUTPUT, I-O and EXTEND; INPUT of a
    missing file gives ENOENT. *)
Definition x_ex_open (c : iocfg) (f : ixf) (mode : open_mode) : outcome ixf :=
  let f := xset_done false f in
  match x_open f with
  | Locked => xret 38 f
  | Closed =>
    let f := xset_first 2 (xset_flags false false false f) in
    let missing := match x_disk f with None => true | Some _ => false end in
    let may_create := match mode with Output => true | InOut => io_creates c | Extend => io_ext_creates c | _ => false end in
    if missing && negb may_create && negb (d_optional (x_desc f)) then xret 35 f
    else
      let empty := map (fun _ => []) (d_keys (x_desc f)) in
      let dbs := match mode, x_disk f with
                 | Output, _ => Some empty
                 | _, Some l => Some l
                 | (InOut | Extend), None => Some empty
                 | _, None => None
                 end in
      match dbs with
      | Some l =>
        xret (if d_optional (x_desc f) && missing then 5 else 0)
             (xset_isam (Some (indexed_open (x_desc f) (x_area f) l)) (xset_disk (Some l) (xset_open mode f)))
      | None =>
        if d_optional (x_desc f) then xret 5 (xset_flags true true true (xset_open mode f)) else xret 35 f
      end
  | _ => xret 41 f
  end.

(** cob_ex_close 4180-4222, indexed_close 2175-2214. *)
Definition x_ex_close (f : ixf) (o : close_opt) : outcome ixf :=
  let f := xset_done false f in
  match x_open f with
  | Closed => xret 42 f
  | _ =>
    let m := match o with CloseLock => Locked | _ => Closed end in
    if x_ne f then xret 0 (xset_open m f)
    else with_isam f (fun p => xret 0 (xset_open m (xset_isam None (xset_disk (Some (p_dbs p)) f))))
  end.

(** cob_ex_start 4258-4285; the key is the part of the record area at [off] of
    length [len]. *)
Definition x_ex_start (f : ixf) (c : cond) (off len : nat) : outcome ixf :=
  let f := xset_first 0 (xset_done false f) in
  if x_ne f then xret 23 f else
  let denied := match x_open f with Closed | Output | Extend => true | _ => false end in
  if denied || match d_access (x_desc f) with AccRandom => true | _ => false end then xret 47 f
  else with_isam f (fun p =>
    do r <- start_internal (x_desc f) p c off (firstn len (skipn off (x_area f)));
    let '(st, p) := r in
    let f := xset_isam (Some p) f in
    xret st (if st =? 0 then xset_first 1 (xset_flags (x_ne f) false false f) else f)).

(** cob_ex_read 4303-4371. *)
Inductive rkind := RKey (off len : nat) | RNext | RPrev.
Definition x_ex_read (f : ixf) (k : rkind) : outcome ixf :=
  let f := xset_done false f in
  let prev := match k with RPrev => true | _ => false end in
  let keyed := match k with RKey _ _ => true | _ => false end in
  if x_ne f then (if x_first f =? 0 then xret 23 f else xret 10 (xset_first 0 f))
  else if negb keyed && (if prev then x_bof f else x_eof f) then xret 46 f
  else
    match x_open f with
    | Closed | Output | Extend => xret 47 f
    | _ => with_isam f (fun p =>
      do r <- match k with
              | RKey off len =>
                do r <- start_internal (x_desc f) p EQ off (firstn len (skipn off (x_area f)));
                let '(st, p) := r in
                if st =? 0 then let '(a, n) := deliver p (x_area f) in Ok (0, p, a, n)
                else Ok (st, p, x_area f, x_size f)
              | _ => Ok (indexed_read_next (x_desc f) p (x_area f) (x_size f) prev (x_eof f) (x_bof f) (x_first f))
              end;
      let '(st, p, a, n) := r in
      let f := xset_area a n (xset_isam (Some p) f) in
      if st =? 0 then
        let f := xset_flags (x_ne f) false false (xset_done true (xset_first 0 f)) in
        xret 0 (match x_dep f with
                | None => f
                | Some v => xset_dep (Some (item_set v (Z.of_nat n))) f
                end)
      else if st =? 10 then
        xret 10 (if prev then xset_flags (x_ne f) (x_eof f) true f else xset_flags (x_ne f) true (x_bof f) f)
      else xret st f)
    end.

(** cob_ex_write 4399-4448. *)
Definition x_ex_write (f : ixf) (rsize : nat) : outcome ixf :=
  let f := xset_done false f in
  let denied :=
    match d_access (x_desc f), x_open f with
    | AccSequential, (Closed | Input | InOut) => true
    | AccSequential, _ => false
    | _, (Closed | Input | Extend) => true
    | _, _ => false
    end in
  if denied then xret 48 f else
  let tmpsize := x_size f in
  let n := match x_dep f with Some v => Z.to_nat (i_val v) | None => rsize end in
  if (n <? d_min (x_desc f))%nat || (d_max (x_desc f) <? n)%nat then xret 44 (xset_area (x_area f) n f)
  else with_isam f (fun p =>
    let '(st, p) := indexed_write (x_desc f) p (x_area f) n in
    xret st (xset_area (x_area f) tmpsize (xset_isam (Some p) f))).

(** cob_ex_rewrite 4469-4516: the size is that of the record area, as left by
    the last READ or WRITE. *)
Definition x_ex_rewrite (f : ixf) : outcome ixf :=
  let read_done := x_done f in
  let f := xset_done false f in
  match x_open f with
  | InOut =>
    if match d_access (x_desc f) with AccSequential => negb read_done | _ => false end then xret 43 f
    else with_isam f (fun p =>
      do r <- indexed_rewrite (x_desc f) p (x_area f) (x_size f);
      let '(st, p) := r in xret st (xset_isam (Some p) f))
  | _ => xret 49 f
  end.

(** cob_ex_delete 4528-4553. *)
Definition x_ex_delete (f : ixf) : outcome ixf :=
  let read_done := x_done f in
  let f := xset_done false f in
  match x_open f with
  | InOut =>
    if match d_access (x_desc f) with AccSequential => negb read_done | _ => false end then xret 43 f
    else with_isam f (fun p =>
      do r <- indexed_delete (x_desc f) p (x_area f);
      let '(st, p) := r in xret st (xset_isam (Some p) f))
  | _ => xret 49 f
  end.

(** Histories.  [ISet] is a MOVE to the record area, [IDep] one to the
    DEPENDING ON item. *)
Inductive iop :=
| IOpen (m : open_mode) | IClose (o : close_opt) | IStart (c : cond) (off len : nat)
| IRead (k : rkind) | IWrite (rsize : nat) | IRewrite | IDelete
| ISet (d : list Z) | IDep (n : Z).
Definition run_iop (c : iocfg) (f : ixf) (o : iop) : outcome ixf :=
  match o with
  | IOpen m => x_ex_open c f m
  | IClose o => x_ex_close f o
  | IStart cd off len => x_ex_start f cd off len
  | IRead k => x_ex_read f k
  | IWrite n => x_ex_write f n
  | IRewrite => x_ex_rewrite f
  | IDelete => x_ex_delete f
  | ISet d => Ok (xset_area d (x_size f) f)
  | IDep n => Ok (match x_dep f with Some k => xset_dep (Some (item_set k n)) f | None => f end)
  end.
Fixpoint run_iops (c : iocfg) (f : ixf) (os : list iop) : outcome ixf :=
  match os with
  | [] => Ok f
  | o :: r => do f' <- run_iop c f o; run_iops c f' r
  end.
