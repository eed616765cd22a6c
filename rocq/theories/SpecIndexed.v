(** What INDEXED files promise (C69). *)
From Coq Require Import Permutation.
From Verif Require Import Base FileIO Indexed.
Local Open Scope Z_scope.

Definition record := list Z.

(** The content of an indexed file: for every key of the file (the RECORD KEY
    first) the list of its records, in the order in which they are read by that
    key. *)

(** A new record stands behind all records whose key is not greater. *)
Fixpoint insert_behind (s : kspec) (r : record) (l : list record) : list record :=
  match l with
  | [] => [r]
  | x :: t => if blt (slice s r) (slice s x) then r :: l else x :: insert_behind s r t
  end.
(** Without the record of this RECORD KEY. *)
Definition without (s0 : kspec) (k : list Z) (l : list record) : list record :=
  filter (fun x => negb (beq (slice s0 x) k)) l.
(** A rewritten record keeps its place in the order of the keys that did not
    change, and is inserted anew for those that did. *)
Definition put_back (s0 s : kspec) (old r : record) (l : list record) : list record :=
  if beq (slice s old) (slice s r)
  then map (fun x => if beq (slice s0 x) (slice s0 r) then r else x) l
  else insert_behind s r (without s0 (slice s0 r) l).

Fixpoint map2 {A B C} (g : A -> B -> C) (l : list A) (m : list B) : list C :=
  match l, m with
  | x :: l', y :: m' => g x y :: map2 g l' m'
  | _, _ => []
  end.
Definition inserted (d : fdesc) (r : record) (v : list (list record)) : list (list record) :=
  map2 (fun s l => insert_behind s r l) (d_keys d) v.
Definition deleted (d : fdesc) (k : list Z) (v : list (list record)) : list (list record) :=
  map (without (prime d) k) v.
Definition replaced (d : fdesc) (old r : record) (v : list (list record)) : list (list record) :=
  map2 (fun s l => put_back (prime d) s old r l) (d_keys d) v.

(** Reading the content off the databases: the database of the RECORD KEY holds
    the records, those of the alternate keys the RECORD KEYs. *)
Definition rec_at (l0 : db) (k : list Z) : option record :=
  match db_set k l0 with Some c => Some (e_prim (c_ent c)) | None => None end.
Definition deref (l0 : db) (l : db) : list record :=
  map (fun e => match rec_at l0 (e_prim e) with Some r => r | None => [] end) l.
Definition views (dbs : list db) : list (list record) :=
  match dbs with
  | [] => []
  | l0 :: alts => map e_prim l0 :: map (deref l0) alts
  end.
Definition content (f : ixf) : list (list record) :=
  match x_isam f with
  | Some p => views (p_dbs p)
  | None => match x_disk f with Some l => views l | None => [] end
  end.
(** The records in the order of key number [i]. *)
Definition by_key (f : ixf) (i : nat) : list record := nth i (content f) [].
(** The key of reference of READ NEXT and READ PREVIOUS. *)
Definition reference (f : ixf) : nat := match x_isam f with Some p => p_ki p | None => 0%nat end.
(** The record in the record area. *)
Definition delivered (f : ixf) : record := firstn (x_size f) (x_area f).

(** The orders of a coherent content. *)
Fixpoint in_order (s : kspec) (l : list record) : Prop :=
  match l with
  | [] => True
  | x :: t => Forall (fun y => if k_dup s then blt (slice s y) (slice s x) = false
                               else blt (slice s x) (slice s y) = true) t
              /\ in_order s t
  end.

(** The programs: descriptions of files that the compiler accepts. *)
Definition desc_ok (d : fdesc) : Prop :=
  d_keys d <> [] /\ k_dup (prime d) = false /\
  Forall (fun s => (0 < k_len s)%nat /\ (k_off s + k_len s <= d_min d)%nat) (d_keys d) /\
  NoDup (map k_off (d_keys d)) /\ (d_min d <= d_max d)%nat.

(** The file at the start of the program: it does not exist yet. *)
Definition new_file (d : fdesc) (area : list Z) (dep : option item) : ixf :=
  mkIx d area (d_max d) dep Closed false false false 0 false None None 0.

(** In sequential access, the RECORD KEY of the record that the last READ has
    delivered, if no other statement came in between. *)
Definition last_read (f : ixf) : option (list Z) :=
  if x_done f then match x_isam f with Some p => Some (p_key p) | None => None end else None.

(** Statements: the key of START and READ is one of the file (START: or a
    leading part of one, except with LE); a file closed WITH LOCK is only opened
    again; REWRITE in sequential access does not change the RECORD KEY of the
    record read, and the file has no alternate key without DUPLICATES. *)
Definition allowed (f : ixf) (o : iop) : Prop :=
  match o with
  | IOpen m => match m with Closed | Locked => False | _ => True end
  | ISet a => length a = d_max (x_desc f)
  | IDep _ => True
  | _ => x_open f <> Locked /\
    match o with
    | IStart c off len => exists i s, nth_error (d_keys (x_desc f)) i = Some s /\ off = k_off s /\
        (len <= k_len s)%nat /\ (c = LE -> len = k_len s)
    | IRead (RKey off len) => exists i s, nth_error (d_keys (x_desc f)) i = Some s /\ off = k_off s /\ len = k_len s
    | IRewrite => d_access (x_desc f) <> AccSequential \/
        (Forall (fun s => k_dup s = true) (tl (d_keys (x_desc f))) /\
         forall k, last_read f = Some k -> slice (prime (x_desc f)) (x_area f) = k)
    | _ => True
    end
  end.

(** The states a program can bring the file into, as long as no WRITE has been
    refused with 44. *)
Inductive reach (c : iocfg) (d : fdesc) : ixf -> Prop :=
| reach_new : forall area dep, length area = d_max d -> reach c d (new_file d area dep)
| reach_step : forall f o f', reach c d f -> allowed f o -> run_iop c f o = Ok f' ->
    x_status f' <> 44 -> reach c d f'.

(** START: the condition is tested on the leading part of the key that the
    program names; forwards the first, backwards the last such record. *)
Definition start_rel (c : cond) (k kv : list Z) : bool :=
  let x := firstn (length kv) k in
  match c with
  | EQ => beq x kv
  | GT => blt kv x
  | GE => negb (blt x kv)
  | LT => blt x kv
  | LE => negb (blt kv x)
  end.
Definition start_pick (c : cond) (s : kspec) (kv : list Z) (l : list record) : option record :=
  find (fun r => start_rel c (slice s r) kv) (match c with LT | LE => rev l | _ => l end).

(** Two records may not have the same value of a key without DUPLICATES. *)
Definition clash (d : fdesc) (l : list record) (r : record) : Prop :=
  exists s x, In s (d_keys d) /\ k_dup s = false /\ In x l /\ slice s x = slice s r.
(** REWRITE: with a record other than the one that is replaced. *)
Definition clash_with_other (d : fdesc) (l : list record) (r : record) : Prop :=
  exists s x, In s (tl (d_keys d)) /\ k_dup s = false /\ In x l /\ slice s x = slice s r /\
              slice (prime d) x <> slice (prime d) r.

(** The RECORD KEY of the last WRITE since OPEN, for sequential access. *)
Definition last_key (f : ixf) : option (list Z) := match x_isam f with Some p => p_last p | None => None end.
(** The length of the record to be written. *)
Definition write_size (f : ixf) (rsize : nat) : nat :=
  match x_dep f with Some v => Z.to_nat (i_val v) | None => rsize end.
(** Is WRITE permitted: OUTPUT or EXTEND in sequential access, OUTPUT or I-O
    otherwise. *)
Definition may_write (f : ixf) : Prop :=
  match d_access (x_desc f) with
  | AccSequential => x_open f = Output \/ x_open f = Extend
  | _ => x_open f = Output \/ x_open f = InOut
  end.
Definition may_read (f : ixf) : Prop := x_open f = Input \/ x_open f = InOut.

(** MOVE statements. *)
Definition is_move (o : iop) : Prop := match o with ISet _ | IDep _ => True | _ => False end.
(** Statements that neither read nor position, after each of which the record
    [r] is still in the file. *)
Definition in_between (o : iop) : Prop :=
  match o with IWrite _ | IRewrite | IDelete | ISet _ | IDep _ => True | _ => False end.
Inductive keeps (c : iocfg) (r : record) : ixf -> ixf -> Prop :=
| keeps_refl : forall f, keeps c r f f
| keeps_step : forall f o f' f'', in_between o -> allowed f o -> run_iop c f o = Ok f' -> x_status f' <> 44 ->
    In r (by_key f' 0) -> keeps c r f' f'' -> keeps c r f f''.

(** What a READ tells the program: the record, or nothing. *)
Definition tells (f f' : ixf) (o : option record) (failure : Z) : Prop :=
  match o with
  | Some r => x_status f' = 0 /\ delivered f' = r /\ x_area f' = r ++ skipn (length r) (x_area f) /\
      x_dep f' = match x_dep f with Some v => Some (item_set v (Z.of_nat (length r))) | None => None end
  | None => x_status f' = failure /\ x_area f' = x_area f
  end.
Inductive moves (c : iocfg) : ixf -> ixf -> Prop :=
| moves_refl : forall f, moves c f f
| moves_step : forall f o f' f'', is_move o -> allowed f o -> run_iop c f o = Ok f' -> moves c f' f'' -> moves c f f''.
