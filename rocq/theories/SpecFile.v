(** What a program may rely on: files as seen from COBOL, with no bytes,
    streams or flags of the runtime in sight. *)
From Verif Require Import Base.
From Verif Require Import FileIO.

(** A record in a file: its length and the contents of the record area. *)
Definition frec := (nat * list Z)%type.

(** ** RELATIVE files: a finite map from record numbers to records *)
Definition rmap := Z -> option frec.
Definition empty_map : rmap := fun _ => None.
Definition put (m : rmap) (k : Z) (r : frec) : rmap := fun j => if j =? k then Some r else m j.
Definition remove (m : rmap) (k : Z) : rmap := fun j => if j =? k then None else m j.

(** State of a program using one relative file by record number. *)
Record rstate := mkR {
  r_open : open_mode;       (* how the file is open, or Closed *)
  r_exists : bool;          (* the file exists *)
  r_map : rmap;             (* its records *)
  r_key : Z;                (* RELATIVE KEY *)
  r_area : list Z;          (* the record area *)
  r_len : option Z;         (* DEPENDING ON item, if any *)
  r_status : Z }.           (* FILE STATUS of the last operation *)

Definition readable (m : open_mode) : bool := match m with Input | InOut => true | _ => false end.
Definition writable (m : open_mode) : bool := match m with Output | InOut => true | _ => false end.

(** One operation on a file with records of [lo] to [hi] bytes; [creates]:
    OPEN I-O creates a missing file.  The rules are those of the standard,
    except the two marked ones. *)
Inductive rel_step (lo hi : nat) (creates : bool) : rstate -> op -> rstate -> Prop :=
| rs_key : forall o e m k a l s n, 0 <= n ->
    rel_step lo hi creates (mkR o e m k a l s) (OKey n) (mkR o e m n a l s)
| rs_set : forall o e m k a l s d,
    rel_step lo hi creates (mkR o e m k a l s) (OSet d) (mkR o e m k d l s)
| rs_dep : forall o e m k a l s n, 0 <= n ->
    rel_step lo hi creates (mkR o e m k a l s) (ODep n) (mkR o e m k a (match l with Some _ => Some n | None => None end) s)
(* OPEN *)
| rs_open_output : forall e m k a l s,
    rel_step lo hi creates (mkR Closed e m k a l s) (OOpen Output) (mkR Output true empty_map k a l 0)
| rs_open : forall m k a l s md, md = Input \/ md = InOut ->
    rel_step lo hi creates (mkR Closed true m k a l s) (OOpen md) (mkR md true m k a l 0)
| rs_open_missing : forall m k a l s md, md = Input \/ (md = InOut /\ creates = false) ->
    rel_step lo hi creates (mkR Closed false m k a l s) (OOpen md) (mkR Closed false m k a l 35)
| rs_open_create : forall m k a l s, creates = true ->
    rel_step lo hi creates (mkR Closed false m k a l s) (OOpen InOut) (mkR InOut true empty_map k a l 0)
| rs_open_again : forall o e m k a l s md, o <> Closed ->
    rel_step lo hi creates (mkR o e m k a l s) (OOpen md) (mkR o e m k a l 41)
(* CLOSE *)
| rs_close : forall o e m k a l s, o <> Closed ->
    rel_step lo hi creates (mkR o e m k a l s) (OClose CloseNormal) (mkR Closed e m k a l 0)
| rs_close_again : forall e m k a l s,
    rel_step lo hi creates (mkR Closed e m k a l s) (OClose CloseNormal) (mkR Closed e m k a l 42)
(* WRITE *)
| rs_write_denied : forall o e m k a l s n w, writable o = false ->
    rel_step lo hi creates (mkR o e m k a l s) (OWrite n w) (mkR o e m k a l 48)
| rs_write_size : forall o e m k a l s n w, writable o = true ->
    let len := match l with Some v => v | None => Z.of_nat n end in
    ~ (Z.of_nat lo <= len <= Z.of_nat hi) ->
    rel_step lo hi creates (mkR o e m k a l s) (OWrite n w) (mkR o e m k a l 44)
| rs_write_key : forall o e m k a l s n w, writable o = true ->
    let len := match l with Some v => v | None => Z.of_nat n end in
    Z.of_nat lo <= len <= Z.of_nat hi -> k < 1 ->
    rel_step lo hi creates (mkR o e m k a l s) (OWrite n w) (mkR o e m k a l 21)
| rs_write_dup : forall o e m k a l s n w, writable o = true ->
    let len := match l with Some v => v | None => Z.of_nat n end in
    Z.of_nat lo <= len <= Z.of_nat hi -> 1 <= k -> m k <> None ->
    rel_step lo hi creates (mkR o e m k a l s) (OWrite n w) (mkR o e m k a l 22)
| rs_write : forall o e m k a l s n w, writable o = true ->
    let len := match l with Some v => v | None => Z.of_nat n end in
    Z.of_nat lo <= len <= Z.of_nat hi -> 1 <= k -> m k = None ->
    rel_step lo hi creates (mkR o e m k a l s) (OWrite n w) (mkR o e (put m k (Z.to_nat len, a)) k a l 0)
(* READ by record number *)
| rs_read_denied : forall o e m k a l s, readable o = false ->
    rel_step lo hi creates (mkR o e m k a l s) ORead (mkR o e m k a l 47)
| rs_read_absent : forall o e m k a l s, readable o = true -> m k = None ->
    rel_step lo hi creates (mkR o e m k a l s) ORead (mkR o e m k a l 23)
| rs_read : forall o e m k a l s n d, readable o = true -> m k = Some (n, d) ->
    rel_step lo hi creates (mkR o e m k a l s) ORead
      (mkR o e m k d (match l with Some _ => Some (Z.of_nat n) | None => None end) 0)
(* REWRITE: the number of bytes of the record stays that of the record
   replaced (deviation for variable records, C30_rewrite_length_refuted) *)
| rs_rewrite_denied : forall o e m k a l s n, o <> InOut ->
    rel_step lo hi creates (mkR o e m k a l s) (ORewrite n) (mkR o e m k a l 49)
| rs_rewrite : forall e m k a l s n n0 d0, m k = Some (n0, d0) ->
    rel_step lo hi creates (mkR InOut e m k a l s) (ORewrite n) (mkR InOut e (put m k (n0, a)) k a l 0)
(* deviation: REWRITE of an absent record may report success (nothing is
   stored) *)
| rs_rewrite_absent : forall e m k a l s n st, m k = None -> st = 23 \/ st = 0 ->
    rel_step lo hi creates (mkR InOut e m k a l s) (ORewrite n) (mkR InOut e m k a l st)
(* DELETE *)
| rs_delete_denied : forall o e m k a l s, o <> InOut ->
    rel_step lo hi creates (mkR o e m k a l s) ODelete (mkR o e m k a l 49)
| rs_delete : forall e m k a l s r, m k = Some r ->
    rel_step lo hi creates (mkR InOut e m k a l s) ODelete (mkR InOut e (remove m k) k a l 0)
(* deviation: DELETE of an absent record may report success *)
| rs_delete_absent : forall e m k a l s st, m k = None -> st = 23 \/ st = 0 ->
    rel_step lo hi creates (mkR InOut e m k a l s) ODelete (mkR InOut e m k a l st).

Inductive rel_steps (lo hi : nat) (creates : bool) : rstate -> list op -> rstate -> Prop :=
| rss_nil : forall s, rel_steps lo hi creates s [] s
| rss_cons : forall s o s' os s'', rel_step lo hi creates s o s' -> rel_steps lo hi creates s' os s'' ->
    rel_steps lo hi creates s (o :: os) s''.

(** ** ... and with READ NEXT among them (DYNAMIC access)
    Where READ NEXT goes on: at the record number [p_next]; [p_end]: READ NEXT
    has met the end; [p_fresh]: no READ has succeeded since OPEN. *)
Record place := mkPl { p_next : Z; p_end : bool; p_fresh : bool }.
(** How the other operations move it ([r], [r']: before and after).  Deviation
    from the standard: not only OPEN and READ do, but also WRITE, REWRITE and
    DELETE. *)
Definition moved (r : rstate) (o : op) (r' : rstate) (p : place) : place :=
  let after := mkPl (r_key r + 1) (p_end p) (p_fresh p) in
  let at_it := if 1 <=? r_key r then mkPl (r_key r) (p_end p) (p_fresh p) else p in
  match o with
  | OOpen _ => match r_open r with Closed => mkPl 1 false true | _ => p end
  | ORead => if r_status r' =? 0 then mkPl (r_key r + 1) false false else if r_status r' =? 23 then at_it else p
  | OWrite _ _ => if r_status r' =? 0 then after else if r_status r' =? 22 then at_it else p
  | ORewrite _ | ODelete => if r_status r' =? 0 then after else if r_status r' =? 23 then at_it else p
  | _ => p
  end.
(** READ NEXT: the record with the least number not below [p_next].  Deviations:
    RELATIVE KEY becomes 1 if the record is the first one considered since OPEN
    (wherever that is), and changes also at the end of the file. *)
Inductive dyn_step (lo hi : nat) (creates : bool) : rstate * place -> op -> rstate * place -> Prop :=
| dy_op : forall r p o r', rel_step lo hi creates r o r' -> dyn_step lo hi creates (r, p) o (r', moved r o r' p)
| dy_past_end : forall o e m k a l s p, p_end p = true ->
    dyn_step lo hi creates (mkR o e m k a l s, p) OReadNext (mkR o e m k a l 46, p)
| dy_denied : forall o e m k a l s p, p_end p = false -> readable o = false ->
    dyn_step lo hi creates (mkR o e m k a l s, p) OReadNext (mkR o e m k a l 47, p)
| dy_next : forall o e m k a l s p j n d, p_end p = false -> readable o = true ->
    p_next p <= j -> m j = Some (n, d) -> (forall i, p_next p <= i < j -> m i = None) ->
    dyn_step lo hi creates (mkR o e m k a l s, p) OReadNext
      (mkR o e m (if p_fresh p && (j =? p_next p) then 1 else j) d (match l with Some _ => Some (Z.of_nat n) | None => None end) 0,
       mkPl (j + 1) false false)
| dy_end : forall o e m k a l s p k', p_end p = false -> readable o = true ->
    (forall i, p_next p <= i -> m i = None) -> k' = k \/ k' = 1 \/ p_next p <= k' ->
    dyn_step lo hi creates (mkR o e m k a l s, p) OReadNext (mkR o e m k' a l 10, mkPl (p_next p) true (p_fresh p)).
Inductive dyn_steps (lo hi : nat) (creates : bool) : rstate * place -> list op -> rstate * place -> Prop :=
| dys_nil : forall s, dyn_steps lo hi creates s [] s
| dys_cons : forall s o s' os s'', dyn_step lo hi creates s o s' -> dyn_steps lo hi creates s' os s'' ->
    dyn_steps lo hi creates s (o :: os) s''.

(** Operations of such a program: numbers must fit their items, the record
    area keeps its size. *)
Definition rel_op (hi : nat) (kdigits ldigits : Z) (o : op) : Prop :=
  match o with
  | OOpen md => md = Input \/ md = Output \/ md = InOut
  | OClose c => c = CloseNormal
  | OKey n => 0 <= n < 10 ^ kdigits
  | ODep n => 0 <= n < 10 ^ ldigits
  | OSet d => length d = hi
  | ORead | ODelete | OWrite _ _ | ORewrite _ => True
  | OStart _ | OReadNext => False
  end.
Definition dyn_op (hi : nat) (kdigits ldigits : Z) (o : op) : Prop := o = OReadNext \/ rel_op hi kdigits ldigits o.

(** ** Reading a RELATIVE file sequentially *)

(** The records of a map in ascending order of their numbers. *)
Definition records_of (m : rmap) (recs : list (Z * frec)) : Prop :=
  StronglySorted (fun a b => fst a < fst b) recs /\ forall k r, In (k, r) recs <-> m k = Some r.

(** A program that declares the file (record area of [hi] bytes) and has not
    opened it yet; [disk]: what it finds. *)
Record declared (hi : nat) (disk : option (list Z)) (f : cfile) : Prop := mkDecl {
  d_org : f_org f = OrgRelative; d_open : f_open f = Closed; d_ne : f_nonexistent f = false;
  d_optional : f_optional f = false; d_max : f_max f = hi; d_area : length (f_data f) = hi; d_disk : f_disk f = disk }.

(** Its items can hold the numbers that occur. *)
Definition dep_fits (hi : nat) (d : option item) : Prop := match d with None => True | Some i => Z.of_nat hi < 10 ^ i_digits i end.
Definition key_fits (kd : Z) (k : option item) : Prop := match k with None => True | Some i => kd <= i_digits i end.

(** What READ made of the items of the program. *)
Definition got (f f' : cfile) (k : Z) (r : frec) : Prop :=
  f_status f' = 0 /\ f_data f' = snd r /\
  (forall i, f_key f = Some i -> f_key f' = Some (mkItem k (i_digits i))) /\
  (forall i, f_dep f = Some i -> f_dep f' = Some (mkItem (Z.of_nat (fst r)) (i_digits i))).

(** Operations of a program that only reads (the record area keeps its size). *)
Definition browse_op (hi : nat) (o : op) : Prop :=
  match o with
  | OStart _ | ORead | OReadNext | OKey _ | ODep _ => True
  | OSet d => length d = hi
  | _ => False
  end.

(** START: which numbers satisfy the relation, and which one is wanted. *)
Definition sat (c : cond) (k n : Z) : Prop :=
  match c with EQ => k = n | LT => k < n | LE => k <= n | GT => n < k | GE => n <= k end.
Definition nearest (c : cond) (m : rmap) (n k : Z) : Prop :=
  sat c k n /\ m k <> None /\
  forall j, sat c j n -> m j <> None -> match c with LT | LE => j <= k | _ => k <= j end.
(** Where START works as the standard says: START < and <= give up beyond the
    end of the file, START >= with number 0 fails. *)
Definition served (c : cond) (m : rmap) (n : Z) : Prop :=
  match c with
  | EQ | GT => True
  | GE => 1 <= n
  | LE => exists j, n <= j /\ m j <> None
  | LT => exists j, n - 1 <= j /\ m j <> None
  end.
