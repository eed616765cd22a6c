(** SEQUENTIAL and LINE SEQUENTIAL files as seen from COBOL: a list of
    records, read and written in order. *)
From Verif Require Import Base.
From Verif Require Import FileIO.

Record qstate := mkQ {
  q_open : open_mode;
  q_file : option (list (list Z));   (* the records; None: no such file *)
  q_next : nat;                      (* index of the next record to be read *)
  q_eof : bool;                      (* the end has been reported *)
  q_done : bool;                     (* the last statement was a successful READ *)
  q_area : list Z;                   (* the record area *)
  q_len : option Z;                  (* DEPENDING ON item, if any *)
  q_status : Z }.

Definition reads (m : open_mode) : bool := match m with Input | InOut => true | _ => false end.
Definition writes (m : open_mode) : bool := match m with Output | Extend => true | _ => false end.
Definition replaced {A} (l : list A) (i : nat) (x : A) : list A := firstn i l ++ x :: skipn (S i) l.

(** Records of [lo] to [hi] bytes.  [keeps r t]: writing the record [r] stores
    [t]; [fetch a t]: the record area after reading [t], when it held [a];
    [creates], [ext_creates]: OPEN I-O, OPEN EXTEND create a missing file. *)
Section Rules.
Variables (lo hi : nat) (creates ext_creates : bool).
Variables (keeps : list Z -> list Z -> Prop) (fetch : list Z -> list Z -> list Z).

Definition wlen (l : option Z) (n : nat) : Z := match l with Some v => v | None => Z.of_nat n end.
Definition set_len (l : option Z) (v : Z) : option Z := match l with Some _ => Some v | None => None end.

Inductive seq_step : qstate -> op -> qstate -> Prop :=
| qs_set : forall o f p e w a l s d,
    seq_step (mkQ o f p e w a l s) (OSet d) (mkQ o f p e w d l s)
| qs_dep : forall o f p e w a l s n,
    seq_step (mkQ o f p e w a l s) (ODep n) (mkQ o f p e w a (set_len l n) s)
(* OPEN *)
| qs_open_output : forall f p e w a l s,
    seq_step (mkQ Closed f p e w a l s) (OOpen Output) (mkQ Output (Some []) 0 false false a l 0)
| qs_open_extend : forall r p e w a l s,
    seq_step (mkQ Closed (Some r) p e w a l s) (OOpen Extend) (mkQ Extend (Some r) 0 false false a l 0)
| qs_open : forall r p e w a l s md, reads md = true ->
    seq_step (mkQ Closed (Some r) p e w a l s) (OOpen md) (mkQ md (Some r) 0 false false a l 0)
| qs_open_create : forall p e w a l s md, (md = InOut /\ creates = true) \/ (md = Extend /\ ext_creates = true) ->
    seq_step (mkQ Closed None p e w a l s) (OOpen md) (mkQ md (Some []) 0 false false a l 0)
| qs_open_missing : forall p e w a l s md, md = Input \/ (md = InOut /\ creates = false) \/ (md = Extend /\ ext_creates = false) ->
    seq_step (mkQ Closed None p e w a l s) (OOpen md) (mkQ Closed None 0 false false a l 35)
| qs_open_again : forall o f p e w a l s md, o <> Closed ->
    seq_step (mkQ o f p e w a l s) (OOpen md) (mkQ o f p e false a l 41)
(* CLOSE *)
| qs_close : forall o f p e w a l s, o <> Closed ->
    seq_step (mkQ o f p e w a l s) (OClose CloseNormal) (mkQ Closed f p e false a l 0)
| qs_close_again : forall f p e w a l s,
    seq_step (mkQ Closed f p e w a l s) (OClose CloseNormal) (mkQ Closed f p e false a l 42)
(* WRITE *)
| qs_write_denied : forall o f p e w a l s n x, writes o = false ->
    seq_step (mkQ o f p e w a l s) (OWrite n x) (mkQ o f p e false a l 48)
| qs_write_size : forall o f p e w a l s n x, writes o = true -> ~ (Z.of_nat lo <= wlen l n <= Z.of_nat hi) ->
    seq_step (mkQ o f p e w a l s) (OWrite n x) (mkQ o f p e false a l 44)
| qs_write : forall o r p e w a l s n x t, writes o = true -> Z.of_nat lo <= wlen l n <= Z.of_nat hi ->
    keeps (firstn (Z.to_nat (wlen l n)) a) t ->
    seq_step (mkQ o (Some r) p e w a l s) (OWrite n x) (mkQ o (Some (r ++ [t])) p e false a l 0)
(* READ *)
(* deviation: once the end has been reported the status is 46 even when the
   file has been closed *)
| qs_read_past : forall o f p w a l s,
    seq_step (mkQ o f p true w a l s) OReadNext (mkQ o f p true false a l 46)
| qs_read_denied : forall o f p w a l s, reads o = false ->
    seq_step (mkQ o f p false w a l s) OReadNext (mkQ o f p false false a l 47)
| qs_read : forall o r p w a l s t, reads o = true -> nth_error r p = Some t ->
    seq_step (mkQ o (Some r) p false w a l s) OReadNext
      (mkQ o (Some r) (S p) false true (fetch a t) (set_len l (Z.of_nat (length t))) 0)
| qs_read_end : forall o r p w a l s, reads o = true -> nth_error r p = None ->
    seq_step (mkQ o (Some r) p false w a l s) OReadNext (mkQ o (Some r) p true false a l 10)
(* REWRITE *)
| qs_rewrite_denied : forall o f p e w a l s n, o <> InOut ->
    seq_step (mkQ o f p e w a l s) (ORewrite n) (mkQ o f p e false a l 49)
| qs_rewrite_unread : forall f p e a l s n,
    seq_step (mkQ InOut f p e false a l s) (ORewrite n) (mkQ InOut f p e false a l 43)
| qs_rewrite_size : forall r p e a l s n t, nth_error r p = Some t -> length t <> n \/ wlen l n <> Z.of_nat (length t) ->
    seq_step (mkQ InOut (Some r) (S p) e true a l s) (ORewrite n) (mkQ InOut (Some r) (S p) e false a l 44)
| qs_rewrite : forall r p e a l s n t, nth_error r p = Some t -> length t = n -> wlen l n = Z.of_nat (length t) ->
    seq_step (mkQ InOut (Some r) (S p) e true a l s) (ORewrite n)
      (mkQ InOut (Some (replaced r p (firstn n a))) (S p) e false a l 0).

Inductive seq_steps : qstate -> list op -> qstate -> Prop :=
| qss_nil : forall s, seq_steps s [] s
| qss_cons : forall s o s' os s'', seq_step s o s' -> seq_steps s' os s'' -> seq_steps s (o :: os) s''.
End Rules.

(** A program that declares the file and has not opened it yet. *)
Record seq_declared (org : organization) (lo hi : nat) (ld : Z) (l : option Z) (disk : option (list Z)) (f : cfile) : Prop := mkSD {
  sd_org : f_org f = org; sd_acc : f_access f = AccSequential; sd_open : f_open f = Closed; sd_ne : f_nonexistent f = false; sd_eof : f_eof f = false;
  sd_done : f_read_done f = false; sd_nl : f_needs_nl f = false;
  sd_optional : f_optional f = false; sd_min : f_min f = lo; sd_max : f_max f = hi; sd_area : length (f_data f) = hi; sd_size : f_size f = hi;
  sd_len : f_dep f = match l with Some v => Some (mkItem v ld) | None => None end; sd_lpos : forall v, l = Some v -> 0 <= v;
  sd_disk : f_disk f = disk }.

(** What the program sees after a history. *)
Definition sees (ld : Z) (f : cfile) (st : qstate) : Prop :=
  f_status f = q_status st /\ f_data f = q_area st /\ f_open f = q_open st /\
  f_dep f = match q_len st with Some v => Some (mkItem v ld) | None => None end.

(** *** SEQUENTIAL: records are kept as they are; reading leaves the rest of the
    record area alone. *)
Definition seq_keeps (r t : list Z) : Prop := t = r.
Definition seq_fetch (a t : list Z) : list Z := t ++ skipn (length t) a.
(** Operations: fixed-length files have no DEPENDING item and write whole
    records. *)
Definition seq_op (lo hi : nat) (ld : Z) (o : op) : Prop :=
  match o with
  | OOpen md => md = Input \/ md = Output \/ md = InOut \/ md = Extend
  | OClose c => c = CloseNormal
  | ODep n => 0 <= n < 10 ^ ld
  | OSet d => length d = hi
  | OWrite n x => x = WNone /\ (lo = hi -> n = hi)
  | OReadNext | ORewrite _ => True
  | _ => False
  end.
(** Largest record of each record prefix format. *)
Definition prefix_max (v : nat) : Z := match v with 0%nat => 65536 | 1%nat => 2 ^ 32 | 2%nat => 2 ^ 64 | _ => 65536 end.

(** *** LINE SEQUENTIAL: trailing spaces are not kept (unless COB_LS_FIXED);
    reading fills the record area with spaces. *)
Definition without_trailing_spaces (r t : list Z) : Prop := (exists k, r = t ++ repeat 32 k) /\ forall u, t <> u ++ [32].
Definition line_keeps (fixed : bool) (r t : list Z) : Prop := if fixed then t = r else without_trailing_spaces r t.
Definition line_fetch (a t : list Z) : list Z := t ++ repeat 32 (length a - length t).
(** Contents that can be written: with COB_LS_NULLS anything, otherwise no
    line ends. *)
Definition line_text (nulls : bool) (d : list Z) : Prop := nulls = true \/ (~ In 10 d /\ ~ In 13 d).
Definition line_op (nulls : bool) (hi : nat) (ld : Z) (o : op) : Prop :=
  match o with
  | OOpen md => md = Input \/ md = Output \/ md = Extend
  | OClose c => c = CloseNormal
  | ODep n => 0 <= n <= Z.of_nat hi /\ n < 10 ^ ld
  | OSet d => length d = hi /\ line_text nulls d
  | OWrite n x => x = WBefore (AdvLines 1) /\ (n <= hi)%nat
  | OReadNext => True
  | _ => False
  end.
