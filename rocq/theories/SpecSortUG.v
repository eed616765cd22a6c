(** SORT ... USING ... GIVING as seen from COBOL: files are lists of records
    (the rules of SpecSeq). *)
From Verif Require Import Base FileIO FileSort SpecFile SpecSeq SpecSort SpecFileSort.

(** SEQUENTIAL files with records of [lo] to [hi] bytes, LINE SEQUENTIAL files
    with lines of up to [hi] bytes. *)
Inductive kind := Seq (lo hi : nat) | Line (hi : nat).
Definition shortest (k : kind) : nat := match k with Seq lo _ => lo | Line _ => 0%nat end.
Definition longest (k : kind) : nat := match k with Seq _ hi => hi | Line hi => hi end.
Definition k_org (k : kind) : organization := match k with Seq _ _ => OrgSequential | Line _ => OrgLineSequential end.
(** Every record is written from the whole record area. *)
Definition whole (k : kind) : Prop := match k with Seq lo hi => lo = hi | Line _ => True end.
(** The bytes of a record in the file. *)
Definition stored (c : iocfg) (k : kind) (r : list Z) : list Z :=
  match k with
  | Seq lo hi => (if (lo =? hi)%nat then [] else head_enc (io_varseq c) (Z.of_nat (length r))) ++ r
  | Line _ => (if io_nulls c then escape r else r) ++ [10]
  end.
Definition text_ok (c : iocfg) (k : kind) (d : list Z) : Prop := match k with Seq _ _ => True | Line _ => line_text (io_nulls c) d end.
Definition legal (c : iocfg) (k : kind) (r : list Z) : Prop := (shortest k <= length r <= longest k)%nat /\ text_ok c k r.
Definition k_good (c : iocfg) (k : kind) (ld : Z) : Prop :=
  Z.of_nat (longest k) < 10 ^ ld /\ match k with Seq lo hi => (1 <= lo <= hi)%nat /\ Z.of_nat hi < prefix_max (io_varseq c) | Line _ => True end.
Definition k_keeps (c : iocfg) (k : kind) := match k with Seq _ _ => seq_keeps | Line _ => line_keeps (io_fixed c) end.
Definition k_fetch (k : kind) := match k with Seq _ _ => seq_fetch | Line _ => line_fetch end.
Definition k_op (c : iocfg) (k : kind) (ld : Z) (o : op) : Prop := match k with Seq lo hi => seq_op lo hi ld o | Line hi => line_op (io_nulls c) hi ld o end.
Definition k_step (c : iocfg) (k : kind) := seq_step (shortest k) (longest k) (io_creates c) (io_ext_creates c) (k_keeps c k) (k_fetch k).
Definition k_steps (c : iocfg) (k : kind) := seq_steps (shortest k) (longest k) (io_creates c) (io_ext_creates c) (k_keeps c k) (k_fetch k).

(** A file of a running program that is closed and contains the records [rs]
    (None: the file does not exist); [l] is its DEPENDING item. *)
Record at_rest (c : iocfg) (k : kind) (ld : Z) (l : option Z) (rs : option (list (list Z))) (f : cfile) : Prop := mkAR {
  ar_good : k_good c k ld;
  ar_org : f_org f = k_org k; ar_acc : f_access f = AccSequential; ar_open : f_open f = Closed; ar_ne : f_nonexistent f = false;
  ar_done : f_read_done f = false; ar_nl : f_needs_nl f = false; ar_optional : f_optional f = false;
  ar_min : f_min f = shortest k; ar_max : f_max f = longest k; ar_area : length (f_data f) = longest k;
  ar_size : whole k -> f_size f = longest k;
  ar_dep : f_dep f = match l with Some v => Some (mkItem v ld) | None => None end; ar_lpos : forall v, l = Some v -> 0 <= v;
  ar_lmax : whole k -> forall v, l = Some v -> v <= Z.of_nat (longest k);
  ar_lfix : match k with Seq lo hi => lo = hi -> l = None | Line _ => True end;
  ar_text : text_ok c k (f_data f);
  ar_disk : f_disk f = option_map (flat_map (stored c k)) rs; ar_legal : forall r, rs = Some r -> Forall (legal c k) r }.
Definition contains (c : iocfg) (k : kind) (rs : option (list (list Z))) (f : cfile) : Prop := exists ld l, at_rest c k ld l rs f.

(** A record moved to an area of [n] bytes. *)
Definition fit (n : nat) (r : list Z) : list Z := firstn n r ++ repeat 32 (n - length r).
Definition records (rs : option (list (list Z))) : list (list Z) := match rs with Some r => r | None => [] end.
(** All records of the files, as records of the sort file. *)
Definition all_records (size : nat) (rs : nat -> option (list (list Z))) (inputs : list nat) : list (list Z) :=
  map (fit size) (flat_map (fun i => records (rs i)) inputs).
