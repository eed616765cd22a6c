(** SORT ... USING ... GIVING: libcob/fileio.c 5875-5893 (cob_copy_check),
    6125-6144 (cob_file_sort_using), 6146-6197 (cob_file_sort_giving),
    6230-6262 (cob_file_sort_close); the calls are emitted by cobc/typeck.c
    6797-6836 and cobc/parser.y 5875-5970: init, one call per USING file, one
    call for all GIVING files, close.
    Simplifications: the files are numbered and each has its own data on disk;
    the sort file has no DEPENDING item (f->record_size is NULL); special
    (printer) files are not modelled; SORT-RETURN and the status of the sort
    file are fields of the sorter. *)
From Verif Require Import Base FileIO FileSort.

(** cob_copy_check.  UB: outside a record area. *)
Definition copy_check (to_size : nat) (to_area : list Z) (from_size : nat) (from_area : list Z) : outcome (list Z) :=
  let n := Nat.min to_size from_size in
  if (length from_area <? n)%nat || (length to_area <? to_size)%nat then UB
  else Ok (firstn n from_area ++ repeat 32 (to_size - n) ++ skipn to_size to_area).

(** cob_file_sort_submit, which unlike RELEASE sets no status; None: an error. *)
Definition submit (h : sorter) : outcome (option sorter) :=
  if h_retrieving h then Ok None
  else do h' <- release h; Ok (Some (set_sort_status (h_status h) h')).

(** The loop of cob_file_sort_using. *)
Fixpoint read_records (fuel : nat) (c : iocfg) (h : sorter) (f : cfile) : outcome (sorter * cfile) :=
  match fuel with
  | O => NotModelled
  | S k =>
    do f <- run_op c f OReadNext;
    if 10 <=? f_status f then Ok (h, f) else
    do a <- copy_check (h_size h) (h_area h) (f_size f) (f_data f);
    do h <- run_sort_op h (SMove a);
    do r <- submit h;
    match r with
    | None => Ok (h, f)
    | Some h => read_records k c h f
    end
  end.
Definition sort_using (fuel : nat) (c : iocfg) (h : sorter) (f : cfile) : outcome (sorter * cfile) :=
  do f <- run_op c f (OOpen Input);
  do r <- read_records fuel c h f;
  let '(h, f) := r in
  do f <- run_op c f (OClose CloseNormal);
  Ok (h, f).

Definition world := nat -> cfile.
Definition put_file (fs : world) (i : nat) (f : cfile) : world := fun j => if (j =? i)%nat then f else fs j.
Fixpoint each (op : cfile -> outcome cfile) (l : list nat) (fs : world) : outcome world :=
  match l with
  | [] => Ok fs
  | i :: r => do f <- op (fs i); each op r (put_file fs i f)
  end.

(** cob_copy_check and cob_write for one file of cob_file_sort_giving. *)
Definition give_record (c : iocfg) (h : sorter) (f : cfile) : outcome cfile :=
  do a <- copy_check (f_size f) (f_data f) (h_size h) (h_area h);
  do f <- run_op c f (OSet a);
  run_op c f (OWrite (f_size f) (match f_org f with OrgLineSequential => WBefore (AdvLines 1) | _ => WNone end)).
(** The loop of cob_file_sort_giving.  sort_return gives the return code of
    cob_file_sort_retrieve as status 0, 10 or 30 (and SORT-RETURN); on success
    the status of the sort file is not touched. *)
Fixpoint give_records (fuel : nat) (c : iocfg) (h : sorter) (outputs : list nat) (fs : world) : outcome (sorter * world) :=
  match fuel with
  | O => NotModelled
  | S k =>
    do r <- sort_return h;
    if h_status r =? 0 then
      let r := set_sort_status (h_status h) r in
      do fs <- each (give_record c r) outputs fs;
      give_records k c r outputs fs
    else Ok (r, fs)
  end.
Definition sort_giving (fuel : nat) (c : iocfg) (h : sorter) (outputs : list nat) (fs : world) : outcome (sorter * world) :=
  do fs <- each (fun f => run_op c f (OOpen Output)) outputs fs;
  do r <- give_records fuel c h outputs fs;
  let '(h, fs) := r in
  do fs <- each (fun f => run_op c f (OClose CloseNormal)) outputs fs;
  Ok (h, fs).

Fixpoint use_files (fuel : nat) (c : iocfg) (h : sorter) (inputs : list nat) (fs : world) : outcome (sorter * world) :=
  match inputs with
  | [] => Ok (h, fs)
  | i :: r =>
    do x <- sort_using fuel c h (fs i);
    let '(h, f) := x in use_files fuel c h r (put_file fs i f)
  end.

(** The statement.  The result: SORT-RETURN, the status of the sort file, the files. *)
Definition sort_statement (fuel : nat) (c : iocfg) (K : sortkeys) (size cob_sort_memory : nat) (area : list Z)
    (inputs outputs : list nat) (fs : world) : outcome (Z * Z * world) :=
  do r <- use_files fuel c (sort_init K size cob_sort_memory area None) inputs fs;
  let '(h, fs) := r in
  do r <- sort_giving fuel c h outputs fs;
  let '(h, fs) := r in
  (* cob_file_sort_close *)
  Ok (h_return h, 0, fs).
