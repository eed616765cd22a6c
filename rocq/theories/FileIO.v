(** SEQUENTIAL, LINE SEQUENTIAL and RELATIVE files: libcob/fileio.c 732-755,
    823-1000 and 1034-1637, and the statements of 3849-4560 (cob_ex_open,
    cob_ex_close, cob_ex_start, cob_ex_read, cob_ex_write, cob_ex_rewrite,
    cob_ex_delete).
    Simplifications: one file, opened by one program; no I/O errors, no locks,
    no EXTFH, no user file handler (cob_invoke_fun), no special files (stdin,
    stdout), file name mapping left out; the exception code is left out (the
    status is kept); COB_SYNC left out.  LINAGE files are in Linage.v.  The
    RELATIVE KEY and DEPENDING ON items are unsigned integer items of some number of
    digits (DISPLAY, binary-truncate on). *)
From Verif Require Import Base Stdio.

(** An unsigned integer item PIC 9(n); cob_set_int truncates on the left
    (MOVE, theorem C16/C19), cob_add_int to an item holding 0 either
    stores or keeps it and reports the overflow (numeric.c 1197-1272). *)
Record item := mkItem { i_val : Z; i_digits : Z }.
Definition item_set (k : item) (v : Z) : item := mkItem (Z.abs v mod 10 ^ i_digits k) (i_digits k).
Definition item_set_fits (k : item) (v : Z) : bool * item :=
  if v <? 10 ^ i_digits k then (true, mkItem v (i_digits k)) else (false, mkItem 0 (i_digits k)).

Inductive organization := OrgSequential | OrgLineSequential | OrgRelative.
Inductive access_mode := AccSequential | AccDynamic | AccRandom.
(** COB_OPEN_CLOSED .. COB_OPEN_LOCKED, fileio.h 88-93. *)
Inductive open_mode := Closed | Input | Output | InOut | Extend | Locked.
(** COB_CLOSE_*, fileio.h 97-101 (UNIT REMOVAL behaves as UNIT). *)
Inductive close_opt := CloseNormal | CloseLock | CloseNoRewind | CloseUnit.
(** COB_EQ .. COB_GE. *)
Inductive cond := EQ | LT | LE | GT | GE.
(** ADVANCING phrase of WRITE. *)
Inductive adv := NoAdv | AdvLines (n : nat) | AdvPage.
Inductive wopt := WNone | WBefore (a : adv) | WAfter (a : adv).

(** Run-time options: WITH_VARSEQ 0-3, COB_LS_NULLS, COB_LS_FIXED,
    COB_IO_CREATES, COB_EXTEND_CREATES. *)
Record iocfg := mkIO { io_varseq : nat; io_nulls : bool; io_fixed : bool;
                       io_creates : bool; io_ext_creates : bool }.

(** struct cob_file (fileio.h 193-230), with the file on disk.  [f_stream] is
    None when the FILE pointer is NULL or already closed. *)
Record cfile := mkFile {
  f_org : organization; f_access : access_mode; f_optional : bool;
  f_min : nat; f_max : nat;
  f_dep : option item;          (* record_size: DEPENDING ON *)
  f_key : option item;          (* keys[0].field: RELATIVE KEY *)
  f_data : list Z;              (* record->data *)
  f_size : nat;                 (* record->size *)
  f_open : open_mode;
  f_nonexistent : bool; f_eof : bool; f_bof : bool;
  f_first : Z;                  (* flag_first_read *)
  f_read_done : bool;
  f_needs_nl : bool;
  f_stream : option stream;
  f_disk : option (list Z);     (* None: the file does not exist *)
  f_status : Z }.

Definition set_dep v (f : cfile) := mkFile (f_org f) (f_access f) (f_optional f) (f_min f) (f_max f) v (f_key f) (f_data f) (f_size f) (f_open f) (f_nonexistent f) (f_eof f) (f_bof f) (f_first f) (f_read_done f) (f_needs_nl f) (f_stream f) (f_disk f) (f_status f).
Definition set_key v (f : cfile) := mkFile (f_org f) (f_access f) (f_optional f) (f_min f) (f_max f) (f_dep f) v (f_data f) (f_size f) (f_open f) (f_nonexistent f) (f_eof f) (f_bof f) (f_first f) (f_read_done f) (f_needs_nl f) (f_stream f) (f_disk f) (f_status f).
Definition set_data v (f : cfile) := mkFile (f_org f) (f_access f) (f_optional f) (f_min f) (f_max f) (f_dep f) (f_key f) v (f_size f) (f_open f) (f_nonexistent f) (f_eof f) (f_bof f) (f_first f) (f_read_done f) (f_needs_nl f) (f_stream f) (f_disk f) (f_status f).
Definition set_size v (f : cfile) := mkFile (f_org f) (f_access f) (f_optional f) (f_min f) (f_max f) (f_dep f) (f_key f) (f_data f) v (f_open f) (f_nonexistent f) (f_eof f) (f_bof f) (f_first f) (f_read_done f) (f_needs_nl f) (f_stream f) (f_disk f) (f_status f).
Definition set_open v (f : cfile) := mkFile (f_org f) (f_access f) (f_optional f) (f_min f) (f_max f) (f_dep f) (f_key f) (f_data f) (f_size f) v (f_nonexistent f) (f_eof f) (f_bof f) (f_first f) (f_read_done f) (f_needs_nl f) (f_stream f) (f_disk f) (f_status f).
Definition set_flags (ne eof bof : bool) (f : cfile) := mkFile (f_org f) (f_access f) (f_optional f) (f_min f) (f_max f) (f_dep f) (f_key f) (f_data f) (f_size f) (f_open f) ne eof bof (f_first f) (f_read_done f) (f_needs_nl f) (f_stream f) (f_disk f) (f_status f).
Definition set_first v (f : cfile) := mkFile (f_org f) (f_access f) (f_optional f) (f_min f) (f_max f) (f_dep f) (f_key f) (f_data f) (f_size f) (f_open f) (f_nonexistent f) (f_eof f) (f_bof f) v (f_read_done f) (f_needs_nl f) (f_stream f) (f_disk f) (f_status f).
Definition set_done v (f : cfile) := mkFile (f_org f) (f_access f) (f_optional f) (f_min f) (f_max f) (f_dep f) (f_key f) (f_data f) (f_size f) (f_open f) (f_nonexistent f) (f_eof f) (f_bof f) (f_first f) v (f_needs_nl f) (f_stream f) (f_disk f) (f_status f).
Definition set_nl v (f : cfile) := mkFile (f_org f) (f_access f) (f_optional f) (f_min f) (f_max f) (f_dep f) (f_key f) (f_data f) (f_size f) (f_open f) (f_nonexistent f) (f_eof f) (f_bof f) (f_first f) (f_read_done f) v (f_stream f) (f_disk f) (f_status f).
Definition set_stream v (f : cfile) := mkFile (f_org f) (f_access f) (f_optional f) (f_min f) (f_max f) (f_dep f) (f_key f) (f_data f) (f_size f) (f_open f) (f_nonexistent f) (f_eof f) (f_bof f) (f_first f) (f_read_done f) (f_needs_nl f) v (f_disk f) (f_status f).
Definition set_disk v (f : cfile) := mkFile (f_org f) (f_access f) (f_optional f) (f_min f) (f_max f) (f_dep f) (f_key f) (f_data f) (f_size f) (f_open f) (f_nonexistent f) (f_eof f) (f_bof f) (f_first f) (f_read_done f) (f_needs_nl f) (f_stream f) v (f_status f).
Definition set_status v (f : cfile) := mkFile (f_org f) (f_access f) (f_optional f) (f_min f) (f_max f) (f_dep f) (f_key f) (f_data f) (f_size f) (f_open f) (f_nonexistent f) (f_eof f) (f_bof f) (f_first f) (f_read_done f) (f_needs_nl f) (f_stream f) (f_disk f) v.

(** A file function of fileio_funcs: (status returned, file). *)
Definition fres := outcome (Z * cfile).

(** Access to the stream; a NULL or closed FILE pointer is undefined. *)
Definition with_stream {A} (f : cfile) (k : stream -> outcome A) : outcome A :=
  match f_stream f with None => UB | Some s => k s end.

(** Copy of [bs] to the start of the record area (fread (f->record->data, ...));
    undefined when it does not fit. *)
Definition into_area (f : cfile) (bs : list Z) : cfile :=
  set_data (bs ++ skipn (length bs) (f_data f)) f.

(** ** Record prefix of variable SEQUENTIAL records (fileio.c 1059-1086,
    1134-1160) *)
Definition head_width (v : nat) : nat :=
  match v with 0 => 4 | 1 => 4 | 2 => 8 | _ => 2 end%nat.
Definition head_enc (v : nat) (n : Z) : list Z :=
  match v with
  | 0%nat => be_enc 2 (n mod 65536) ++ [0; 0]
  | 1%nat => be_enc 4 (n mod 2 ^ 32)
  | 2%nat => le_enc 8 n
  | _ => be_enc 2 (n mod 65536)
  end.
Definition head_dec (v : nat) (l : list Z) : Z :=
  match v with
  | 0%nat => be_dec (firstn 2 l)
  | 1%nat => be_dec l
  | 2%nat => le_dec l
  | _ => be_dec l
  end.

(** cob_file_write_opt, fileio.c 1017-1032 (not LINAGE). *)
Definition write_adv (s : stream) (a : adv) : stream :=
  match a with
  | AdvLines n => fwrite s (repeat 10 n)
  | AdvPage => fwrite s [12]
  | NoAdv => s
  end.

(** ** SEQUENTIAL *)

(** sequential_read, fileio.c 1036-1101.  A prefix cut short by the end of the
    file counts as end of file (for WITH_VARSEQ 2 it would leave a partly
    overwritten record size: not modelled). *)
Definition sequential_read (c : iocfg) (f : cfile) : fres :=
  with_stream f (fun s =>
  let body (f : cfile) (s : stream) : fres :=
    let '(bs, s) := fread s (f_size f) in
    if (length (f_data f) <? length bs)%nat then UB else
    let f := set_stream (Some s) (into_area f bs) in
    if (length bs =? f_size f)%nat then Ok (0, f)
    else if (length bs =? 0)%nat then Ok (10, f) else Ok (4, f) in
  if (f_min f =? f_max f)%nat then body f s
  else
    let '(h, s) := fread s (head_width (io_varseq c)) in
    if (length h =? head_width (io_varseq c))%nat
    then body (set_size (Z.to_nat (head_dec (io_varseq c) h)) f) s
    else if (io_varseq c =? 2)%nat && negb (length h =? 0)%nat then NotModelled
    else Ok (10, set_stream (Some s) f)).

(** sequential_write, fileio.c 1103-1180.  fwrite of 0 bytes returns 0, which
    is reported as an error (status 30) after the prefix has been written. *)
Definition sequential_write (c : iocfg) (f : cfile) (opt : wopt) : fres :=
  with_stream f (fun s =>
  let '(s, nl) := match opt with WAfter a => (write_adv s a, true) | _ => (s, f_needs_nl f) end in
  let s := if (f_min f =? f_max f)%nat then s else fwrite s (head_enc (io_varseq c) (Z.of_nat (f_size f))) in
  if (length (f_data f) <? f_size f)%nat then UB else
  if (f_size f =? 0)%nat then Ok (30, set_nl nl (set_stream (Some s) f)) else
  let s := fwrite s (firstn (f_size f) (f_data f)) in
  let '(s, nl) := match opt with WBefore a => (write_adv s a, false) | _ => (s, nl) end in
  Ok (0, set_nl nl (set_stream (Some s) f))).

(** sequential_rewrite, fileio.c 1182-1200. *)
Definition sequential_rewrite (f : cfile) : fres :=
  with_stream f (fun s =>
  match fseek_cur s (- Z.of_nat (f_size f)) with
  | None => Ok (30, f)
  | Some s =>
    if (length (f_data f) <? f_size f)%nat then UB else
    if (f_size f =? 0)%nat then Ok (30, set_stream (Some s) f) else
    Ok (0, set_stream (Some (fwrite s (firstn (f_size f) (f_data f)))) f)
  end).

(** ** LINE SEQUENTIAL *)

(** The loop of lineseq_read, fileio.c 1221-1248: characters of one record.
    Result: (status 0/10/30, characters kept, position).  [l] is what follows
    the position, [room] what is left in the record. *)
Fixpoint line_loop (nulls : bool) (room : nat) (some : bool) (l : list Z) (pos : nat) : Z * list Z * nat :=
  match l with
  | [] => (if some then 0 else 10, [], pos)
  | n :: r =>
    if (n =? 0) && nulls then
      match r with
      | [] => (30, [], S pos)
      | n' :: r' =>
        match room with
        | O => line_loop nulls O some r' (S (S pos))
        | S room' => let '(st, cs, p) := line_loop nulls room' true r' (S (S pos)) in (st, n' :: cs, p)
        end
      end
    else if n =? 13 then line_loop nulls room some r (S pos)
    else if n =? 10 then (0, [], S pos)
    else
      match room with
      | O => line_loop nulls O some r (S pos)
      | S room' => let '(st, cs, p) := line_loop nulls room' true r (S pos) in (st, n :: cs, p)
      end
  end.
(** lineseq_read, fileio.c 1206-1258: the record is filled with spaces up to
    record->size. *)
Definition lineseq_read (c : iocfg) (f : cfile) : fres :=
  with_stream f (fun s =>
  let '(st, cs, p) := line_loop (io_nulls c) (f_size f) false (skipn (s_pos s) (s_bytes s)) (s_pos s) in
  if (length (f_data f) <? length cs)%nat then UB else
  let f := set_stream (Some (set_pos s p)) (into_area f cs) in
  if negb (st =? 0) then Ok (st, f) else
  if (length (f_data f) <? f_size f)%nat then UB else
  let f := into_area f (cs ++ repeat 32 (f_size f - length cs)) in
  Ok (0, match f_dep f with None => f | Some d => set_dep (Some (item_set d (Z.of_nat (length cs)))) f end)).

(** Size without trailing spaces, fileio.c 1287-1292. *)
Fixpoint drop_spaces (l : list Z) : list Z :=
  match l with 32 :: r => drop_spaces r | _ => l end.
Definition trimmed (l : list Z) : list Z := rev (drop_spaces (rev l)).
(** Escaping of control characters, fileio.c 1316-1323. *)
Definition escape (l : list Z) : list Z :=
  flat_map (fun b => if b <? 32 then [0; b] else [b]) l.
(** lineseq_write, fileio.c 1260-1357, without LINAGE. *)
Definition lineseq_write (c : iocfg) (f : cfile) (opt : wopt) : fres :=
  with_stream f (fun s =>
  if (length (f_data f) <? f_size f)%nat then UB else
  let rec := firstn (f_size f) (f_data f) in
  let out := if io_fixed c then rec else trimmed rec in
  let '(s, nl) := match opt with WAfter a => (write_adv s a, true) | _ => (s, f_needs_nl f) end in
  let s := fwrite s (if io_nulls c then escape out else out) in
  let '(s, nl) := match opt with WBefore a => (write_adv s a, false) | _ => (s, nl) end in
  let s := if nl then fwrite s [10] else s in
  Ok (0, set_nl false (set_stream (Some s) f))).

(** ** RELATIVE *)

Definition SZ : nat := 8.       (* sizeof (f->record->size) *)
Definition relsize (f : cfile) : nat := (f_max f + SZ)%nat.
Definition slot_off (f : cfile) (kindex : Z) : Z := kindex * Z.of_nat (relsize f).

(** fseek to a slot and fread of its size: None when either fails.  A size
    cut short by the end of the file leaves a partly overwritten record size:
    not modelled. *)
Definition read_slot_size (s : stream) : option (outcome nat) * stream :=
  let '(h, s) := fread s SZ in
  ((if (length h =? SZ)%nat then Some (Ok (Z.to_nat (le_dec h)))
    else if (length h =? 0)%nat then None else Some NotModelled), s).

(** relative_start, fileio.c 1362-1416. *)
Fixpoint start_loop (fuel : nat) (f : cfile) (s : stream) (c : cond) (k : item) (kindex : Z) : fres :=
  match fuel with
  | O => NotModelled
  | S fuel' =>
    match fseek_set s (slot_off f kindex) with
    | None => Ok (23, set_stream (Some s) f)
    | Some s =>
      let '(sz, s) := read_slot_size s in
      match sz with
      | None => Ok (23, set_stream (Some s) f)
      | Some osz =>
        do n <- osz;
        let f := set_size n f in
        if (0 <? n)%nat then
          Ok (0, set_stream (fseek_cur s (- Z.of_nat SZ)) (set_key (Some (item_set k (kindex + 1))) f))
        else
          match c with
          | EQ => Ok (23, set_stream (Some s) f)
          | LT | LE => start_loop fuel' f s c k (kindex - 1)
          | GT | GE => start_loop fuel' f s c k (kindex + 1)
          end
      end
    end
  end.
Definition relative_start (f : cfile) (c : cond) : fres :=
  with_stream f (fun s =>
  match f_key f with
  | None => UB
  | Some k =>
    let kindex := i_val k - 1 in
    let kindex := match c with LT => kindex - 1 | GT => kindex + 1 | _ => kindex end in
    start_loop (S (S (length (s_bytes s)))) f s c k kindex
  end).

(** fread (f->record->data, f->record_max, 1, fp) != 1 *)
Definition read_body (f : cfile) (s : stream) : outcome (bool * cfile) :=
  let '(bs, s) := fread s (f_max f) in
  if (length (f_data f) <? length bs)%nat then UB else
  Ok ((length bs =? f_max f)%nat && (0 <? f_max f)%nat, set_stream (Some s) (into_area f bs)).

(** relative_read, fileio.c 1418-1453. *)
Definition relative_read (f : cfile) : fres :=
  with_stream f (fun s =>
  match f_key f with
  | None => UB
  | Some k =>
    match fseek_set s (slot_off f (i_val k - 1)) with
    | None => Ok (23, f)
    | Some s =>
      let '(sz, s) := read_slot_size s in
      match sz with
      | None => Ok (23, set_stream (Some s) f)
      | Some osz =>
        do n <- osz;
        let f := set_size n f in
        if (n =? 0)%nat then Ok (23, set_stream (fseek_cur s (- Z.of_nat SZ)) f)
        else do r <- read_body f s;
             let '(good, f) := r in Ok (if good then 0 else 30, f)
      end
    end
  end).

(** relative_read_next, fileio.c 1455-1507. *)
Fixpoint next_loop (fuel : nat) (f : cfile) (s : stream) : fres :=
  match fuel with
  | O => NotModelled
  | S fuel' =>
    let '(sz, s) := read_slot_size s in
    match sz with
    | None => Ok (10, set_stream (Some s) f)
    | Some osz =>
      do n <- osz;
      let f := set_size n f in
      let '(good, f) :=
        match f_key f with
        | None => (true, f)
        | Some k =>
          if negb (f_first f =? 0) then (true, set_first 0 (set_key (Some (item_set k 1)) f))
          else
            let relnum := Z.of_nat (s_pos s / relsize f) + 1 in
            let '(good, k) := item_set_fits k relnum in (good, set_key (Some k) f)
        end in
      if negb good then Ok (14, set_stream (fseek_cur s (- Z.of_nat SZ)) f)
      else if (0 <? n)%nat then
        do r <- read_body f s;
        let '(ok, f) := r in Ok (if ok then 0 else 30, f)
      else
        match fseek_cur s (Z.of_nat (f_max f)) with
        | None => UB
        | Some s => next_loop fuel' f s
        end
    end
  end.
Definition relative_read_next (f : cfile) : fres :=
  with_stream f (fun s => next_loop (S (length (s_bytes s))) f s).

(** fwrite of the size and of the whole record area. *)
Definition write_slot (f : cfile) (s : stream) : fres :=
  let s := fwrite s (le_enc SZ (Z.of_nat (f_size f))) in
  if (length (f_data f) <? f_max f)%nat then UB else
  if (f_max f =? 0)%nat then Ok (30, set_stream (Some s) f) else
  Ok (0, set_stream (Some (fwrite s (firstn (f_max f) (f_data f)))) f).

(** relative_write, fileio.c 1509-1571. *)
Definition relative_write (f : cfile) : fres :=
  with_stream f (fun s0 =>
  let pos : outcome (Z + stream) :=
    match f_access f with
    | AccSequential => Ok (inr s0)
    | _ =>
      match f_key f with
      | None => UB
      | Some k =>
        if i_val k - 1 <? 0 then Ok (inl 21)
        else match fseek_set s0 (slot_off f (i_val k - 1)) with
             | None => Ok (inl 21)
             | Some s => Ok (inr s)
             end
      end
    end in
  do p <- pos;
  match p with
  | inl st => Ok (st, f)
  | inr s =>
    let off := s_pos s in
    let '(h, s1) := fread s SZ in
    let size := le_dec h in
    if (length h =? SZ)%nat && (0 <? size)
    then Ok (22, set_stream (Some (set_pos s1 off)) f)
    else
      do r <- write_slot f (set_pos s1 off);
      let '(st, f) := r in
      if negb (st =? 0) then Ok (st, f) else
      Ok (0, match f_access f, f_key f with
             | AccSequential, Some k =>
                 set_key (Some (item_set k (Z.of_nat ((off + relsize f) / relsize f)))) f
             | _, _ => f
             end)
  end).

(** relative_rewrite, fileio.c 1573-1606. *)
Definition relative_rewrite (f : cfile) : fres :=
  with_stream f (fun s0 =>
  let pos : outcome (cfile * stream + cfile) :=
    match f_access f with
    | AccSequential =>
      Ok (inl (f, match fseek_cur s0 (- Z.of_nat (f_max f)) with Some s => s | None => s0 end))
    | _ =>
      match f_key f with
      | None => UB
      | Some k =>
        match fseek_set s0 (slot_off f (i_val k - 1)) with
        | None => Ok (inr f)
        | Some s =>
          let '(sz, s) := read_slot_size s in
          match sz with
          | None => Ok (inr (set_stream (Some s) f))
          | Some osz => do n <- osz; Ok (inl (set_size n f, s))
          end
        end
      end
    end in
  do p <- pos;
  match p with
  | inr f => Ok (23, f)
  | inl (f, s) =>
    if (length (f_data f) <? f_max f)%nat then UB else
    if (f_max f =? 0)%nat then Ok (30, f) else
    Ok (0, set_stream (Some (fwrite s (firstn (f_max f) (f_data f)))) f)
  end).

(** relative_delete, fileio.c 1608-1637: uses the RELATIVE KEY in every access
    mode. *)
Definition relative_delete (f : cfile) : fres :=
  with_stream f (fun s =>
  match f_key f with
  | None => UB
  | Some k =>
    match fseek_set s (slot_off f (i_val k - 1)) with
    | None => Ok (23, f)
    | Some s =>
      let '(sz, s1) := read_slot_size s in
      match sz with
      | None => Ok (23, set_stream (Some s1) f)
      | Some osz =>
        do _ <- osz;
        let s := fwrite s (le_enc SZ 0) in
        Ok (0, set_stream (fseek_cur s (Z.of_nat (f_max f))) (set_size 0 f))
      end
    end
  end).

(** ** fileio_funcs, fileio.c 424-470: missing operations return 91. *)
Definition org_start (f : cfile) (c : cond) : fres :=
  match f_org f with OrgRelative => relative_start f c | _ => Ok (91, f) end.
Definition org_read (f : cfile) : fres :=
  match f_org f with OrgRelative => relative_read f | _ => Ok (91, f) end.
Definition org_read_next (c : iocfg) (f : cfile) : fres :=
  match f_org f with
  | OrgSequential => sequential_read c f
  | OrgLineSequential => lineseq_read c f
  | OrgRelative => relative_read_next f
  end.
Definition org_write (c : iocfg) (f : cfile) (o : wopt) : fres :=
  match f_org f with
  | OrgSequential => sequential_write c f o
  | OrgLineSequential => lineseq_write c f o
  | OrgRelative => relative_write f
  end.
Definition org_rewrite (f : cfile) : fres :=
  match f_org f with
  | OrgSequential => sequential_rewrite f
  | OrgLineSequential => Ok (91, f)
  | OrgRelative => relative_rewrite f
  end.
Definition org_delete (f : cfile) : fres :=
  match f_org f with OrgRelative => relative_delete f | _ => Ok (91, f) end.

(** RETURN_STATUS / save_status, fileio.c 732-755. *)
Definition ret (st : Z) (f : cfile) : outcome cfile := Ok (set_status st f).

(** cob_file_open, fileio.c 823-913: the stream, or ENOENT. *)
Definition file_open (c : iocfg) (f : cfile) (mode : open_mode) : option cfile :=
  let opened bytes pos app :=
    Some (set_stream (Some (mkStream bytes pos app)) (set_disk (Some bytes) f)) in
  match mode, f_disk f with
  | Output, _ => opened [] 0%nat false
  | Extend, None => opened [] 0%nat true
  | Extend, Some d => opened d (length d) true
  | _, Some d => opened d 0%nat false
  | InOut, None => if io_creates c then opened [] 0%nat false else None
  | _, None => None
  end.

(** cob_ex_open, fileio.c 3849-4130. *)
Definition ex_open (c : iocfg) (f : cfile) (mode : open_mode) : outcome cfile :=
  let f := set_done false f in
  match f_open f with
  | Locked => ret 38 f
  | Closed =>
    let f := set_first 2 (set_flags false false false f) in
    let missing := match f_disk f with None => true | Some _ => false end in
    let may_create := match mode with Output => true | InOut => io_creates c | Extend => io_ext_creates c | _ => false end in
    if missing && negb may_create && negb (f_optional f) then ret 35 f
    else
      match file_open c f mode with
      | Some f => ret (if f_optional f && missing then 5 else 0) (set_open mode f)
      | None =>
        if f_optional f then ret 5 (set_flags true true true (set_open mode f)) else ret 35 f
      end
  | _ => ret 41 f
  end.

(** cob_file_close, fileio.c 915-952; closing writes the data to the disk. *)
Definition file_close (f : cfile) (o : close_opt) : fres :=
  with_stream f (fun s =>
  match o with
  | CloseUnit => Ok (7, set_disk (Some (s_bytes s)) f)
  | _ =>
    let '(s, f) :=
      match f_org f with
      | OrgLineSequential => if f_needs_nl f then (fwrite s [10], set_nl false f) else (s, f)
      | _ => (s, f)
      end in
    let f := set_stream None (set_disk (Some (s_bytes s)) f) in
    match o with
    | CloseNoRewind => Ok (7, set_open Closed f)
    | _ => Ok (0, f)
    end
  end).

(** cob_ex_close, fileio.c 4180-4222. *)
Definition ex_close (f : cfile) (o : close_opt) : outcome cfile :=
  let f := set_done false f in
  match f_open f with
  | Closed => ret 42 f
  | _ =>
    do r <- (if f_nonexistent f then Ok (0, f) else file_close f o);
    let '(st, f) := r in
    ret st (if st =? 0 then set_open (match o with CloseLock => Locked | _ => Closed end) f else f)
  end.

(** cob_ex_start, fileio.c 4258-4285. *)
Definition ex_start (f : cfile) (cd : cond) : outcome cfile :=
  let f := set_first 0 (set_done false f) in
  if f_nonexistent f then ret 23 f else
  let denied := match f_open f with Closed | Output | Extend => true | _ => false end in
  if denied || match f_access f with AccRandom => true | _ => false end then ret 47 f
  else
    do r <- org_start f cd;
    let '(st, f) := r in
    ret st (if st =? 0 then set_first 1 (set_flags (f_nonexistent f) false false f) else f).

(** cob_ex_read, fileio.c 4303-4371 ([keyed]: READ ... KEY, otherwise READ
    NEXT; READ PREVIOUS is only offered for INDEXED files and left out). *)
Definition ex_read (c : iocfg) (f : cfile) (keyed : bool) : outcome cfile :=
  let f := set_done false f in
  if f_nonexistent f then
    (if f_first f =? 0 then ret 23 f else ret 10 (set_first 0 f))
  else if negb keyed && f_eof f then ret 46 f
  else
    match f_open f with
    | Closed | Output | Extend => ret 47 f
    | _ =>
      do r <- (if keyed then org_read f else org_read_next c f);
      let '(st, f) := r in
      if st =? 0 then
        let f := set_flags (f_nonexistent f) false false (set_done true (set_first 0 f)) in
        ret 0 (match f_dep f, f_org f with
               | None, _ => f
               | Some _, OrgLineSequential => f
               | Some d, _ => set_dep (Some (item_set d (Z.of_nat (f_size f)))) f
               end)
      else if st =? 10 then ret 10 (set_flags (f_nonexistent f) true (f_bof f) f)
      else ret st f
    end.

(** cob_ex_write, fileio.c 4399-4448; [rsize] is the size of the record named
    in the statement. *)
Definition ex_write (c : iocfg) (f : cfile) (rsize : nat) (o : wopt) : outcome cfile :=
  let f := set_done false f in
  let denied :=
    match f_access f, f_open f with
    | AccSequential, (Closed | Input | InOut) => true
    | AccSequential, _ => false
    | _, (Closed | Input | Extend) => true
    | _, _ => false
    end in
  if denied then ret 48 f else
  let tmpsize := f_size f in
  let n := match f_dep f with Some d => Z.to_nat (i_val d) | None => rsize end in
  let f := set_size n f in
  if (n <? f_min f)%nat || (f_max f <? n)%nat then ret 44 f
  else
    do r <- org_write c f o;
    let '(st, f) := r in ret st (set_size tmpsize f).

(** cob_ex_rewrite, fileio.c 4469-4516. *)
Definition ex_rewrite (f : cfile) (rsize : nat) : outcome cfile :=
  let read_done := f_read_done f in
  let f := set_done false f in
  match f_open f with
  | InOut =>
    if match f_access f with AccSequential => negb read_done | _ => false end then ret 43 f
    else
      let bad :=
        match f_org f with
        | OrgSequential =>
          negb (f_size f =? rsize)%nat ||
          match f_dep f with Some d => negb (Z.of_nat (f_size f) =? i_val d) | None => false end
        | _ => false
        end in
      if bad then ret 44 f
      else do r <- org_rewrite f; let '(st, f) := r in ret st f
  | _ => ret 49 f
  end.

(** cob_ex_delete, fileio.c 4528-4553. *)
Definition ex_delete (f : cfile) : outcome cfile :=
  let read_done := f_read_done f in
  let f := set_done false f in
  match f_open f with
  | InOut =>
    if match f_access f with AccSequential => negb read_done | _ => false end then ret 43 f
    else do r <- org_delete f; let '(st, f) := r in ret st f
  | _ => ret 49 f
  end.

(** ** A program's view: one operation of a history.  [OSet] is a MOVE to
    the record area, [OKey] a MOVE to the RELATIVE KEY item, [ODep] one to the
    DEPENDING ON item. *)
Inductive op :=
| OOpen (m : open_mode) | OClose (o : close_opt) | OStart (c : cond)
| ORead | OReadNext | OWrite (rsize : nat) (o : wopt) | ORewrite (rsize : nat) | ODelete
| OSet (d : list Z) | OKey (n : Z) | ODep (n : Z).
Definition run_op (c : iocfg) (f : cfile) (o : op) : outcome cfile :=
  match o with
  | OOpen m => ex_open c f m
  | OClose o => ex_close f o
  | OStart cd => ex_start f cd
  | ORead => ex_read c f true
  | OReadNext => ex_read c f false
  | OWrite n o => ex_write c f n o
  | ORewrite n => ex_rewrite f n
  | ODelete => ex_delete f
  | OSet d => Ok (set_data d f)
  | OKey n => Ok (match f_key f with Some k => set_key (Some (item_set k n)) f | None => f end)
  | ODep n => Ok (match f_dep f with Some k => set_dep (Some (item_set k n)) f | None => f end)
  end.
Fixpoint run_ops (c : iocfg) (f : cfile) (os : list op) : outcome cfile :=
  match os with
  | [] => Ok f
  | o :: r => do f' <- run_op c f o; run_ops c f' r
  end.
