(** C standard I/O streams as used by libcob/fileio.c: one file opened by one
    program.  A stream is the bytes of the file, a position and the append flag
    of the modes "a"/"a+".  Not modelled: I/O errors (full disk, ferror), other
    processes changing the file, record locks.  On Linux SEEK_INIT is empty
    (fileio.c 146-150): reads and writes may follow each other directly because
    glibc keeps one position. *)
From Verif Require Import Base.

Record stream := mkStream { s_bytes : list Z; s_pos : nat; s_append : bool }.

Definition set_pos (s : stream) (p : nat) : stream := mkStream (s_bytes s) p (s_append s).

(** fseek (fp, off, SEEK_SET) and fseek (fp, off, SEEK_CUR): a negative target
    fails and leaves the position; beyond the end is allowed. *)
Definition fseek_set (s : stream) (off : Z) : option stream :=
  if off <? 0 then None else Some (set_pos s (Z.to_nat off)).
Definition fseek_cur (s : stream) (off : Z) : option stream :=
  fseek_set s (Z.of_nat (s_pos s) + off).

(** fread of [n] bytes: what is there, and the new position. *)
Definition fread (s : stream) (n : nat) : list Z * stream :=
  let got := firstn n (skipn (s_pos s) (s_bytes s)) in
  (got, set_pos s (s_pos s + length got)).

(** fwrite / putc: at the position (at the end in append mode); a gap is
    filled with zeros, the file grows as needed. *)
Definition write_at (l : list Z) (p : nat) (bs : list Z) : list Z :=
  firstn p l ++ repeat 0 (p - length l) ++ bs ++ skipn (p + length bs) l.
Definition fwrite (s : stream) (bs : list Z) : stream :=
  let p := if s_append s then length (s_bytes s) else s_pos s in
  match bs with
  | [] => s
  | _ => mkStream (write_at (s_bytes s) p bs) (p + length bs) (s_append s)
  end.

(** getc: None is EOF. *)
Definition getc (s : stream) : option Z * stream :=
  match skipn (s_pos s) (s_bytes s) with
  | [] => (None, s)
  | c :: _ => (Some c, set_pos s (S (s_pos s)))
  end.

(** Number <-> bytes, most significant first ([COB_BSWAP_16/32] of a native
    little-endian value) and least significant first (native size_t). *)
Fixpoint be_enc (w : nat) (n : Z) : list Z :=
  match w with O => [] | S k => be_enc k (n / 256) ++ [n mod 256] end.
Fixpoint be_dec_acc (acc : Z) (l : list Z) : Z :=
  match l with [] => acc | b :: r => be_dec_acc (acc * 256 + b) r end.
Definition be_dec (l : list Z) : Z := be_dec_acc 0 l.
Fixpoint le_enc (w : nat) (n : Z) : list Z :=
  match w with O => [] | S k => n mod 256 :: le_enc k (n / 256) end.
Fixpoint le_dec (l : list Z) : Z :=
  match l with [] => 0 | b :: r => b + 256 * le_dec r end.
