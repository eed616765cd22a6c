(** Specification of SORT with RELEASE and RETURN: the records released are
    collected; the first RETURN puts them in order; RETURN then delivers them
    one by one.  Independent of queues, work files and memory. *)
From Coq Require Import Sorting.Permutation Sorting.Sorted.
From Verif Require Import Base Field Compare SpecCmp SpecSort FileIO FileSort.

(** Record number [i] of [rs] comes before number [j]: by its keys, and by the
    order of release when the keys are equal. *)
Definition comes_before (K : sortkeys) (rs : list (Z * list Z)) (i j : nat) : Prop :=
  exists a b, nth_error rs i = Some a /\ nth_error rs j = Some b /\
    (rec_lt (sk_cfg K) (sk_col K) (sk_keys K) (snd a) (snd b) \/
     (rec_eq (sk_cfg K) (sk_col K) (sk_keys K) (snd a) (snd b) /\ (i < j)%nat)).

(** [out] is [rs] in key order, every record as often as it was released. *)
Definition in_order (K : sortkeys) (rs out : list (Z * list Z)) : Prop :=
  exists idx, Permutation idx (seq 0 (length rs)) /\ StronglySorted (comes_before K rs) idx /\
    map Some out = map (nth_error rs) idx.

(** What the program sees: the records released so far (length item and
    contents), the records still to be returned (None before the first RETURN), the
    record area, the length item, SORT-RETURN and the status. *)
Record sstate := mkS { s_in : list (Z * list Z); s_out : option (list (Z * list Z));
                       s_area : list Z; s_len : option Z; s_return : Z; s_status : Z }.

Definition len_of (size : nat) (st : sstate) : Z := match s_len st with Some n => n | None => Z.of_nat size end.
(** [fits]: the records fit in memory, and RETURN sets the length item. *)
Definition put_len (fits : bool) (l : option Z) (n : Z) : option Z :=
  match l with Some v => Some (if fits then n else v) | None => None end.

Inductive sort_step (K : sortkeys) (size memory : nat) : sstate -> sort_op -> sstate -> Prop :=
| st_move : forall st d, sort_step K size memory st (SMove d) (mkS (s_in st) (s_out st) d (s_len st) (s_return st) (s_status st))
| st_len : forall st n, sort_step K size memory st (SLen n) (mkS (s_in st) (s_out st) (s_area st) (match s_len st with Some _ => Some n | None => None end) (s_return st) (s_status st))
| st_release : forall st, s_out st = None ->
    sort_step K size memory st SRelease (mkS (s_in st ++ [(len_of size st, s_area st)]) None (s_area st) (s_len st) (s_return st) 0)
| st_late : forall st out, s_out st = Some out ->
    sort_step K size memory st SRelease (mkS (s_in st) (Some out) (s_area st) (s_len st) 16 30)
| st_first : forall st out st', s_out st = None -> in_order K (s_in st) out ->
    sort_step K size memory (mkS (s_in st) (Some out) (s_area st) (s_len st) (s_return st) (s_status st)) SReturn st' ->
    sort_step K size memory st SReturn st'
| st_next : forall st n d rest, s_out st = Some ((n, d) :: rest) ->
    sort_step K size memory st SReturn (mkS (s_in st) (Some rest) d (put_len (length (s_in st) <=? memory)%nat (s_len st) n) (s_return st) 0)
| st_end : forall st, s_out st = Some [] ->
    sort_step K size memory st SReturn (mkS (s_in st) (Some []) (s_area st) (s_len st) (s_return st) 10).
Inductive sort_steps (K : sortkeys) (size memory : nat) : sstate -> list sort_op -> sstate -> Prop :=
| ss_nil : forall st, sort_steps K size memory st [] st
| ss_cons : forall st o st1 os st2, sort_step K size memory st o st1 -> sort_steps K size memory st1 os st2 -> sort_steps K size memory st (o :: os) st2.

(** A record of the sort file: the right size, valid keys. *)
Definition sort_rec (K : sortkeys) (size : nat) (d : list Z) : Prop :=
  length d = size /\ Forall (fun k => key_ok (sk_cfg K) k d) (sk_keys K).
Definition sort_op_ok (K : sortkeys) (size : nat) (digits : Z) (o : sort_op) : Prop :=
  match o with SMove d => sort_rec K size d | SLen n => 0 <= n < 10 ^ digits | _ => True end.
Definition releases (os : list sort_op) : nat := length (filter (fun o => match o with SRelease => true | _ => false end) os).
