(** Dynamic storage and handler lists: libcob/common.c 140-160, 1028-1080,
    2034-2096 (ALLOCATE, FREE), 2156-2253 (CBL_EXIT_PROC, CBL_ERROR_PROC).
    Addresses are integers, 0 is NULL. *)
From Verif Require Import Base.

(** ** ALLOCATE / FREE *)

(** Live blocks of the C heap: address and contents.  [cache] is the list
    cob_alloc_base: (cob_pointer, size). *)
Definition heap := list (Z * list Z).
Record astate := mkA { a_heap : heap; a_cache : list (Z * Z) }.

Definition live (h : heap) (a : Z) : Prop := In a (map fst h).
(** free (a): undefined unless a is a live block. *)
Definition c_free (h : heap) (a : Z) : outcome heap :=
  if existsb (fun b => fst b =? a) h then Ok (filter (fun b => negb (fst b =? a)) h) else UB.

(** cob_allocate, common.c 2034-2065, for a requested size [fsize] (the value
    of cob_get_int) and the result [m] of malloc.  Returns the state, the
    address stored in the pointer, and whether STORAGE-NOT-AVAIL was raised.
    (cob_malloc of the list node aborts the run when it fails; not modelled.) *)
Definition allocate (st : astate) (fsize : Z) (m : option Z) : astate * Z * bool :=
  if 0 <? fsize then
    match m with
    | None => (st, 0, true)
    | Some a => (mkA ((a, repeat 0 (Z.to_nat fsize)) :: a_heap st) ((a, fsize) :: a_cache st), a, false)
    end
  else (st, 0, false).

(** The search loop of cob_free_alloc, common.c 2074-2081: the cache with the
    entry for [p] cleared. *)
Fixpoint clear_entry (c : list (Z * Z)) (p : Z) : option (list (Z * Z)) :=
  match c with
  | [] => None
  | (q, n) :: r =>
    if p =? q then Some ((0, n) :: r)
    else match clear_entry r p with Some r' => Some ((q, n) :: r') | None => None end
  end.
Definition free_one (st : astate) (p : Z) : outcome (astate * Z * bool) :=
  match clear_entry (a_cache st) p with
  | Some c => do h <- c_free (a_heap st) p; Ok (mkA h c, 0, false)
  | None => Ok (st, p, true)
  end.
(** cob_free_alloc, common.c 2067-2096: [p1] is the address variable of a BASED
    item (FREE item), [p2] a pointer item (FREE ADDRESS ... / pointer); None
    where the argument is NULL.  Returns the new values and the exception. *)
Definition free_alloc (st : astate) (p1 p2 : option Z) : outcome (astate * option Z * option Z * bool) :=
  match p1 with
  | Some a =>
    if a =? 0 then
      match p2 with
      | Some b => if b =? 0 then Ok (st, p1, p2, false)
                  else do r <- free_one st b; Ok (fst (fst r), p1, Some (snd (fst r)), snd r)
      | None => Ok (st, p1, p2, false)
      end
    else do r <- free_one st a; Ok (fst (fst r), Some (snd (fst r)), p2, snd r)
  | None =>
    match p2 with
    | Some b => if b =? 0 then Ok (st, p1, p2, false)
                else do r <- free_one st b; Ok (fst (fst r), p1, Some (snd (fst r)), snd r)
    | None => Ok (st, p1, p2, false)
    end
  end.

(** ** Handler lists *)

(** struct exit_handlerlist / struct handlerlist, common.c 148-159. *)
Record hnode := mkNode { n_next : Z; n_proc : Z }.
Definition nheap := list (Z * hnode).
Record hstate := mkH { h_nodes : nheap; h_head : Z }.

Definition n_find (h : nheap) (a : Z) : option hnode :=
  match find (fun b => fst b =? a) h with Some b => Some (snd b) | None => None end.
Definition n_set (h : nheap) (a : Z) (n : hnode) : nheap :=
  map (fun b => if fst b =? a then (a, n) else b) h.
Definition n_free (h : nheap) (a : Z) : outcome nheap :=
  if existsb (fun b => fst b =? a) h then Ok (filter (fun b => negb (fst b =? a)) h) else UB.

(** The removal loop of CBL_EXIT_PROC, common.c 2191-2206 (and CBL_ERROR_PROC,
    2229-2245).  [hp] = 0 stands for NULL.  The fuel bounds the walk. *)
Fixpoint remove_handler (fuel : nat) (st : hstate) (proc hp h : Z) : outcome hstate :=
  match fuel with
  | O => UB
  | S g =>
    if h =? 0 then Ok st else
    match n_find (h_nodes st) h with
    | None => UB
    | Some nd =>
      if n_proc nd =? proc then
        if hp =? 0 then Ok (mkH (h_nodes st) (n_next nd))
        else
          match n_find (h_nodes st) hp with
          | None => UB
          | Some pn =>
            (* hp->next = h->next; free (hp); *)
            do ns <- n_free (n_set (h_nodes st) hp (mkNode (n_next nd) (n_proc pn))) hp;
            Ok (mkH ns (h_head st))
          end
      else remove_handler g st proc h (n_next nd)
    end
  end.

(** CBL_EXIT_PROC, common.c 2177-2215 (installing for 0, 2, 3) and
    CBL_ERROR_PROC, common.c 2217-2254 (installing for 0): [install] is that
    test; [fresh] the address returned by cob_malloc.  Return code first. *)
Definition handler_proc (st : hstate) (install : bool) (proc fresh : Z) : outcome (Z * hstate) :=
  if proc =? 0 then Ok (-1, st) else
  do st1 <- remove_handler (S (length (h_nodes st))) st proc 0 (h_head st);
  if install then Ok (0, mkH ((fresh, mkNode (h_head st1) proc) :: h_nodes st1) fresh)
  else Ok (0, st1).
Definition exit_install (x : Z) : bool := (x =? 0) || (x =? 2) || (x =? 3).
Definition error_install (x : Z) : bool := x =? 0.

(** Running the handlers at the end of the run, common.c 1036-1041 and
    2161-2168: the procedures called, in order. *)
Fixpoint run_handlers (fuel : nat) (ns : nheap) (h : Z) : outcome (list Z) :=
  match fuel with
  | O => UB
  | S g =>
    if h =? 0 then Ok [] else
    match n_find ns h with
    | None => UB
    | Some nd => do r <- run_handlers g ns (n_next nd); Ok (n_proc nd :: r)
    end
  end.
Definition called (st : hstate) : outcome (list Z) := run_handlers (S (length (h_nodes st))) (h_nodes st) (h_head st).
