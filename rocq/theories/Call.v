(** Model of CALL, CANCEL and EXIT PROGRAM: the table of called programs and
    the call tree of libcob/call.c and the entry, exit and CANCEL code that
    cobc generates for each program (cobc/codegen.c).
    Not modelled: parameters, LOCAL-STORAGE, ENTRY, EXTERNAL items, the search
    of module files on disk (a program is there or it is not; a module once
    loaded stays), PROGRAM-ID ... AS.  Bytes are classified as in the C
    locale. *)
From Verif Require Import Base.
Local Open Scope Z_scope.

Fixpoint beq (a b : list Z) : bool :=
  match a, b with
  | [], [] => true
  | x :: a', y :: b' => (x =? y) && beq a' b'
  | _, _ => false
  end.

(** *** Names *)

(** isalnum in the C locale. *)
Definition is_alnum (c : Z) : bool :=
  ((48 <=? c) && (c <=? 57)) || ((65 <=? c) && (c <=? 90)) || ((97 <=? c) && (c <=? 122)).

(** One digit of "%02X". *)
Definition hex1 (d : Z) : Z := if d <? 10 then 48 + d else 55 + d.
Definition hex_esc (c : Z) : list Z := [95; hex1 (c / 16); hex1 (c mod 16)].

(** cob_resolve, libcob/call.c 400-410, and cb_encode_program_id,
    cobc/typeck.c 595-604: the loop over the letters. *)
Fixpoint enc_tail (s : list Z) : list Z :=
  match s with
  | [] => []
  | c :: r =>
    if is_alnum c || (c =? 95) then c :: enc_tail r
    else if c =? 45 then 95 :: 95 :: enc_tail r
    else hex_esc c ++ enc_tail r
  end.

(** cob_resolve, call.c 395-411; cb_encode_program_id, typeck.c 582-607. *)
Definition encode (s : list Z) : list Z :=
  match s with
  | c :: r => if is_digitb c then hex_esc c ++ enc_tail r else enc_tail s
  | [] => []
  end.

(** cob_field_to_string, libcob/common.c 1224-1236: trailing spaces and NULs
    are cut; the result is used as a C string, so it ends at a first NUL. *)
Fixpoint rtrim (s : list Z) : list Z :=
  match s with
  | [] => []
  | c :: r =>
    match rtrim r with
    | [] => if (c =? 32) || (c =? 0) then [] else [c]
    | r' => c :: r'
    end
  end.
Fixpoint cstr (s : list Z) : list Z :=
  match s with
  | [] => []
  | c :: r => if c =? 0 then [] else c :: cstr r
  end.
Definition field_name (f : list Z) : list Z := cstr (rtrim f).

(** *** The table of called programs, call.c 132-172, 232-283 *)

(** What a function pointer in the table leads to: a library routine of
    system_tab (call.c 175-195) or the program with this number. *)
Inductive target := TSys (n : list Z) | TProg (p : nat).

(** struct call_hash, call.c 134-141.  flag_is_active is never set. *)
Record entry := mkEntry { h_name : list Z; h_func : target; h_cancel : option nat }.
Definition table := list (list entry).

Definition HASH_SIZE : Z := 131.
(** hash, call.c 232-243. *)
Definition hash (n : list Z) : nat := Z.to_nat (fold_right Z.add 0 n mod HASH_SIZE).

Fixpoint lupd {A} (i : nat) (v : A) (l : list A) {struct l} : list A :=
  match l with
  | [] => []
  | x :: r => match i with O => v :: r | S j => x :: lupd j v r end
  end.
Definition bucket (t : table) (n : list Z) : list entry := nth (hash n) t [].

(** insert, call.c 246-267. *)
Definition insert (n : list Z) (f : target) (c : option nat) (t : table) : table :=
  lupd (hash n) (mkEntry n f c :: bucket t n) t.

(** lookup, call.c 269-283. *)
Fixpoint find_name (n : list Z) (l : list entry) : option target :=
  match l with
  | [] => None
  | e :: r => if beq n (h_name e) then Some (h_func e) else find_name n r
  end.
Definition lookup (n : list Z) (t : table) : option target := find_name n (bucket t n).

(** cob_set_cancel, call.c 348-367. *)
Fixpoint set_first (n : list Z) (c : nat) (l : list entry) : option (list entry) :=
  match l with
  | [] => None
  | e :: r =>
    if beq n (h_name e) then Some (mkEntry (h_name e) (h_func e) (Some c) :: r)
    else match set_first n c r with Some r' => Some (e :: r') | None => None end
  end.
Definition set_cancel (n : list Z) (f : target) (c : nat) (t : table) : table :=
  match set_first n c (bucket t n) with
  | Some l => lupd (hash n) l t
  | None => insert n f (Some c) t
  end.

(** *** Programs *)

(** What codegen knows of a program: orig_source_name, PROGRAM-ID ... INITIAL,
    whether it is the main program, whether it has decimal registers d0, d1,
    ... (decimal_index_max), and the initial WORKING-STORAGE. *)
Record prog := mkProg {
  g_id : list Z; g_initial : bool; g_main : bool; g_dec : bool; g_ws0 : list Z }.

(** lt_dlsym: the program with this entry point, call.c 413-432, 450-475. *)
Fixpoint sym_from (i : nat) (env : list prog) (e : list Z) : option nat :=
  match env with
  | [] => None
  | g :: r => if beq (encode (g_id g)) e then Some i else sym_from (S i) r e
  end.
Definition sym (env : list prog) (e : list Z) : option nat := sym_from 0 env e.

(** The statics of a generated program: initialized (codegen.c 4085),
    WORKING-STORAGE, whether the decimals are initialised, whether its files
    are open, module.next (4097). *)
Record pst := mkPst {
  p_inited : bool; p_ws : list Z; p_decok : bool; p_open : bool; p_next : option nat }.

(** *** The call tree, call.c 285-323, 739-790 *)

(** struct call_stack_list; the head has no name. *)
Record node := mkNode {
  n_name : list Z; n_parent : option nat; n_child : option nat; n_sister : option nat }.
Record tree := mkTree { t_nodes : list node; t_cur : nat }.
Definition null_node : node := mkNode [] None None None.
(** init_call_stack_list, call.c 285-293. *)
Definition tree0 : tree := mkTree [null_node] 0.
Definition tnode (t : tree) (i : nat) : node := nth i (t_nodes t) null_node.

(** cob_create_call_stack_list, call.c 295-304, and the assignment of its
    result to a member.  The order of the two is unspecified in C; here the
    member is that of the node that was current before, as compiled by gcc. *)
Definition set_child (i j : nat) (l : list node) : list node :=
  let x := nth i l null_node in
  lupd i (mkNode (n_name x) (n_parent x) (Some j) (n_sister x)) l.
Definition set_sister (i j : nat) (l : list node) : list node :=
  let x := nth i l null_node in
  lupd i (mkNode (n_name x) (n_parent x) (n_child x) (Some j)) l.
Definition create (n : list Z) (t : tree) : list node * nat :=
  (t_nodes t ++ [mkNode n (Some (t_cur t)) None None], length (t_nodes t)).

(** The loop of cob_push_call_stack_list, call.c 760-769; [fuel] is the number
    of nodes, which is enough as the chain has no cycle. *)
Fixpoint find_sister (fuel : nat) (t : tree) (n : list Z) (p : nat) : outcome (option nat) :=
  match fuel with
  | O => UB
  | S k =>
    if beq (n_name (tnode t p)) n then Ok (Some p)
    else match n_sister (tnode t p) with
         | None => Ok None
         | Some q => find_sister k t n q
         end
  end.

(** cob_push_call_stack_list, call.c 739-772. *)
Definition push_tree (n : list Z) (t : tree) : outcome tree :=
  let new := create n t in
  match n_child (tnode t (t_cur t)) with
  | None => Ok (mkTree (set_child (t_cur t) (snd new) (fst new)) (snd new))
  | Some p =>
    if beq (n_name (tnode t p)) n then Ok (mkTree (t_nodes t) p)
    else match n_sister (tnode t p) with
    | None => Ok (mkTree (set_sister p (snd new) (fst new)) (snd new))
    | Some q =>
      do r <- find_sister (length (t_nodes t)) t n q;
      match r with
      | Some x => Ok (mkTree (t_nodes t) x)
      | None => Ok (mkTree (set_sister (t_cur t) (snd new) (fst new)) (snd new))
      end
    end
  end.

(** cob_pop_call_stack_list, call.c 774-778. *)
Definition pop_tree (t : tree) : outcome tree :=
  match n_parent (tnode t (t_cur t)) with
  | Some p => Ok (mkTree (t_nodes t) p)
  | None => UB
  end.

(** cob_cancel_call_stack_list, call.c 306-325: the names given to
    cob_field_cancel, in order.  [fuel] bounds the depth of the recursion and
    the length of the sister chains; running out is an endless recursion. *)
Fixpoint names_from (fuel : nat) (t : tree) (p : nat) : outcome (list (list Z)) :=
  match fuel with
  | O => UB
  | S k =>
    do c <- (match n_child (tnode t p) with
             | None => Ok []
             | Some q => names_from k t q
             end);
    do s <- (fix sisters (m : nat) (s : option nat) : outcome (list (list Z)) :=
               match s with
               | None => Ok []
               | Some x =>
                 match m with
                 | O => UB
                 | S m' =>
                   do a <- names_from k t x;
                   do b <- sisters m' (n_sister (tnode t x));
                   Ok (a ++ b)
                 end
               end) k (n_sister (tnode t p));
    Ok (n_name (tnode t p) :: c ++ s)
  end.
(** cob_cancel_all, call.c 781-790. *)
Definition all_names (t : tree) : outcome (list (list Z)) :=
  match n_child (tnode t (t_cur t)) with
  | None => Ok []
  | Some p => names_from (S (length (t_nodes t))) t p
  end.

(** *** The run unit *)

(** [s_cache] holds the static call_... pointers of each program for CALL
    literal (codegen.c 2516-2531): caller, encoded name, pointer.
    [s_run] is the C stack of generated functions, the running one first.
    [s_exc] says that the last CALL took its ON EXCEPTION branch. *)
Record st := mkSt {
  s_tab : table; s_progs : list pst; s_cache : list (nat * list Z * target);
  s_run : list nat; s_mod : option nat; s_tree : tree; s_exc : bool }.

Definition pst0 : pst := mkPst false [] false false None.
Definition prog0 : prog := mkProg [] false false false [].
Definition gprog (env : list prog) (p : nat) : prog := nth p env prog0.
Definition gpst (s : st) (p : nat) : pst := nth p (s_progs s) pst0.
Definition set_pst (p : nat) (x : pst) (s : st) : st :=
  mkSt (s_tab s) (lupd p x (s_progs s)) (s_cache s) (s_run s) (s_mod s) (s_tree s) (s_exc s).

(** The CANCEL callback of a program (entry < 0), codegen.c 4290-4312. *)
Definition cancel_prog (p : nat) (s : st) : st :=
  let x := gpst s p in
  if p_inited x then set_pst p (mkPst false (p_ws x) false false (p_next x)) s else s.

(** cobcancel, call.c 528-554, cob_field_cancel 556-564. *)
Fixpoint cancel_entries (n : list Z) (l : list entry) (s : st) : st :=
  match l with
  | [] => s
  | e :: r =>
    cancel_entries n r
      (if beq n (h_name e) then
         match h_cancel e with Some p => cancel_prog p s | None => s end
       else s)
  end.
Definition cob_cancel (n : list Z) (s : st) : st := cancel_entries n (bucket (s_tab s) n) s.

(** The entry code of program [p], codegen.c 4331-4412, 4453-4475. *)
Definition enter (env : list prog) (p : nat) (s : st) : outcome st :=
  let g := gprog env p in
  do t <- push_tree (encode (g_id g)) (s_tree s);
  let x := gpst s p in
  let fresh := negb (p_inited x) in
  let tab := if fresh && negb (g_main g)
             then set_cancel (g_id g) (TProg p) p (s_tab s) else s_tab s in
  let ws := if fresh && negb (g_initial g) then g_ws0 g else p_ws x in
  let ws := if g_initial g then g_ws0 g else ws in
  let x' := mkPst true ws (p_decok x || fresh) (p_open x) (s_mod s) in
  Ok (mkSt tab (lupd p x' (s_progs s)) (s_cache s) (p :: s_run s) (Some p) t false).

(** cob_resolve, call.c 369-480, without the search on disk: a library routine
    or a program entered before from the cache, else the entry point by its
    encoded name, which is built in call_entry_buff (COB_SMALL_BUFF bytes). *)
Definition resolve (env : list prog) (n : list Z) (s : st) : outcome (option target * st) :=
  match lookup n (s_tab s) with
  | Some f => Ok (Some f, s)
  | None =>
    if 1024 <=? Z.of_nat (length (encode n)) then UB
    else match sym env (encode n) with
    | Some p =>
      Ok (Some (TProg p),
          mkSt (insert n (TProg p) None (s_tab s)) (s_progs s) (s_cache s) (s_run s)
               (s_mod s) (s_tree s) (s_exc s))
    | None => Ok (None, s)
    end
  end.

Definition set_exc (b : bool) (s : st) : st :=
  mkSt (s_tab s) (s_progs s) (s_cache s) (s_run s) (s_mod s) (s_tree s) b.

(** The call of the resolved function; a library routine returns at once and
    changes nothing here.  NULL: the ON EXCEPTION branch, codegen.c 2533-2542. *)
Definition invoke (env : list prog) (f : option target) (s : st) : outcome st :=
  match f with
  | Some (TProg p) => enter env p s
  | Some (TSys _) => Ok (set_exc false s)
  | None => Ok (set_exc true s)
  end.

(** The static call_... pointer of the running program, codegen.c 2516-2531. *)
Fixpoint cached (q : nat) (e : list Z) (l : list (nat * list Z * target)) : option target :=
  match l with
  | [] => None
  | (q', e', f) :: r => if Nat.eqb q q' && beq e e' then Some f else cached q e r
  end.

(** What a program in the run unit does. *)
Inductive ev :=
| ECallLit (n : list Z)      (* CALL "n" *)
| ECallId (f : list Z)       (* CALL identifier, holding f *)
| ECancel (f : list Z)       (* CANCEL identifier or literal, holding f *)
| ECancelAll                 (* CANCEL ALL *)
| EStore (v : list Z)        (* stores into its WORKING-STORAGE *)
| EArith                     (* arithmetic with the decimals d0, d1, ... *)
| EOpen                      (* opens its files *)
| EExit.                     (* EXIT PROGRAM, GOBACK *)

Definition in_names (n : list Z) (l : list (list Z)) : bool := existsb (beq n) l.

(** One statement of the running program [q].  The system table is the list
    of names [sys]; CALL of a literal in it is compiled to a direct call
    (codegen.c 2277-2289, typeck.c 3550-3566). *)
Definition step (sys : list (list Z)) (env : list prog) (e : ev) (s : st) : outcome st :=
  match s_run s with
  | [] => Ok s
  | q :: run =>
    match e with
    | ECallLit n =>
      if in_names n sys then invoke env (Some (TSys n)) s
      else match cached q (encode n) (s_cache s) with
      | Some f => invoke env (Some f) s
      | None =>
        do r <- resolve env n s;
        let s' := snd r in
        let c := match fst r with
                 | Some f => (q, encode n, f) :: s_cache s'
                 | None => s_cache s'
                 end in
        invoke env (fst r)
          (mkSt (s_tab s') (s_progs s') c (s_run s') (s_mod s') (s_tree s') (s_exc s'))
      end
    | ECallId f =>
      do r <- resolve env (field_name f) s;
      invoke env (fst r) (snd r)
    | ECancel f => Ok (cob_cancel (field_name f) s)
    | ECancelAll =>
      do l <- all_names (s_tree s);
      Ok (fold_left (fun s n => cob_cancel (field_name n) s) l s)
    | EStore v =>
      let x := gpst s q in
      Ok (set_pst q (mkPst (p_inited x) v (p_decok x) (p_open x) (p_next x)) s)
    | EArith =>
      if g_dec (gprog env q) && negb (p_decok (gpst s q)) then UB else Ok s
    | EOpen =>
      let x := gpst s q in
      Ok (set_pst q (mkPst (p_inited x) (p_ws x) (p_decok x) true (p_next x)) s)
    | EExit =>
      do t <- pop_tree (s_tree s);
      match s_mod s with
      | None => UB
      | Some m =>
        Ok (mkSt (s_tab s) (s_progs s) (s_cache s) run (p_next (gpst s m)) t (s_exc s))
      end
    end
  end.

Fixpoint run (sys : list (list Z)) (env : list prog) (h : list ev) (s : st) : outcome st :=
  match h with
  | [] => Ok s
  | e :: r => do s' <- step sys env e s; run sys env r s'
  end.

(** cob_init_call, call.c 566-645: the system routines are in the table; then
    the main program [m] is started. *)
Definition table0 (sys : list (list Z)) : table :=
  fold_left (fun t n => insert n (TSys n) None t) sys (repeat [] 131).
Definition start (sys : list (list Z)) (env : list prog) (m : nat) : outcome st :=
  enter env m (mkSt (table0 sys) (repeat pst0 (length env)) [] [] None tree0 false).
