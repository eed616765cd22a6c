(** Which status a file statement must return because of the open mode, said
    from the history a program has seen: the statements it executed and the
    status each returned.  Nothing here refers to the implementation. *)
From Verif Require Import Base FileIO.

Definition history := list (op * Z).      (* oldest first *)

Definition is_stmt (o : op) : bool :=
  match o with OSet _ | OKey _ | ODep _ => false | _ => true end.

(** The open mode after a history. *)
Definition mode_after (m : open_mode) (e : op * Z) : open_mode :=
  match e with
  | (OOpen md, s) => if (s =? 0) || (s =? 5) then md else m
  | (OClose CloseLock, s) => if s =? 0 then Locked else m
  | (OClose CloseNoRewind, s) => if s =? 7 then Closed else m
  | (OClose _, s) => if s =? 0 then Closed else m
  | _ => m
  end.
Definition mode_of (h : history) : open_mode := fold_left mode_after h Closed.

(** The last file statement was a successful READ. *)
Definition read_after (b : bool) (e : op * Z) : bool :=
  match e with
  | (ORead, s) | (OReadNext, s) => s =? 0
  | (o, _) => if is_stmt o then false else b
  end.
Definition just_read (h : history) : bool := fold_left read_after h false.

(** A READ found the end of the file and no OPEN, START or READ has succeeded
    since. *)
Definition end_after (b : bool) (e : op * Z) : bool :=
  match e with
  | (OOpen _, s) => if (s =? 0) || (s =? 5) then false else b
  | (OStart _, s) => if s =? 0 then false else b
  | (ORead, s) => if s =? 0 then false else b
  | (OReadNext, s) => if s =? 0 then false else if s =? 10 then true else b
  | _ => b
  end.
Definition at_end (h : history) : bool := fold_left end_after h false.

(** The prescribed status of [o] after [h], if the open mode decides it. *)
Definition prescribed (a : access_mode) (h : history) (o : op) : option Z :=
  match o with
  | OOpen _ => match mode_of h with Closed => None | Locked => Some 38 | _ => Some 41 end
  | OClose _ => match mode_of h with Closed | Locked => Some 42 | _ => None end
  | OStart _ => match mode_of h, a with
                | (Input | InOut), AccRandom => Some 47
                | (Input | InOut), _ => None
                | _, _ => Some 47
                end
  | ORead => match mode_of h with Input | InOut => None | _ => Some 47 end
  | OReadNext => match mode_of h with Input | InOut => if at_end h then Some 46 else None | _ => Some 47 end
  | OWrite _ _ => match a, mode_of h with
                  | AccSequential, (Output | Extend) => None
                  | AccSequential, _ => Some 48
                  | _, (Output | InOut) => None
                  | _, _ => Some 48
                  end
  | ORewrite _ | ODelete =>
      match mode_of h, a with
      | InOut, AccSequential => if just_read h then None else Some 43
      | InOut, _ => None
      | _, _ => Some 49
      end
  | _ => None
  end.

(** The cases where the code departs from the prescription (see the _refuted
    theorems of P_Status.v): a READ, WRITE, START or CLOSE of a file closed WITH LOCK, and
    a READ NEXT of a file closed after its end had been reached. *)
Definition departs (h : history) (o : op) : Prop :=
  (mode_of h = Locked /\ match o with OOpen _ | ORewrite _ | ODelete => False | _ => True end) \/
  (mode_of h = Closed /\ at_end h = true /\ o = OReadNext).

(** A file as the program finds it at its start. *)
Record untouched (f : cfile) : Prop := {
  un_open : f_open f = Closed; un_ne : f_nonexistent f = false;
  un_eof : f_eof f = false; un_done : f_read_done f = false }.

(** What a refused statement must leave alone. *)
Record same_file (f g : cfile) : Prop := {
  sf_disk : f_disk g = f_disk f; sf_stream : f_stream g = f_stream f;
  sf_data : f_data g = f_data f; sf_size : f_size g = f_size f;
  sf_key : f_key g = f_key f; sf_dep : f_dep g = f_dep f; sf_open : f_open g = f_open f }.

(** The modes a program can write in an OPEN statement. *)
Definition legal_op (o : op) : Prop :=
  match o with OOpen Closed | OOpen Locked => False | _ => True end.

(** The statuses a program observes. *)
Fixpoint observed (c : iocfg) (f : cfile) (ops : list op) : history :=
  match ops with
  | [] => []
  | o :: r => match run_op c f o with Ok f' => (o, f_status f') :: observed c f' r | _ => [] end
  end.

(** An OPTIONAL file that does not exist was opened for reading. *)
Definition opened_missing (c : iocfg) (e : op * Z) : Prop :=
  snd e = 5 /\ (fst e = OOpen Input \/ (fst e = OOpen InOut /\ io_creates c = false)).

Definition refusals : list Z := [38; 41; 42; 43; 46; 47; 48; 49].
