(** What CALL, CANCEL, CANCEL ALL and EXIT PROGRAM mean, without the call
    table, encoded names, cached pointers and the call tree. *)
From Verif Require Import Base Call.
Local Open Scope Z_scope.

(** [a_run]: the active programs, the running one first; [a_used p]: entered
    and not cancelled since; [a_hist]: every value [a_run] has had, which is
    to say every chain of calls that has happened. *)
Record abs := mkAbs {
  a_run : list nat; a_ws : nat -> list Z; a_used : nat -> bool; a_open : nat -> bool;
  a_exc : bool; a_hist : list (list nat) }.

Definition fupd {A} (p : nat) (v : A) (f : nat -> A) : nat -> A :=
  fun q => if Nat.eqb q p then v else f q.

Section Spec.
Variable sys : list (list Z).   (* the names of the library routines *)
Variable env : list prog.       (* the programs that can be called *)

(** The program a name stands for: the one with this PROGRAM-ID. *)
Definition callee (n : list Z) : option nat :=
  find (fun p => beq (g_id (gprog env p)) n) (seq 0 (length env)).

(** CALL of program [p]: it starts in its initial state if it has not been
    called before, has been cancelled since or is INITIAL; else in the state it
    was left in. *)
Definition a_enter (p : nat) (a : abs) : abs :=
  let g := gprog env p in
  let ws := if a_used a p && negb (g_initial g) then a_ws a p else g_ws0 g in
  mkAbs (p :: a_run a) (fupd p ws (a_ws a)) (fupd p true (a_used a)) (a_open a) false
        ((p :: a_run a) :: a_hist a).

(** CANCEL of the programs in the set [f]: their next CALL finds them in the
    initial state; their files are closed.  The main program is not cancelled. *)
Definition a_cancel (f : nat -> bool) (a : abs) : abs :=
  let c p := f p && negb (g_main (gprog env p)) in
  mkAbs (a_run a) (a_ws a) (fun p => if c p then false else a_used a p)
        (fun p => if c p then false else a_open a p) (a_exc a) (a_hist a).

(** [q] has been called, directly or indirectly, by the program that is
    running now, in the present chain of calls. *)
Fixpoint ends_with (r s : list nat) : bool :=
  if list_eq_dec Nat.eq_dec r s then true
  else match s with [] => false | _ :: s' => ends_with r s' end.
Definition called_below (a : abs) (q : nat) : bool :=
  existsb (fun c => match c with
                    | p :: c' => Nat.eqb p q && ends_with (a_run a) c'
                    | [] => false
                    end) (a_hist a).

Definition a_setexc (b : bool) (a : abs) : abs :=
  mkAbs (a_run a) (a_ws a) (a_used a) (a_open a) b (a_hist a).

(** CALL: a library routine, a program, or ON EXCEPTION. *)
Definition a_call (n : list Z) (a : abs) : abs :=
  if in_names n sys then a_setexc false a
  else match callee n with
       | Some p => a_enter p a
       | None => a_setexc true a
       end.

(** One statement of the running program. *)
Definition a_step (e : ev) (a : abs) : abs :=
  match a_run a with
  | [] => a
  | q :: r =>
    match e with
    | ECallLit n => a_call n a
    | ECallId f => a_call (field_name f) a
    | ECancel f => a_cancel (fun p => beq (g_id (gprog env p)) (field_name f)) a
    | ECancelAll => a_cancel (called_below a) a
    | EStore v => mkAbs (a_run a) (fupd q v (a_ws a)) (a_used a) (a_open a) (a_exc a) (a_hist a)
    | EArith => a
    | EOpen => mkAbs (a_run a) (a_ws a) (a_used a) (fupd q true (a_open a)) (a_exc a) (a_hist a)
    | EExit => mkAbs r (a_ws a) (a_used a) (a_open a) (a_exc a) (a_hist a)
    end
  end.
Definition a_steps (h : list ev) (a : abs) : abs := fold_left (fun a e => a_step e a) h a.

(** The run unit when main program [m] has been started. *)
Definition a_start (m : nat) : abs :=
  a_enter m (mkAbs [] (fun _ => []) (fun _ => false) (fun _ => false) false []).

(** *** What the theorems assume *)

(** A name that a program can have: no NUL, no underscore, and not so long
    that its entry point name does not fit in 1023 letters. *)
Definition good_name (n : list Z) : Prop :=
  Forall (fun c => 1 <= c <= 255 /\ c <> 95) n /\ 3 * Z.of_nat (length n) < 1024.

(** The programs: good and different names, none that of a library routine. *)
Definition good_env : Prop :=
  (forall p, (p < length env)%nat ->
     good_name (g_id (gprog env p)) /\ ~ In (g_id (gprog env p)) sys) /\
  (forall p q, (p < length env)%nat -> (q < length env)%nat ->
     g_id (gprog env p) = g_id (gprog env q) -> p = q).

(** The statement calls a library routine or by a good name. *)
Definition good_ev (e : ev) : Prop :=
  match e with
  | ECallLit n => In n sys \/ good_name n
  | ECallId f => In (field_name f) sys \/ good_name (field_name f)
  | _ => True
  end.

(** The statement does not cancel an active program and does not call one. *)
Definition calm (e : ev) (a : abs) : Prop :=
  match e with
  | ECancel f => forall p, In p (a_run a) -> g_id (gprog env p) <> field_name f
  | ECallLit n => In n sys \/ forall p, In p (a_run a) -> g_id (gprog env p) <> n
  | ECallId f => In (field_name f) sys \/
      forall p, In p (a_run a) -> g_id (gprog env p) <> field_name f
  | _ => True
  end.
Fixpoint calm_run (h : list ev) (a : abs) : Prop :=
  match h with
  | [] => True
  | e :: r => calm e a /\ calm_run r (a_step e a)
  end.

(** Conditions under which CANCEL ALL finds all programs: no program calls
    more than two different programs in one chain of calls, and the names are
    of letters and digits only and begin with a letter. *)
Definition narrow (hist : list (list nat)) : Prop :=
  forall c p q r, In (p :: c) hist -> In (q :: c) hist -> In (r :: c) hist ->
    p = q \/ p = r \/ q = r.
Definition word (n : list Z) : Prop :=
  Forall (fun c => 48 <= c <= 57 \/ 65 <= c <= 90 \/ 97 <= c <= 122) n /\
  match n with c :: _ => ~ (48 <= c <= 57) | [] => True end.

End Spec.
