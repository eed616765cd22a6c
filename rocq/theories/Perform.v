(** The flow of control that cobc generates: paragraphs and sections
    (cobc/parser.y 3672-3690, 3907-3975), GO TO (cobc/codegen.c 2747-2785), EXIT
    PARAGRAPH/SECTION/PERFORM (parser.y 4965-5034) and PERFORM (codegen.c
    2792-2978, parser.y 5449-5536).

    The other statements, the conditions and the integers read by TIMES and
    DEPENDING ON are given functions of the program's state, which may also end
    the run (STOP RUN, a fatal error).  The C statements for(;;), if, break and
    switch are lowered to jumps between numbered instructions. *)
From Coq Require Import List ZArith Lia Bool.
Import ListNotations.
Local Open Scope Z_scope.

Section Perform.
Variables (St Ex : Type).
Definition op : Type := St -> St + Ex.
Definition test : Type := St -> bool * St + Ex.
Definition int_of : Type := St -> Z * St + Ex.

(** ** Statements.  [v_from]: the MOVE of FROM to the item, if there is one. *)
Record varying := mkVar { v_from : option op; v_until : test; v_step : option op }.
(** [k] of TIMES is the number of its loop counter (loop_counter++, 2951-2954). *)
Inductive phrase := POnce | PForever | PTimes (k : nat) (n : int_of) | PUntil (before : bool) (vs : list varying).
Inductive stmt :=
| Skip
| Seq (a b : stmt)
| Do (o : op)
| If (c : test) (a b : stmt)
| Goto (l : nat)                            (* also EXIT PARAGRAPH and EXIT SECTION *)
| GotoDep (n : int_of) (ls : list nat)
| Stop                                      (* goto exit_program *)
| ExitPerform
| ExitCycle
| Inline (p : phrase) (b : stmt)
| Outline (p : phrase) (lb le : nat).

(** The statements of a program as the parser emits them: labels, ends of
    paragraphs and sections (cb_build_perform_exit), statements. *)
Inductive item := Lab (l : nat) | End (l : nat) | Code (s : stmt).
Record para := mkPara { p_name : nat; p_exit : nat; p_body : stmt }.
Record section := mkSec { s_name : nat; s_exit : nat; s_body : stmt; s_paras : list para }.
Definition para_items (p : para) : list item := [Lab (p_name p); Code (p_body p); Lab (p_exit p); End (p_name p)].
Definition section_items (s : section) : list item :=
  Lab (s_name s) :: Code (s_body s) :: flat_map para_items (s_paras s) ++ [Lab (s_exit s); End (s_name s)].
Definition program_items (p : list section) : list item := flat_map section_items p.

(** ** Instructions of the generated function *)
Inductive instr :=
| IDo (o : op)
| IIf (c : test) (t f : nat)
| IJmp (pc : nat)
| ILab (l : nat)
| IGoto (l : nat)
| ISwitch (n : int_of) (ls : list nat)
| IStop
| IPush (through ret : nat)                 (* 2803-2809, 2827: frame_ptr++ and the two fields *)
| IPop                                      (* 2833: frame_ptr-- *)
| IExit (l : nat)                           (* output_perform_exit *)
| ISetN (k : nat) (n : int_of)
| ITestN (k : nat) (f : nat)                (* if not n_k > 0 goto f *)
| IDecN (k : nat).

(** Lengths of the code. *)
Definition len_opt (o : option op) : nat := match o with Some _ => 1 | None => 0 end.
Definition next_from (vs : list varying) : option op := match vs with v :: _ => v_from v | [] => None end.
Fixpoint len_until (b : nat) (vs : list varying) : nat :=
  match vs with
  | [] => b
  | v :: r => len_opt (next_from r) + 1 + len_until b r + len_opt (v_step v) + 1
  end.
Definition len_phrase (p : phrase) (b : nat) : nat :=
  match p with
  | POnce => b
  | PForever => b + 1
  | PTimes _ _ => 2 + b + 2
  | PUntil _ vs => len_opt (next_from vs) + len_until b vs
  end.
Fixpoint len (s : stmt) : nat :=
  match s with
  | Skip => 0
  | Seq a b => len a + len b
  | Do _ | Goto _ | GotoDep _ _ | Stop | ExitPerform | ExitCycle => 1
  | If _ a b => 1 + len a + 1 + len b
  | Inline p b => len_phrase p (len b)
  | Outline p _ _ => len_phrase p 3
  end.

Definition code_opt (o : option op) : list instr := match o with Some f => [IDo f] | None => [] end.

(** output_perform_until: [body] is the code of output_perform_once at a given
    place, of length [b]. *)
Fixpoint comp_until (before : bool) (b : nat) (body : nat -> list instr) (vs : list varying) (pc : nat) : list instr :=
  match vs with
  | [] => body pc
  | v :: r =>
      let p1 := (pc + len_opt (next_from r))%nat in
      let out := (pc + len_until b vs)%nat in
      code_opt (next_from r) ++
      (if before
       then [IIf (v_until v) out (p1 + 1)] ++ comp_until before b body r (p1 + 1)
       else comp_until before b body r p1 ++ [IIf (v_until v) out (p1 + len_until b r + 1)]) ++
      code_opt (v_step v) ++ [IJmp pc]
  end.
(** output_perform. *)
Definition comp_phrase (p : phrase) (b : nat) (body : nat -> list instr) (pc : nat) : list instr :=
  match p with
  | POnce => body pc
  | PForever => body pc ++ [IJmp pc]
  | PTimes k n => [ISetN k n; ITestN k (pc + 2 + b + 2)] ++ body (pc + 2)%nat ++ [IDecN k; IJmp (pc + 1)]
  | PUntil before vs =>
      code_opt (next_from vs) ++ comp_until before b body vs (pc + len_opt (next_from vs))
  end.
(** [x], [c]: where EXIT PERFORM and EXIT PERFORM CYCLE go. *)
Fixpoint comp (s : stmt) (x c : nat) (pc : nat) : list instr :=
  match s with
  | Skip => []
  | Seq a b => comp a x c pc ++ comp b x c (pc + len a)
  | Do o => [IDo o]
  | If t a b => [IIf t (pc + 1) (pc + 1 + len a + 1)] ++ comp a x c (pc + 1) ++ [IJmp (pc + 1 + len a + 1 + len b)] ++ comp b x c (pc + 1 + len a + 1)
  | Goto l => [IGoto l]
  | GotoDep n ls => [ISwitch n ls]
  | Stop => [IStop]
  | ExitPerform => [IJmp x]
  | ExitCycle => [IJmp c]
  | Inline p b => comp_phrase p (len b) (fun q => comp b (pc + len_phrase p (len b)) (q + len b) q) pc
  | Outline p lb le => comp_phrase p 3 (fun q => [IPush le (q + 2); IGoto lb; IPop]) pc
  end.

(** typeck.c 1703-1723: an end is checked only if some PERFORM names it. *)
Fixpoint returns_from (l : nat) (s : stmt) : bool :=
  match s with
  | Seq a b | If _ a b => returns_from l a || returns_from l b
  | Inline _ b => returns_from l b
  | Outline _ _ le => Nat.eqb l le
  | _ => false
  end.
Definition need_return (items : list item) (l : nat) : bool :=
  existsb (fun i => match i with Code s => returns_from l s | _ => false end) items.
Definition len_item (need : nat -> bool) (i : item) : nat :=
  match i with Lab _ => 1 | End l => if need l then 1 else 0 | Code s => len s end.
Definition comp_item (need : nat -> bool) (i : item) (pc : nat) : list instr :=
  match i with
  | Lab l => [ILab l]
  | End l => if need l then [IExit l] else []
  | Code s => comp s 0 0 pc
  end.
Fixpoint comp_items (need : nat -> bool) (is : list item) (pc : nat) : list instr :=
  match is with
  | [] => []
  | i :: r => comp_item need i pc ++ comp_items need r (pc + len_item need i)
  end.
Definition compile (items : list item) : list instr := comp_items (need_return items) items 0.

(** ** The machine: the frames above frame_stack[0], the loop counters, the
    state.  The run ends at the end of the code or at exit_program, with an
    operation that ends it, with the message of the stack check, or with a write
    beyond frame_stack. *)
Record conf := mkConf { pc : nat; frames : list (nat * nat); counters : nat -> Z; state : St }.
Inductive final := Finished (s : St) | Ended (e : Ex) | StackFatal | StackUB.
Inductive move := Next (c : conf) | Halt (f : final).

Definition STACK_SIZE : nat := 255.
Fixpoint find_label (l : nat) (code : list instr) (pc : nat) : option nat :=
  match code with
  | [] => None
  | ILab k :: r => if Nat.eqb k l then Some pc else find_label l r (S pc)
  | _ :: r => find_label l r (S pc)
  end.
Definition set_n (n : nat -> Z) (k : nat) (v : Z) : nat -> Z := fun j => if Nat.eqb j k then v else n j.
(** The frame an end returns from: the top one, or with perform-osvs the first
    one from the top that has this end. *)
Fixpoint drop_to (l : nat) (fr : list (nat * nat)) : list (nat * nat) :=
  match fr with
  | [] => []
  | (t, r) :: q => if Nat.eqb t l then fr else drop_to l q
  end.
Definition exit_frames (osvs : bool) (l : nat) (fr : list (nat * nat)) : list (nat * nat) :=
  if osvs then drop_to l fr
  else match fr with (t, r) :: _ => if Nat.eqb t l then fr else [] | [] => [] end.

Definition goto (code : list instr) (l : nat) (c : conf) (s : St) : move :=
  match find_label l code 0 with
  | Some p => Next (mkConf p (frames c) (counters c) s)
  | None => Halt StackUB   (* never: cobc rejects unknown labels *)
  end.
Definition step (check osvs : bool) (code : list instr) (c : conf) : move :=
  let go p s := Next (mkConf p (frames c) (counters c) s) in
  match nth_error code (pc c) with
  | None => Halt (Finished (state c))
  | Some i =>
      match i with
      | IDo o => match o (state c) with inl s => go (S (pc c)) s | inr e => Halt (Ended e) end
      | IIf t a b => match t (state c) with inl (v, s) => go (if v then a else b) s | inr e => Halt (Ended e) end
      | IJmp p => go p (state c)
      | ILab _ => go (S (pc c)) (state c)
      | IGoto l => goto code l c (state c)
      | ISwitch n ls =>
          match n (state c) with
          | inl (v, s) => if (1 <=? v) && (v <=? Z.of_nat (length ls)) then goto code (nth (Z.to_nat (v - 1)) ls 0%nat) c s else go (S (pc c)) s
          | inr e => Halt (Ended e)
          end
      | IStop => Halt (Finished (state c))
      | IPush t r =>
          let d := S (length (frames c)) in
          if (STACK_SIZE <=? d)%nat then Halt StackUB
          else if check && (d =? STACK_SIZE - 1)%nat then Halt StackFatal
          else Next (mkConf (S (pc c)) ((t, r) :: frames c) (counters c) (state c))
      | IPop => Next (mkConf (S (pc c)) (tl (frames c)) (counters c) (state c))
      | IExit l =>
          match exit_frames osvs l (frames c) with
          | (t, r) :: q => Next (mkConf r ((t, r) :: q) (counters c) (state c))
          | [] => go (S (pc c)) (state c)
          end
      | ISetN k n => match n (state c) with inl (v, s) => Next (mkConf (S (pc c)) (frames c) (set_n (counters c) k v) s) | inr e => Halt (Ended e) end
      | ITestN k f => go (if 0 <? counters c k then S (pc c) else f) (state c)
      | IDecN k => Next (mkConf (S (pc c)) (frames c) (set_n (counters c) k (counters c k - 1)) (state c))
      end
  end.
(** [n] steps at most. *)
Fixpoint runs (check osvs : bool) (code : list instr) (n : nat) (c : conf) : option final :=
  match n with
  | O => None
  | S g => match step check osvs code c with Next c' => runs check osvs code g c' | Halt f => Some f end
  end.
Definition start (s : St) : conf := mkConf 0 [] (fun _ => 0) s.
End Perform.
Arguments POnce {St Ex}. Arguments PForever {St Ex}. Arguments PTimes {St Ex} _ _. Arguments PUntil {St Ex} _ _.
Arguments mkVar {St Ex} _ _ _. Arguments v_from {St Ex} _. Arguments v_until {St Ex} _. Arguments v_step {St Ex} _.
Arguments Skip {St Ex}. Arguments Seq {St Ex} _ _. Arguments Do {St Ex} _. Arguments If {St Ex} _ _ _. Arguments Goto {St Ex} _.
Arguments GotoDep {St Ex} _ _. Arguments Stop {St Ex}. Arguments ExitPerform {St Ex}. Arguments ExitCycle {St Ex}.
Arguments Inline {St Ex} _ _. Arguments Outline {St Ex} _ _ _.
Arguments Lab {St Ex} _. Arguments End {St Ex} _. Arguments Code {St Ex} _.
Arguments mkPara {St Ex} _ _ _. Arguments mkSec {St Ex} _ _ _ _. Arguments p_name {St Ex} _. Arguments p_exit {St Ex} _. Arguments p_body {St Ex} _.
Arguments s_name {St Ex} _. Arguments s_exit {St Ex} _. Arguments s_body {St Ex} _. Arguments s_paras {St Ex} _.
Arguments para_items {St Ex} _. Arguments section_items {St Ex} _. Arguments program_items {St Ex} _.
Arguments IDo {St Ex} _. Arguments IIf {St Ex} _ _ _. Arguments IJmp {St Ex} _. Arguments ILab {St Ex} _. Arguments IGoto {St Ex} _.
Arguments ISwitch {St Ex} _ _. Arguments IStop {St Ex}. Arguments IPush {St Ex} _ _. Arguments IPop {St Ex}. Arguments IExit {St Ex} _.
Arguments ISetN {St Ex} _ _. Arguments ITestN {St Ex} _ _. Arguments IDecN {St Ex} _.
Arguments len_opt {St Ex} _. Arguments next_from {St Ex} _. Arguments len_until {St Ex} _ _. Arguments len_phrase {St Ex} _ _. Arguments len {St Ex} _.
Arguments code_opt {St Ex} _. Arguments comp_until {St Ex} _ _ _ _ _. Arguments comp_phrase {St Ex} _ _ _ _. Arguments comp {St Ex} _ _ _ _.
Arguments returns_from {St Ex} _ _. Arguments need_return {St Ex} _ _. Arguments len_item {St Ex} _ _. Arguments comp_item {St Ex} _ _ _.
Arguments comp_items {St Ex} _ _ _. Arguments compile {St Ex} _. Arguments mkConf {St} _ _ _ _. Arguments pc {St} _. Arguments frames {St} _.
Arguments counters {St} _. Arguments state {St} _. Arguments Finished {St Ex} _. Arguments Ended {St Ex} _. Arguments StackFatal {St Ex}. Arguments StackUB {St Ex}.
Arguments Next {St Ex} _. Arguments Halt {St Ex} _. Arguments find_label {St Ex} _ _ _. Arguments goto {St Ex} _ _ _ _. Arguments step {St Ex} _ _ _ _.
Arguments runs {St Ex} _ _ _ _ _. Arguments start {St} _.
