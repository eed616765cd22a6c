(** EVALUATE: the phrases as the parser collects them (cobc/parser.y 4761-4940),
    build_evaluate (cobc/typeck.c 3946-4084) and the nested IF it becomes. *)
From Verif Require Import Base Field Compute ExprParse Cond.

(** ** The phrases as written.  A statement list is a number, [None] if empty.
    [w_other]: the statements of WHEN OTHER. *)
Inductive wsubject := WSTrue | WSFalse | WSExpr (ts : list inp).
Inductive wobject := WAny | WTrue | WFalse | WExpr (ts : list inp) (thru : option (list inp)).
Record wcase := mkCase { w_whens : list (list wobject); w_stmts : option nat }.
Record wevaluate := mkEval { w_subjects : list wsubject; w_cases : list wcase; w_other : option (option nat) }.

(** ** Trees: cb_true and cb_false next to those of cb_build_expr *)
Inductive subject := STrue | SFalse | SExpr (t : tree).
Inductive object := OAny | OTrue | OFalse | OPair (flag : bool) (x : tree) (y : option tree).
Inductive ctree := CConst (b : bool) | CTree (t : tree) | CNot (x : ctree) | CAnd (x y : ctree) | COr (x y : ctree).

(** cb_build_binary_op on them, tree.c 2262-2272. *)
Definition c_bool (c : ctree) : bool := match c with CTree t => is_bool t | _ => true end.
Definition c_not (x : ctree) : option ctree := if c_bool x then Some (CNot x) else None.
Definition c_and (x y : ctree) : option ctree := if c_bool x && c_bool y then Some (CAnd x y) else None.
Definition c_or (x y : ctree) : option ctree := if c_bool x && c_bool y then Some (COr x y) else None.

(** ** The parser's actions *)
Definition read_subject (w : wsubject) : option subject :=
  match w with
  | WSTrue => Some STrue
  | WSFalse => Some SFalse
  | WSExpr ts => match parse ts with Accepted t => Some (SExpr t) | _ => None end
  end.
Fixpoint read_subjects (l : list wsubject) : option (list subject) :=
  match l with
  | [] => Some []
  | w :: r => match read_subject w, read_subjects r with Some s, Some q => Some (s :: q) | _, _ => None end
  end.
(** 4792-4812: eval_check of the current level; only whether it is below 2 is
    ever asked.  [beyond]: what is read after its 64 elements. *)
Definition kind (w : wsubject) : nat := match w with WSExpr _ => 0 | WSTrue => 2 | WSFalse => 3 end.
Definition eval_check (beyond : nat -> nat) (l : list wsubject) (i : nat) : nat :=
  if (i <? 64)%nat then nth i (map kind l) 0%nat else beyond i.

(** 4901-4934: [i] is eval_inc2. *)
Definition read_object (check : nat -> nat) (i : nat) (w : wobject) : option object :=
  match w with
  | WAny => Some OAny
  | WTrue => Some OTrue
  | WFalse => Some OFalse
  | WExpr ts thru =>
      let '(flag, us) := match ts with INot :: r => if (check i <? 2)%nat then (true, r) else (false, ts) | _ => (false, ts) end in
      match parse us, thru with
      | Accepted x, None => Some (OPair flag x None)
      | Accepted x, Some vs => match parse vs with Accepted y => Some (OPair flag x (Some y)) | _ => None end
      | _, _ => None
      end
  end.
Fixpoint read_objects (check : nat -> nat) (i : nat) (l : list wobject) : option (list object) :=
  match l with
  | [] => Some []
  | w :: r => match read_object check i w, read_objects check (S i) r with Some o, Some q => Some (o :: q) | _, _ => None end
  end.
(** 4883-4887: the WHEN phrases before one statement list; eval_inc2 goes on. *)
Fixpoint read_whens (check : nat -> nat) (i : nat) (l : list (list wobject)) : option (list (list object)) :=
  match l with
  | [] => Some []
  | w :: r => match read_objects check i w, read_whens check (i + length w) r with Some o, Some q => Some (o :: q) | _, _ => None end
  end.
Fixpoint read_cases (check : nat -> nat) (l : list wcase) : option (list (list (list object) * option nat)) :=
  match l with
  | [] => Some []
  | c :: r => match read_whens check 0 (w_whens c), read_cases check r with Some o, Some q => Some ((o, w_stmts c) :: q) | _, _ => None end
  end.
(** 4814-4841: with allow-empty-imperative-statement ([empty_ok]) an empty last
    case gets the statements of WHEN OTHER; without it an empty one is
    rejected. *)
Fixpoint fill_last (l : list (list (list object) * option nat)) (o : option nat) : list (list (list object) * option nat) :=
  match l with
  | [] => []
  | [(w, None)] => [(w, o)]
  | c :: r => c :: fill_last r o
  end.
Definition collect (empty_ok : bool) (l : list (list (list object) * option nat)) (other : option (option nat)) : option (list (list (list object) * option nat)) :=
  let all := l ++ match other with Some o => [([], o)] | None => [] end in
  if negb empty_ok && existsb (fun c => match snd c with None => true | _ => false end) all then None
  else match other with
       | Some o => Some ((if empty_ok then fill_last l o else l) ++ [([], o)])
       | None => Some l
       end.

(** ** evaluate_test, typeck.c 3946-3999 *)
Definition subject_tree (s : subject) : ctree := match s with STrue => CConst true | SFalse => CConst false | SExpr t => CTree t end.
Definition evaluate_test (s : subject) (o : object) : option ctree :=
  match o with
  | OAny => Some (CConst true)
  | OTrue => Some (subject_tree s)
  | OFalse => c_not (subject_tree s)
  | OPair flag x y =>
      match s with
      | STrue => if flag then c_not (CTree x) else Some (CTree x)
      | SFalse => if flag then Some (CTree x) else c_not (CTree x)
      | SExpr t =>
          match y with
          | Some y => let r := CAnd (CTree (TRel RLe x t)) (CTree (TRel RLe t y)) in if flag then c_not r else Some r
          | None => if is_88 x then None else Some (CTree (TRel (if flag then RNe else REq) t x))
          end
      end
  end.

(** ** build_evaluate, 4022-4084: [None] after an error message. *)
Fixpoint when_cond (acc : option ctree) (ss : list subject) (os : list object) : option ctree :=
  match ss, os with
  | [], [] => acc
  | s :: ss', o :: os' =>
      match evaluate_test s o, acc with
      | Some c3, None => when_cond (Some c3) ss' os'
      | Some c3, Some c2 => match c_and c2 c3 with Some c => when_cond (Some c) ss' os' | None => None end
      | None, _ => None
      end
  | _, _ => None
  end.
Fixpoint whens_cond (acc : ctree) (ss : list subject) (ws : list (list object)) : option ctree :=
  match ws with
  | [] => Some acc
  | w :: r => match when_cond None ss w with
              | Some c2 => match c_or acc c2 with Some c => whens_cond c ss r | None => None end
              | None => None
              end
  end.
Inductive estmt := ENone | EStmts (k : option nat) | EIf (c : ctree) (k : option nat) (e : estmt).
Fixpoint build_evaluate (ss : list subject) (cases : list (list (list object) * option nat)) : option estmt :=
  match cases with
  | [] => Some ENone
  | ([], k) :: _ => Some (EStmts k)
  | (w :: ws, k) :: r =>
      match when_cond None ss w with
      | Some c => match whens_cond c ss ws, build_evaluate ss r with Some c1, Some e => Some (EIf c1 k e) | _, _ => None end
      | None => None
      end
  end.
Definition compile_evaluate (empty_ok : bool) (beyond : nat -> nat) (w : wevaluate) : option estmt :=
  match read_subjects (w_subjects w), read_cases (eval_check beyond (w_subjects w)) (w_cases w) with
  | Some ss, Some cs => match collect empty_ok cs (w_other w) with Some all => build_evaluate ss all | None => None end
  | _, _ => None
  end.

(** ** Execution: which statement list is executed *)
Section Run.
Variables (m : cfg) (debug alpha : bool) (col : option (list Z)) (nibble_c : bool) (names : nat -> name88).
Fixpoint eval_c (c : ctree) (s : cst) : outcome (bool * cst) :=
  match c with
  | CConst b => Ok (b, s)
  | CTree t => eval m debug alpha col nibble_c names t s
  | CNot x => do b <- eval_c x s; Ok (negb (fst b), snd b)
  | CAnd x y => do b <- eval_c x s; if fst b then eval_c y (snd b) else Ok b
  | COr x y => do b <- eval_c x s; if fst b then Ok b else eval_c y (snd b)
  end.
Fixpoint run_evaluate (e : estmt) (s : cst) : outcome (option nat * cst) :=
  match e with
  | ENone => Ok (None, s)
  | EStmts k => Ok (k, s)
  | EIf c k r => do b <- eval_c c s; if fst b then Ok (k, snd b) else run_evaluate r (snd b)
  end.
End Run.
